(* Specification of bit injection, masked row sums and stable sorting. *)
From Verif Require Import Base Words PermSpec PermCorModel PermCorSpec PrfModel KeyMultModel BitInjModel RadixModel ShuffleModel ShuffleSpec.

(* two segments of random OTs that belong together *)
Definition ot_rel (s : ot_send) (r : ot_recv) : Prop :=
  length s = length (oMsg r) /\ length (oChoice r) = length (oMsg r) /\
  forall j, j < length s ->
    nth j (oMsg r) 0%N = if nth j (oChoice r) false then snd (nth j s (0, 0)%N) else fst (nth j s (0, 0)%N).

(* requests of both parties: matching segments, none of them empty, k OTs at least *)
Definition ots_ok (k : nat) (ss : list ot_send) (rs : list ot_recv) : Prop :=
  Forall2 ot_rel ss rs /\ Forall (fun s => s <> []) ss /\ k <= length (concat ss).

(* x and y are additive shares modulo 2^w of the bit b *)
Definition shares_bit (w : nat) (b : bool) (x y : N) : Prop :=
  (x < 2 ^ N.of_nat w /\ y < 2 ^ N.of_nat w /\ (x + y) mod 2 ^ N.of_nat w = N.b2n b)%N.

(* bit (row, j) of a matrix with c bytes per row *)
Definition mbit (c : nat) (d : list N) (row j : nat) : bool := sbit d (8 * (row * c) + j).

(* sum of f 0 .. f (n-1) *)
Fixpoint zsum (n : nat) (f : nat -> Z) : Z :=
  match n with 0 => 0%Z | S n => (zsum n f + f n)%Z end.

(* p puts the rows into the order of their keys, equal keys in their original order:
   p[i] is the position of row i *)
Definition sorts (n : nat) (key : nat -> N) (p : list nat) : Prop :=
  is_perm n p /\ forall i j, i < n -> j < n ->
    (nth i p 0 < nth j p 0 <-> (key i < key j)%N \/ (key i = key j /\ i < j)).

(* the little endian number in a row of bytes *)
Definition le_num (l : list N) : N := fold_right (fun b acc => (b + 256 * acc)%N) 0%N l.

(* the key of row i *)
Definition keyn (c : nat) (k : list N) (i : nat) : N := le_num (slice k (i * c) c).

(* the OTs of hadamardSum are good *)
Definition hots_ok (k cols : nat) (o : hs_ots) : Prop :=
  ots_ok k (h1s o) (h0r o) /\ ots_ok k (h0s o) (h1r o) /\
  Forall (fun s => length s mod cols = 0) (h1s o) /\ Forall (fun s => length s mod cols = 0) (h0s o).

(* the randomness of a round fits *)
Definition rround_ok (L n : nat) (rd : radix_round) : Prop :=
  ots_ok (n * 2 ^ L) (rdInj0 rd) (rdInj1 rd) /\ length (rdHot rd) = n * div_ceil (2 ^ L) 8 /\
  hots_ok (n * 2 ^ L) (2 ^ L) (rdHs rd) /\ length (rdA2b rd) = n /\ Forall (fun x => (x < 2 ^ N.of_nat (a2b_bits n))%N) (rdA2b rd).

(* a pair of composed permutations with cap unused bytes per row *)
Definition comps_ok (n cap : nat) (c : comp * comp) : Prop := comp_rel n cap (fst c) (snd c) /\ csOff (cpS (fst c)) = 0 /\ csOff (cpS (snd c)) = 0.
