(* Vocabulary of the GMW properties: Boolean circuits on bits, independent of the protocol. *)
From Verif Require Import Base GmwModel.
From Coq Require Import Permutation.

(* truth tables of the gate types, as in the plain evaluation of Gmw.cpp:527-563 *)
Definition gfun (t : gate_type) (a b : bool) : bool :=
  match t with
  | GCopy => a
  | GAnd => a && b
  | GNand => negb (a && b)
  | GOr => a || b
  | GnbOr => a || negb b
  | GNor => negb (a || b)
  | GnbAnd => a && negb b
  | GnaAnd => negb a && b
  | GXor => xorb a b
  | GNxor => negb (xorb a b)
  | GOther => false
  end.

(* an assignment of bits to wires, and sequential evaluation of a list of gates *)
Definition env := nat -> bool.
Definition put (e : env) (i : nat) (b : bool) : env := fun j => if j =? i then b else e j.
Definition step (e : env) (g : gate) : env := put e (gOut g) (gfun (gType g) (e (gIn0 g)) (e (gIn1 g))).
Definition eval (gs : list gate) (e : env) : env := fold_left step gs e.

(* the wires a gate depends on (a copy gate ignores its second input) *)
Definition reads (g : gate) (i : nat) : Prop := i = gIn0 g \/ (gType g <> GCopy /\ i = gIn1 g).

(* A round is well levelled: no later gate of the round reads the output of a nonlinear gate,
   and no later linear gate overwrites an input or the output of a nonlinear gate. *)
Inductive levelled : list gate -> Prop :=
| lev_nil : levelled []
| lev_cons g gs : levelled gs ->
    (nonlinear (gType g) = true -> forall h, In h gs ->
       ~ reads h (gOut g) /\
       (nonlinear (gType h) = false -> ~ reads g (gOut h) /\ gOut h <> gOut g)) ->
    levelled (g :: gs).

Definition count_nonlinear (gs : list gate) : nat := length (filter (fun g => nonlinear (gType g)) gs).

(* a level as the protocol needs it: wires in range, supported types, right AND count *)
Definition level_ok (wires : nat) (lv : level) : Prop :=
  levelled (fst lv) /\ snd lv = count_nonlinear (fst lv) /\
  (forall g, In g (fst lv) -> gIn0 g < wires /\ gIn1 g < wires /\ gOut g < wires /\ gType g <> GOther).

(* bit (c, k) of wire i: block column c, lane k *)
Definition wbit (mem : list (list N)) (c : nat) (k : N) : env := fun i => N.testbit (nth c (nth i mem []) 0%N) k.
Definition shared (mem0 mem1 : list (list N)) (c : nat) (k : N) : env :=
  fun i => xorb (wbit mem0 c k i) (wbit mem1 c k i).

(* rows of w blocks *)
Definition mem_ok (wires w : nat) (mem : list (list N)) : Prop :=
  length mem = wires /\ Forall (fun r => length r = w) mem.

(* OLE correlation, position by position: the product of the multipliers is the sum of the
   addends *)
Definition ole_pos (p q : triple) : Prop := N.land (fst p) (fst q) = N.lxor (snd p) (snd q).
Definition ole_segs (s0 s1 : list (list triple)) : Prop := Forall2 (Forall2 ole_pos) s0 s1.

Definition even_segs (s : list (list triple)) : Prop := Forall (fun l => Nat.even (length l) = true) s.

(* the message sizes of a round: chunks of M blocks, the last one possibly smaller *)
Fixpoint chunk_sizes (fuel M n : nat) : list nat :=
  match fuel with
  | 0 => []
  | S k => if n =? 0 then [] else Nat.min M n :: chunk_sizes k M (n - Nat.min M n)
  end.

(* total demand of triples *)
Definition demand (w : nat) (lvs : list level) : nat :=
  fold_right (fun lv s => 2 * w * count_nonlinear (fst lv) + s) 0 lvs.

(* iterated loading, one entry of `needs` per round *)
Fixpoint load_rounds (role : bool) (needs : list nat) (cur : list triple) (segs : list (list triple))
  : outcome (list quad * list triple * list (list triple)) :=
  match needs with
  | [] => Ok ([], cur, segs)
  | n :: ns =>
    do r <- load role n cur segs;
    let '(q, cur, segs) := r in
    do rs <- load_rounds role ns cur segs;
    let '(qs, cur, segs) := rs in Ok (q :: qs, cur, segs)
  end.

(* ---- inlining ---- *)

(* every gate reads only wires already defined, and never writes an input wire *)
Fixpoint well_def (inputs defined : list nat) (gs : list gate) : Prop :=
  match gs with
  | [] => True
  | g :: gs' => (forall i, reads g i -> In i defined) /\ ~ In (gOut g) inputs /\
    well_def inputs (gOut g :: defined) gs'
  end.

(* A circuit evaluate can inline: the input and output wires are the first wires, each once;
   all wires in range; the outputs are computed. *)
Definition inlinable (c : circuit) : Prop :=
  let used := length (concat (cIns c)) + length (concat (cOuts c)) in
  used <= cWires c /\
  Permutation (concat (cIns c) ++ concat (cOuts c)) (seq 0 used) /\
  well_def (concat (cIns c)) (concat (cIns c)) (cGates c) /\
  (forall g, In g (cGates c) -> gIn0 g < cWires c /\ gIn1 g < cWires c /\ gOut g < cWires c) /\
  (forall o, In o (concat (cOuts c)) -> exists g, In g (cGates c) /\ gOut g = o).
