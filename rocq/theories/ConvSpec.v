(* Specification of the correlations and of the sub-protocols. *)
From Verif Require Import Base Words ConvModel.

(* A trit OT in lane i: the sender's two trits are valid and the receiver's trit is the
   one selected by the choice bit. *)
Definition trit_ot (s : trit_s) (r : trit_r) : Prop :=
  forall i, tvalid (tsM0 s) (tsL0 s) i /\ tvalid (tsM1 s) (tsL1 s) i /\
    N.testbit (trM r) i = (if N.testbit (trC r) i then N.testbit (tsM1 s) i else N.testbit (tsM0 s) i) /\
    N.testbit (trL r) i = (if N.testbit (trC r) i then N.testbit (tsL1 s) i else N.testbit (tsL0 s) i).

(* a 1-out-of-4 bit OT in lane i *)
Definition f4_ot (s : f4_s) (r : f4_r) : Prop :=
  forall i, N.testbit (frO r) i =
    match N.testbit (frM r) i, N.testbit (frL r) i with
    | false, false => N.testbit (fs0 s) i | false, true => N.testbit (fs1 s) i
    | true, false => N.testbit (fs2 s) i | true, true => N.testbit (fs3 s) i
    end.

(* a binary OLE in lane i: add0 + add1 = mult0 * mult1 *)
Definition bin_ole (a b : ole) : Prop :=
  forall i, xorb (N.testbit (fst a) i) (N.testbit (fst b) i) = N.testbit (snd a) i && N.testbit (snd b) i.

(* segments of the two parties match: same sizes, positions correlated *)
Definition segs_rel {A B} (R : A -> B -> Prop) (a : list (list A)) (b : list (list B)) : Prop :=
  Forall2 (Forall2 R) a b.

(* total number of positions *)
Definition total {A} (segs : list (list A)) : nat := length (concat segs).

(* a, b are XOR shares of the parity of the trits shared by v and u (each a pair lsb, msb) *)
Definition mod2_shares (v u : list (N * N)) (a b : list N) : Prop :=
  length a = length u /\ length b = length u /\
  forall k i, k < length u -> (i < 128)%N ->
    let v0 := fst (nth k v (0, 0)%N) in let v1 := snd (nth k v (0, 0)%N) in
    let u0 := fst (nth k u (0, 0)%N) in let u1 := snd (nth k u (0, 0)%N) in
    tvalid v1 v0 i -> tvalid u1 u0 i ->
    xorb (N.testbit (nth k a 0%N) i) (N.testbit (nth k b 0%N) i) = Nat.odd ((trit v1 v0 i + trit u1 u0 i) mod 3).
