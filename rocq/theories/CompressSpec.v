(* Specification vocabulary for the compressed correlations; no code of /repo here. *)
From Verif Require Import Base Words GF4Spec.

(* bit p of a little endian buffer of w-bit words *)
Definition buf_bit (w : nat) (l : list N) (p : nat) : bool :=
  N.testbit (nth (p / w) l 0%N) (N.of_nat (p mod w)).

(* correlated OTs: the receiver's entry is the sender's, plus delta when its choice bit (stored
   in bit 0) is set; bit 0 itself is not part of the correlation *)
Definition cot (delta : N) (A B : list N) : Prop :=
  length A = length B /\
  forall p k, p < length A -> (1 <= k < 128)%N ->
   N.testbit (nth p A 0%N) k =
   xorb (N.testbit (nth p B 0%N) k) (N.testbit (nth p A 0%N) 0 && N.testbit delta k).

(* F4 VOLE: the receiver's entry is the sender's plus c * delta in GF(4)^64, where c is stored in
   element 0, which is not part of the correlation *)
Definition f4_vole (delta : N) (A B : list N) : Prop :=
  length A = length B /\
  forall p t, p < length A -> (1 <= t < 64)%N ->
   gelem (nth p A 0%N) t =
   gadd (gelem (nth p B 0%N) t) (gmul (gelem (nth p A 0%N) 0) (gelem delta t)).
