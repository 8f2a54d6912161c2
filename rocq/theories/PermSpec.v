(* Specification vocabulary for permutations, independent of the model. *)
From Verif Require Import Base.

(* pi is a permutation of 0..n-1 *)
Definition is_perm (n : nat) (pi : list nat) : Prop := Permutation pi (seq 0 n).

(* the i-th row of a row-major matrix with c columns *)
Definition row {A} (c : nat) (m : list A) (i : nat) : list A := firstn c (skipn (i * c) m).

(* dst is the gather of src by pi: row i of dst is row pi[i] of src *)
Definition gathered {A} (c : nat) (pi : list nat) (src dst : list A) : Prop :=
  length dst = length pi * c /\
  forall i p, nth_error pi i = Some p -> row c dst i = row c src p.

(* dst is the scatter of src by pi: row pi[i] of dst is row i of src *)
Definition scattered {A} (c : nat) (pi : list nat) (src dst : list A) : Prop :=
  length dst = length pi * c /\
  forall i p, nth_error pi i = Some p -> row c dst p = row c src i.
