(* Specification: matrix-vector product mod 3, and columns of bit-sliced matrices. *)
From Verif Require Import Base Words.

Definition dot3 (row x : list nat) : nat := fold_right plus 0 (map2 mult row x) mod 3.
Definition matvec3 (M : list (list nat)) (x : list nat) : list nat := map (fun row => dot3 row x) M.

Definition cell (M : list (list N)) (r c : nat) : N := nth c (nth r M []) 0%N.
Definition dims {A} (M : list (list A)) (r c : nat) : Prop :=
  length M = r /\ forall row, In row M -> length row = c.

(* lane i of column c: the vector of trits it stores *)
Definition lane_col (msb lsb : list (list N)) (c : nat) (i : N) : list nat :=
  map (fun r => trit (cell msb r c) (cell lsb r c) i) (seq 0 (length msb)).

Definition all_valid (msb lsb : list (list N)) : Prop :=
  forall r c i, tvalid (cell msb r c) (cell lsb r c) i.
