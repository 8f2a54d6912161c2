(* Specification: product of a bit vector with a matrix over GF(2). *)
From Verif Require Import Base.

Definition xsum (l : list N) : N := fold_right N.lxor 0%N l.

(* sum over the rows r selected by the bits of x *)
Definition f2_mul (G : list N) (x : N) : N :=
  xsum (map (fun r => if N.testbit x (N.of_nat r) then nth r G 0%N else 0%N) (seq 0 (length G))).
