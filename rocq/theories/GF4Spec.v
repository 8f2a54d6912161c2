(* Specification: the field with four elements as polynomials a + b*w over GF(2) with
   w^2 = w + 1. *)
From Verif Require Import Base.

Definition gf4 := (bool * bool)%type.
Definition gadd (x y : gf4) : gf4 := (xorb (fst x) (fst y), xorb (snd x) (snd y)).
Definition gmul (x y : gf4) : gf4 :=
  let (a, b) := x in let (c, d) := y in
  (* (a + bw)(c + dw) = ac + (ad+bc) w + bd (w+1) *)
  (xorb (a && c) (b && d), xorb (xorb (a && d) (b && c)) (b && d)).
Definition g0 : gf4 := (false, false).
Definition g1 : gf4 := (true, false).

(* element t of a packed word: bits 2t and 2t+1 *)
Definition gelem (x : N) (t : N) : gf4 := (N.testbit x (2 * t), N.testbit x (2 * t + 1)).
