(* Specification of the table printers and of the lanes of the vector type: base 3 digits
   and 32 bit words only. *)
From Verif Require Import Base.

(* the s base 3 digits of i, least significant first *)
Definition digits3 (s i : nat) : list N := map (fun j => N.of_nat (i / 3 ^ j mod 3)) (seq 0 s).

(* a word of 32 bits *)
Definition w32 (x : N) : Prop := (x < 2 ^ 32)%N.

(* s applications of a step that may fail *)
Fixpoint iter_o {A} (f : A -> outcome A) (i : nat) (a : A) : outcome A :=
  match i with 0 => Ok a | S i' => do b <- iter_o f i' a; f b end.
