(* What a perfect shuffle is: bits of two rows alternate. *)
From Verif Require Import Base.

(* bit k of a row of bytes *)
Definition sbit (l : list N) (k : nat) : bool := N.testbit (nth (k / 8) l 0%N) (N.of_nat (k mod 8)).

(* the first n bits *)
Definition row_bits (n : nat) (l : list N) : list bool := map (sbit l) (seq 0 n).

Definition bytes (l : list N) : Prop := Forall (fun x => (x < 256)%N) l.

(* alternating elements of two lists, and the two halves of an alternating list *)
Fixpoint interleave {A} (l m : list A) : list A :=
  match l, m with
  | a :: l', b :: m' => a :: b :: interleave l' m'
  | _, _ => []
  end.
Fixpoint evens {A} (l : list A) : list A :=
  match l with
  | [] => []
  | a :: l' => a :: match l' with [] => [] | _ :: l'' => evens l'' end
  end.
Definition odds {A} (l : list A) : list A := evens (tl l).
