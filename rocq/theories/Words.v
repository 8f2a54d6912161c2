(* Machine words as N, lanes, and trits in bit-sliced form.  Specification vocabulary
   shared by the models of the PRF and of the correlations; no code of /repo here. *)
From Verif Require Import Base.

(* ~a & b, the semantics of block::andnot_si128(a, b) *)
Definition andnot (a b : N) : N := N.ldiff b a.
(* block::AllOneBlock, e.g. mod3.h:87-110 *)
Definition ones (w : N) : N := N.ones w.
(* bitwise complement of a w-bit word (operator~, e.g. in Prf/mod3.h:20-110) *)
Definition wnot (w a : N) : N := N.lxor a (N.ones w).

(* the value of a bit (as in the sums of Prf/mod3.h:87-91) *)
Definition b2n (b : bool) : nat := if b then 1 else 0.

(* The trit stored in lane i of the word pair (msb, lsb): 2*msb + lsb.  An encoding is
   valid when the lane is not (1,1). *)
Definition trit (m l : N) (i : N) : nat := 2 * b2n (N.testbit m i) + b2n (N.testbit l i).
(* the encoding of trits by mod3.h:87-91 *)
Definition tvalid (m l : N) (i : N) : Prop := N.testbit m i && N.testbit l i = false.

Lemma trit_lt m l i : tvalid m l i -> trit m l i < 3.
Proof. unfold tvalid, trit. destruct (N.testbit m i), (N.testbit l i); simpl; intros; try lia; discriminate. Qed.

Lemma trit_lt_valid m l i : trit m l i < 3 -> tvalid m l i.
Proof. unfold tvalid, trit. destruct (N.testbit m i), (N.testbit l i); simpl; intros; auto; lia. Qed.

Ltac bits_rw := repeat first
  [ rewrite N.lxor_spec | rewrite N.land_spec | rewrite N.lor_spec | rewrite N.ldiff_spec ].

(* goals about lanes reduce to a truth table *)
Ltac lanes := unfold trit, tvalid, andnot in *; intros; bits_rw;
  repeat match goal with H : context [N.testbit _ _] |- _ => revert H end;
  repeat match goal with |- context [N.testbit ?x ?i] => destruct (N.testbit x i) end;
  simpl; intros; repeat split; try discriminate; auto; try lia.
