(* What generating a permutation correlation with LowMC must give, for C59. *)
From Verif Require Import Base GmwModel GmwSpec LowMCModel LowMCSpec LowMCPermModel.

(* the round keys belonging to the bits the receiver draws *)
Definition drawn_keys (p : lparams) (l : lowmc) (kbits : nat -> bool) : nat -> bvec :=
  fun r => matvec (lpKey p) (nth r (lmKeyMat l) []) kbits.
(* the point encrypted for block j of row i *)
Definition point_bits (j i : nat) : bvec := bitv (N.of_nat (j + i) * 2 ^ 32 mod 2 ^ 64).
(* its encryption *)
Definition low_mask (p : lparams) (l : lowmc) (kbits : nat -> bool) (j i : nat) : bvec :=
  cipher (lpBoxes p) (lpBits p) (lmLin l) (const_vecs l) (drawn_keys p l kbits) (lpRounds p) (point_bits j i).

(* levels that compute what the circuit of to_enc_circuit computes *)
Definition leveled (p : lparams) (l : lowmc) (lvs : list level) : Prop :=
  Forall (level_ok (low_wires p)) lvs /\
  well_def (concat (low_ins p)) (concat (low_ins p)) (concat (map fst lvs)) /\
  (forall v, In v (concat (low_outs p)) -> exists h, In h (concat (map fst lvs)) /\ gOut h = v) /\
  forall s, enc_circuit p l = Ok s -> forall e v, In v (concat (low_outs p)) ->
    eval (concat (map fst lvs)) e v = eval (snd s) e v.

(* a matrix of n rows of c bytes *)
Definition rect (n c : nat) (m : list (list N)) : Prop := length m = n /\ Forall (fun r => length r = c) m.
