(* C58: the LowMC cipher (secure-join/Prf/LowMC.h). *)
From Verif Require Import Base GmwModel GmwSpec LowMCModel LowMCSpec LowMCMat LowMCProofs LowMCCircuit LowMCLoad.
Local Open Scope N_scope.

(* rank_of_Matrix gives the number of columns exactly for the regular square matrices *)
Theorem C58_rank n mat : (0 < n)%nat -> square n mat -> (rank_of n mat = Ok n <-> regular n mat).
Proof. apply rank_regular. Qed.

(* invert_Matrix gives a two-sided inverse of every regular matrix *)
Theorem C58_invert n mat : (0 < n)%nat -> square n mat -> regular n mat ->
  exists v, invert_matrix n mat = Ok v /\ square n v /\ inverse_of n mat v.
Proof. apply invert_inverse. Qed.

(* the constructor, from any bit stream and any matrix files: encrypt computes the cipher under
   the scheduled round keys *)
Theorem C58_encrypt p inv fuel rng lf kf key l x :
  (0 < lpBits p)%nat -> (3 * lpBoxes p <= lpBits p)%nat -> key < 2 ^ N.of_nat (lpKey p) -> x < 2 ^ N.of_nat (lpBits p) ->
  lm_new p inv fuel rng lf kf key = Ok l ->
  scheduled p l key /\
  exists y, lm_encrypt p l x = Ok y /\ y < 2 ^ N.of_nat (lpBits p) /\
    forall i, (i < lpBits p)%nat ->
      bitv y i = cipher (lpBoxes p) (lpBits p) (lmLin l) (const_vecs l) (key_vecs l) (lpRounds p) (bitv x) i.
Proof.
  intros H0 Hb Hk Hx H. destruct (new_ok H0 Hb Hk H) as (A & B & C & _). split; [exact C|].
  exact (encrypt_cipher A B Hx).
Qed.

(* with invertable set, decrypt and encrypt are inverse to each other *)
Theorem C58_decrypt p fuel rng lf kf key l x :
  (0 < lpBits p)%nat -> (3 * lpBoxes p <= lpBits p)%nat -> key < 2 ^ N.of_nat (lpKey p) -> x < 2 ^ N.of_nat (lpBits p) ->
  lm_new p true fuel rng lf kf key = Ok l ->
  (exists y, lm_encrypt p l x = Ok y /\ lm_decrypt p l y = Ok x) /\
  (exists y, y < 2 ^ N.of_nat (lpBits p) /\ lm_decrypt p l x = Ok y /\ lm_encrypt p l y = Ok x).
Proof.
  intros H0 Hb Hk Hx H. destruct (new_ok H0 Hb Hk H) as (A & B & _ & _ & C & _). specialize (C eq_refl).
  split; [exact (decrypt_encrypt A B C Hx)|exact (encrypt_decrypt A B C Hx)].
Qed.

(* without it decrypt throws *)
Theorem C58_decrypt_throws p fuel rng lf kf key l x :
  lm_new p false fuel rng lf kf key = Ok l -> lm_decrypt p l x = Throw.
Proof.
  intros H. unfold lm_new in H. apply bind_ok in H. destruct H as (l0 & E & H).
  assert (I0 : lmInvertable l0 = false).
  { unfold instantiate in E. apply bind_ok in E. destruct E as ([[a b] c] & _ & E).
    apply bind_ok in E. destruct E as (d & _ & E). inversion E; reflexivity. }
  unfold set_key in H. apply bind_ok in H. destruct H as (ks & _ & H). inversion H; subst l.
  unfold lm_decrypt. cbn [lmInvertable]. rewrite I0. reflexivity.
Qed.

(* set_key gives the instance the constructor would have given *)
Theorem C58_set_key p inv fuel rng lf kf key key' l :
  (0 < lpBits p)%nat -> (3 * lpBoxes p <= lpBits p)%nat -> key < 2 ^ N.of_nat (lpKey p) -> key' < 2 ^ N.of_nat (lpKey p) ->
  lm_new p inv fuel rng lf kf key = Ok l ->
  set_key p l key' = lm_new p inv fuel rng lf kf key' /\ exists l', set_key p l key' = Ok l'.
Proof. apply rekey_ok. Qed.

(* the circuit computes the cipher of the message and round keys on its input wires, if every row
   of the matrices has two ones; its output wires carry no pending inversion *)
Theorem C58_circuit p inv fuel rng lf kf key l :
  (0 < lpBits p)%nat -> (3 * lpBoxes p <= lpBits p)%nat -> key < 2 ^ N.of_nat (lpKey p) ->
  lm_new p inv fuel rng lf kf key = Ok l ->
  Forall (Forall (two_ones (lpBits p))) (lmLin l) ->
  exists s, enc_circuit p l = Ok s /\
    (forall i, (i < lpBits p)%nat -> nth (wState p i) (fst s) true = false) /\
    forall (e : env) i, (i < lpBits p)%nat ->
      eval (snd s) e (wState p i) =
      cipher (lpBoxes p) (lpBits p) (lmLin l) (const_vecs l) (fun r j => e (lpBits p * (1 + r) + j)%nat) (lpRounds p) e i.
Proof.
  intros H0 Hb Hk H HT. destruct (new_ok H0 Hb Hk H) as (A & _).
  destruct (@circuit_ok p l A HT) as (s & E & F & V). exists s. split; [exact E|]. split; [exact F|]. exact V.
Qed.

(* loadMatrix accepts exactly the texts of matrices, with anything behind *)
Theorem C58_load rows n f m : (0 < n)%nat -> (load_matrix rows n f = Ok m <->
  length m = rows /\ Forall (fun x => x < 2 ^ N.of_nat n) m /\ exists rest, f = mat_text n m ++ rest).
Proof. apply load_iff. Qed.
(* without invertable the constructor returns, and every bit of the instance is a bit of its own of
   the stream: matrices, then constants, then key matrices *)
Theorem C58_stream p fuel rng lf kf key : key < 2 ^ N.of_nat (lpKey p) -> exists l, lm_new p false fuel rng lf kf key = Ok l /\
  (forall r i j, (r < lpRounds p -> i < lpBits p -> j < lpBits p ->
     bitv (nth i (nth r (lmLin l) []) 0%N) j = rng (r * (lpBits p * lpBits p) + i * lpBits p + j))%nat) /\
  (forall r j, (r < lpRounds p -> j < lpBits p ->
     bitv (nth r (lmConst l) 0%N) j = rng (lpRounds p * (lpBits p * lpBits p) + r * lpBits p + j))%nat) /\
  (forall r i j, (r <= lpRounds p -> i < lpBits p -> j < lpKey p ->
     bitv (nth i (nth r (lmKeyMat l) []) 0%N) j =
     rng (lpRounds p * (lpBits p * lpBits p) + lpRounds p * lpBits p + r * (lpBits p * lpKey p) + i * lpKey p + j))%nat).
Proof. apply stream_ok. Qed.
(* with it, the matrices are those in the files that exist *)
Theorem C58_files p fuel rng lf kf key l : (0 < lpBits p)%nat -> (0 < lpKey p)%nat -> lm_new p true fuel rng lf kf key = Ok l ->
  (forall r f, (r < lpRounds p)%nat -> lf r = Some f -> exists rest, f = mat_text (lpBits p) (nth r (lmLin l) []) ++ rest) /\
  (forall r f, (r <= lpRounds p)%nat -> kf r = Some f -> exists rest, f = mat_text (lpKey p) (nth r (lmKeyMat l) []) ++ rest).
Proof. apply files_ok. Qed.

(* ---------------- examples ---------------- *)
Definition ex_p : lparams := LP 1 4 2 2.
Definition ex_lin (r : nat) : option (list N) := (* rows 0111, 1110, 1101, 0101 read from a file *)
  Some [48; 49; 49; 49; 10;  49; 49; 49; 48; 10;  49; 49; 48; 49; 10;  48; 49; 48; 49; 10].
Definition ex_key (r : nat) : option (list N) :=
  Some [49; 48; 10; 48; 49; 10; 49; 49; 10; 48; 49; 10].
Definition ex_rng (i : nat) : bool := Nat.odd (i * i / 3).
Definition ex_low : lowmc :=
  Low true [[14; 7; 11; 10]; [14; 7; 11; 10]] [[12; 7; 9; 15]; [12; 7; 9; 15]] [12; 1]
      [[1; 2; 3; 2]; [1; 2; 3; 2]; [1; 2; 3; 2]] [14; 14; 14].

Example C58_ex_new : lm_new ex_p true 1 ex_rng ex_lin ex_key 2 = Ok ex_low.
Proof. vm_compute. reflexivity. Qed.
Example C58_ex_text : ex_lin 0 = Some (mat_text 4 [14; 7; 11; 10]) /\ load_matrix 4 4 (mat_text 4 [14; 7; 11; 10] ++ [33]) = Ok [14; 7; 11; 10].
Proof. vm_compute. auto. Qed.
Example C58_ex_cut : load_matrix 2 2 [48; 49; 10; 49] = Throw /\ load_matrix 1 2 [49; 10; 10] = Throw /\ load_matrix 1 2 [] = UB.
Proof. vm_compute. auto. Qed.
Example C58_ex_stream : exists l, lm_new (LP 1 3 2 1) false 0 ex_rng ex_lin ex_key 2 = Ok l /\
  lmLin l = [rand_mat ex_rng 3 3 0] /\ lmConst l = [rand_bits ex_rng 3 9] /\ lmKeyMat l = [rand_mat ex_rng 3 2 12; rand_mat ex_rng 3 2 18].
Proof.
  destruct (lm_new (LP 1 3 2 1) false 0 ex_rng ex_lin ex_key 2) as [l| | |] eqn:E; try (vm_compute in E; discriminate).
  exists l. split; [reflexivity|]. vm_compute in E. injection E as <-. vm_compute. auto.
Qed.
Example C58_ex_encrypt : lm_encrypt ex_p ex_low 11 = Ok 9 /\ lm_decrypt ex_p ex_low 9 = Ok 11.
Proof. vm_compute. auto. Qed.
Example C58_ex_rank : rank_of 4 [14; 7; 11; 10] = Ok 4%nat /\ rank_of 4 [14; 7; 11; 2] = Ok 3%nat.
Proof. vm_compute. auto. Qed.
Example C58_ex_square : square 4 [14; 7; 11; 10].
Proof. split; [reflexivity|]. repeat constructor. Qed.
Example C58_ex_invert : invert_matrix 4 [14; 7; 11; 10] = Ok [12; 7; 9; 15].
Proof. vm_compute. reflexivity. Qed.
Example C58_ex_set_key : set_key ex_p ex_low 3 = Ok (Low true (lmLin ex_low) (lmInv ex_low) (lmConst ex_low) (lmKeyMat ex_low) [11; 11; 11]).
Proof. vm_compute. reflexivity. Qed.
Example C58_ex_throws : exists l, lm_new ex_p false 0 ex_rng ex_lin ex_key 2 = Ok l /\ lm_decrypt ex_p l 3 = Throw.
Proof.
  destruct (lm_new ex_p false 0 ex_rng ex_lin ex_key 2) as [l| | |] eqn:E; try (vm_compute in E; discriminate).
  exists l. split; [reflexivity|]. apply (C58_decrypt_throws 3 E).
Qed.
Example C58_ex_two_ones : Forall (Forall (two_ones 4)) (lmLin ex_low).
Proof.
  assert (H : Forall (two_ones 4) [14; 7; 11; 10]).
  { constructor; [exists 1%nat, 2%nat; repeat split; lia|]. constructor; [exists 0%nat, 1%nat; repeat split; lia|].
    constructor; [exists 0%nat, 1%nat; repeat split; lia|]. constructor; [exists 1%nat, 3%nat; repeat split; lia|]. constructor. }
  constructor; [exact H|]. constructor; [exact H|]. constructor.
Qed.
(* message 11 and three round keys 14 on the wires: the output wires carry 9 *)
Definition ex_env : env := fun w => bitv 0xEEEB w.
Example C58_ex_circuit : match enc_circuit ex_p ex_low with
  | Ok s => map (eval (snd s) ex_env) (map (wState ex_p) [0; 1; 2; 3]%nat) = [true; false; false; true]
  | _ => False end.
Proof. vm_compute. reflexivity. Qed.

(* ---------------- what does not hold ---------------- *)

(* The circuit cannot be built for every instance: a row with fewer than two ones makes the search
   for the second one run off the row.  Here the matrix is the identity, which passes the check
   of the rank. *)
Theorem C58_sparse_row_refuted :
  ~ (forall p inv fuel rng lf kf key l, (0 < lpBits p)%nat -> (3 * lpBoxes p <= lpBits p)%nat ->
       key < 2 ^ N.of_nat (lpKey p) -> lm_new p inv fuel rng lf kf key = Ok l -> exists s, enc_circuit p l = Ok s).
Proof.
  intros H.
  pose (lf := fun _ : nat => Some [49; 48; 48; 10; 48; 49; 48; 10; 48; 48; 49; 10]).
  pose (kf := fun _ : nat => Some [49; 10; 48; 10; 48; 10]).
  destruct (lm_new (LP 1 3 1 1) true 0 ex_rng lf kf 1) as [l| | |] eqn:E; try (vm_compute in E; discriminate).
  destruct (H (LP 1 3 1 1) true 0%nat ex_rng lf kf 1 l) as (s & Es); [apply Nat.ltb_lt; reflexivity|apply Nat.leb_le; reflexivity|reflexivity|exact E|].
  vm_compute in E. injection E as <-. vm_compute in Es. discriminate.
Qed.

(* With a key longer than the block the constructor reads beyond the key matrix as soon as the
   matrix has its full rank before the last column. *)
Theorem C58_long_key_refuted :
  exists p rng lf kf key, (0 < lpBits p)%nat /\ (3 * lpBoxes p <= lpBits p)%nat /\ key < 2 ^ N.of_nat (lpKey p) /\
    lm_new p true 1 rng lf kf key = UB.
Proof.
  exists (LP 0 2 3 1), ex_rng, (fun _ => Some [49; 48; 10; 48; 49; 10]), (fun _ => Some [48; 48; 49; 10; 48; 49; 48; 10]), 1.
  split; [cbn; lia|]. split; [cbn; lia|]. split; [reflexivity|]. vm_compute. reflexivity.
Qed.

(* With invertable not set, as LowMCPerm uses it, nothing makes encrypt injective. *)
Theorem C58_unchecked_refuted :
  exists p rng key l x y, lm_new p false 0 rng (fun _ => None) (fun _ => None) key = Ok l /\
    x < 2 ^ N.of_nat (lpBits p) /\ y < 2 ^ N.of_nat (lpBits p) /\ x <> y /\ lm_encrypt p l x = lm_encrypt p l y.
Proof.
  exists (LP 1 3 1 1), (fun i => Nat.eqb i 1), 1, (Low false [[2; 0; 0]] [] [0] [[0; 0; 0]; [0; 0; 0]] [0; 0]), 0, 1.
  split; [vm_compute; reflexivity|]. split; [reflexivity|]. split; [reflexivity|]. split; [discriminate|].
  vm_compute. reflexivity.
Qed.
Print Assumptions C58_rank.
Print Assumptions C58_invert.
Print Assumptions C58_encrypt.
Print Assumptions C58_decrypt.
Print Assumptions C58_decrypt_throws.
Print Assumptions C58_set_key.
Print Assumptions C58_circuit.
Print Assumptions C58_load.
Print Assumptions C58_stream.
Print Assumptions C58_files.
Print Assumptions C58_sparse_row_refuted.
Print Assumptions C58_long_key_refuted.
Print Assumptions C58_unchecked_refuted.
