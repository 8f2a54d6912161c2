(* The SIMD helpers bit by bit, and the fallbacks against them. *)
From Verif Require Import Base Words Mod3Model PrfModel PrfProofs SimdModel.
From Coq Require Import ZArith.

Lemma of_words_bit w : (0 < w)%N -> forall l j k, Forall (fun x => (x < 2 ^ w)%N) l -> (k < w)%N ->
  N.testbit (of_words w l) (w * N.of_nat j + k) = N.testbit (nth j l 0%N) k.
Proof.
  intros Hw. induction l as [|x l IH]; intros j k HF Hk.
  - cbn [of_words fold_right]. destruct j; simpl nth; rewrite !N.bits_0; reflexivity.
  - inversion HF as [|? ? Hx HF']; subst. cbn [of_words fold_right]. rewrite N.lor_spec.
    destruct j as [|j].
    + replace (w * N.of_nat 0 + k)%N with k by lia. cbn [nth].
      rewrite N.shiftl_spec_low by exact Hk. apply orb_false_r.
    + cbn [nth]. rewrite N.shiftl_spec_high' by lia.
      replace (w * N.of_nat (Datatypes.S j) + k - w)%N with (w * N.of_nat j + k)%N by lia.
      fold (of_words w l). rewrite IH by auto.
      replace (N.testbit x (w * N.of_nat (Datatypes.S j) + k)) with false; [reflexivity|].
      symmetry. destruct (N.eq_dec x 0) as [->|Hx0]; [apply N.bits_0|].
      apply N.bits_above_log2. apply N.lt_le_trans with w; [|lia].
      apply N.log2_lt_pow2; lia.
Qed.

Lemma byteN_bit x j k : (k < 8)%N -> N.testbit (byteN x j) k = N.testbit x (8 * N.of_nat j + k).
Proof.
  intros H. unfold byteN, byte_of. change 255%N with (N.ones 8).
  rewrite N.land_spec, N.ones_spec_low, andb_true_r by exact H.
  rewrite N.shiftr_spec'. f_equal. lia.
Qed.

Lemma word16_bit x j k : (k < 16)%N -> N.testbit (word16 x j) k = N.testbit x (16 * N.of_nat j + k).
Proof.
  intros H. unfold word16. rewrite N.land_spec, N.ones_spec_low, andb_true_r by exact H.
  rewrite N.shiftr_spec'. f_equal. lia.
Qed.

Lemma land_ones_lt' a w : (N.land a (N.ones w) < 2 ^ w)%N.
Proof. rewrite N.land_ones. apply N.mod_lt. apply N.pow_nonzero. discriminate. Qed.

Lemma byte_of_lt x b : (byte_of x b < 2 ^ 8)%N.
Proof. unfold byte_of. change 255%N with (N.ones 8). apply land_ones_lt'. Qed.

Lemma nth_map_seq A (f : nat -> A) n j d : j < n -> nth j (map f (seq 0 n)) d = f j.
Proof.
  intros H. rewrite nth_indep with (d' := f 0) by (rewrite map_length, seq_length; exact H).
  rewrite map_nth, seq_nth by exact H. reflexivity.
Qed.

(* hardware semantics, bit by bit *)
Lemma shuffle_bit a b j k : j < 16 -> (k < 8)%N ->
  N.testbit (shuffle_epi8 a b) (8 * N.of_nat j + k) =
  if N.testbit b (8 * N.of_nat j + 7) then false else N.testbit (byte_of a (N.land (byteN b j) 15)) k.
Proof.
  intros Hj Hk. unfold shuffle_epi8. rewrite of_words_bit; [|lia| |exact Hk].
  - rewrite nth_map_seq by exact Hj. cbn zeta. rewrite byteN_bit by lia.
    destruct (N.testbit b (8 * N.of_nat j + 7)); [apply N.bits_0|reflexivity].
  - apply Forall_forall. intros y Hy. apply in_map_iff in Hy. destruct Hy as (i & <- & _).
    cbn zeta. destruct (N.testbit (byteN b i) 7); [reflexivity|apply byte_of_lt].
Qed.

Lemma slli_bit s v q r : q < 8 -> (r < 16)%N ->
  N.testbit (slli_epi16 s v) (16 * N.of_nat q + r) =
  (s <=? r)%N && N.testbit v (16 * N.of_nat q + (r - s)).
Proof.
  intros Hq Hr. unfold slli_epi16. rewrite of_words_bit; [|lia| |exact Hr].
  - rewrite nth_map_seq by exact Hq. rewrite N.land_spec, N.ones_spec_low, andb_true_r by exact Hr.
    destruct (N.leb_spec s r).
    + rewrite N.shiftl_spec_high' by lia. apply word16_bit. lia.
    + apply N.shiftl_spec_low. lia.
  - apply Forall_forall. intros y Hy. apply in_map_iff in Hy. destruct Hy as (i & <- & _).
    apply land_ones_lt'.
Qed.

Lemma movemask_bit v j : N.testbit (movemask_epi8 v) (N.of_nat j) = (j <? 16) && N.testbit v (8 * N.of_nat j + 7).
Proof.
  unfold movemask_epi8. rewrite of_bits_bit. destruct (Nat.ltb_spec j 16).
  - rewrite nth_map_seq by assumption. rewrite byteN_bit by lia. reflexivity.
  - apply nth_overflow. rewrite map_length, seq_length. assumption.
Qed.

(* ---------- fallbacks ---------- *)

Lemma trunc_sext w x : (0 < w)%N -> (x < 2 ^ w)%N -> trunc w (sext w x) = x.
Proof.
  intros Hw Hx. unfold trunc, sext.
  assert (Hp : (0 <= Z.of_N x < 2 ^ Z.of_N w)%Z).
  { split; [lia|]. change 2%Z with (Z.of_N 2). rewrite <- N2Z.inj_pow. lia. }
  destruct (N.testbit x (w - 1)).
  - replace (Z.of_N x - 2 ^ Z.of_N w)%Z with (Z.of_N x + (-1) * 2 ^ Z.of_N w)%Z by lia.
    rewrite Z.mod_add by lia. rewrite Z.mod_small by exact Hp. lia.
  - rewrite Z.mod_small by exact Hp. lia.
Qed.

Lemma trunc_mod w z z' : (z mod 2 ^ Z.of_N w = z' mod 2 ^ Z.of_N w)%Z -> trunc w z = trunc w z'.
Proof. unfold trunc. intros ->. reflexivity. Qed.

Lemma sext_mod w x : (sext w x mod 2 ^ Z.of_N w = Z.of_N x mod 2 ^ Z.of_N w)%Z.
Proof.
  unfold sext. destruct (N.testbit x (w - 1)); [|reflexivity].
  replace (Z.of_N x - 2 ^ Z.of_N w)%Z with (Z.of_N x + (-1) * 2 ^ Z.of_N w)%Z by lia.
  apply Z.mod_add. assert (0 < 2 ^ Z.of_N w)%Z by (apply Z.pow_pos_nonneg; lia). lia.
Qed.

Lemma slli_fb_ok s v : slli_epi16_fb s v = slli_epi16 s v.
Proof.
  unfold slli_epi16_fb, slli_epi16. f_equal. apply map_ext. intros j.
  set (x := word16 v j). rewrite N.land_ones. unfold trunc.
  rewrite Z.shiftl_mul_pow2 by lia. rewrite N.shiftl_mul_pow2.
  rewrite Z.mul_mod by (cbn; lia). rewrite sext_mod. rewrite <- Z.mul_mod by (cbn; lia).
  change (2 ^ Z.of_N 16)%Z with (Z.of_N (2 ^ 16)).
  change 2%Z with (Z.of_N 2). rewrite <- N2Z.inj_pow, <- N2Z.inj_mul.
  rewrite <- N2Z.inj_mod. apply N2Z.id.
Qed.

Lemma storeu_fb_ok a : storeu_si32_fb a = storeu_si32 a.
Proof. unfold storeu_si32_fb, storeu_si32. apply trunc_sext; [lia|apply land_ones_lt']. Qed.

Lemma sext_low_bits x m : (x < 2 ^ 8)%N -> (m < 2 ^ 8)%N ->
  trunc 8 (Z.land (sext 8 x) (Z.of_N m)) = N.land x m.
Proof.
  intros Hx Hm. unfold trunc. apply N2Z.inj. rewrite Z2N.id by (apply Z.mod_pos_bound; lia).
  change (2 ^ Z.of_N 8)%Z with (2 ^ 8)%Z. rewrite <- Z.land_ones by lia.
  apply Z.bits_inj'. intros k Hk. rewrite !Z.land_spec.
  rewrite Z.testbit_of_N' by exact Hk. rewrite Z.testbit_of_N' by exact Hk. rewrite N.land_spec.
  assert (HS : (k < 8 -> Z.testbit (sext 8 x) k = N.testbit x (Z.to_N k))%Z).
  { intros H8. rewrite <- (Z.mod_pow2_bits_low (sext 8 x) 8 k) by lia.
    pose proof (sext_mod 8 x) as E. change (Z.of_N 8) with 8%Z in E. rewrite E.
    rewrite Z.mod_pow2_bits_low by lia. apply Z.testbit_of_N'. exact Hk. }
  destruct (Z.ltb_spec k 8).
  - rewrite HS by assumption. rewrite Z.ones_spec_low by lia. rewrite andb_true_r. reflexivity.
  - rewrite Z.ones_spec_high by lia. rewrite andb_false_r.
    symmetry. apply andb_false_iff. right.
    destruct (N.eq_dec m 0) as [->|]; [apply N.bits_0|].
    apply N.bits_above_log2. apply N.lt_le_trans with 8%N; [apply N.log2_lt_pow2; lia|lia].
Qed.

Fixpoint all256 (n : nat) (f : N -> bool) : bool :=
  match n with O => true | Datatypes.S k => f (N.of_nat k) && all256 k f end.
Lemma all256_ok n f : all256 n f = true -> forall x, (x < N.of_nat n)%N -> f x = true.
Proof.
  induction n as [|n IH]; intros Hf x Hx; [lia|]. cbn [all256] in Hf.
  apply andb_true_iff in Hf. destruct Hf as [Hn Hr].
  destruct (N.eq_dec x (N.of_nat n)) as [->|]; [exact Hn|]. apply IH; [exact Hr|lia].
Qed.

(* the mask and the index of the fallback, for all 256 control bytes *)
Lemma fb_ctl c : (c < 256)%N ->
  trunc 8 (Z.lnot (- Z.shiftr (sext 8 c) 7)) = (if N.testbit c 7 then 254 else 255)%N /\
  trunc 8 (Z.land (sext 8 c) 15) = N.land c 15.
Proof.
  intros Hc.
  assert (HA : all256 256 (fun c =>
    (trunc 8 (Z.lnot (- Z.shiftr (sext 8 c) 7)) =? (if N.testbit c 7 then 254 else 255))%N &&
    (trunc 8 (Z.land (sext 8 c) 15) =? N.land c 15)%N) = true) by (vm_compute; reflexivity).
  pose proof (@all256_ok 256 _ HA c Hc) as H. cbn beta in H.
  apply andb_true_iff in H. destruct H as [H1 H2]. apply N.eqb_eq in H1. apply N.eqb_eq in H2.
  split; assumption.
Qed.

(* what the shuffle fallback computes: a masked-off byte keeps bits 1-7 of the selected byte *)
Lemma shuffle_fb_bytes a b : shuffle_epi8_fb a b =
  of_words 8 (map (fun j => let bi := byteN b j in
    let v := byte_of a (N.land bi 15) in if N.testbit bi 7 then N.land v 254 else v) (seq 0 16)).
Proof.
  unfold shuffle_epi8_fb. f_equal. apply map_ext. intros j. cbn zeta.
  destruct (@fb_ctl (byteN b j)) as [E1 E2]; [apply (byte_of_lt b)|].
  rewrite E1, E2. rewrite sext_low_bits.
  - destruct (N.testbit (byteN b j) 7); [reflexivity|].
    change 255%N with (N.ones 8). rewrite N.land_ones. apply N.mod_small. apply byte_of_lt.
  - apply byte_of_lt.
  - destruct (N.testbit (byteN b j) 7); reflexivity.
Qed.

Lemma shuffle_fb_ok a b : (forall j, j < 16 -> N.testbit b (8 * N.of_nat j + 7) = false) ->
  shuffle_epi8_fb a b = shuffle_epi8 a b.
Proof.
  intros Hb. rewrite shuffle_fb_bytes. unfold shuffle_epi8. f_equal. apply map_ext_in. intros j Hj.
  apply in_seq in Hj. cbn zeta. rewrite byteN_bit by lia. rewrite Hb by lia. reflexivity.
Qed.

Lemma movemask_fb_bits v : movemask_epi8_fb v =
  of_bits (map (fun i => N.testbit (byteN v 0) (2 * N.of_nat i)) (seq 0 16)).
Proof.
  unfold movemask_epi8_fb. set (x := byteN v 0).
  assert (HI : forall n, n <= 16 ->
    fold_left (fun (rm : N * N) i => (N.lor (fst rm) (N.land (N.shiftr x (N.of_nat i)) (snd rm)), N.shiftl (snd rm) 1))
      (seq 0 n) (0%N, 1%N) =
    (of_bits (map (fun i => N.testbit x (2 * N.of_nat i)) (seq 0 n)), 2 ^ N.of_nat n)%N).
  { induction n as [|n IH]; intros Hn; [reflexivity|].
    rewrite seq_S, fold_left_app, IH by lia. cbn [fold_left fst snd Nat.add]. f_equal.
    - apply N.bits_inj. intros k. rewrite N.lor_spec, N.land_spec, N.shiftr_spec'.
      replace k with (N.of_nat (N.to_nat k)) by lia. rewrite !of_bits_bit, map_app. cbn [map].
      set (kk := N.to_nat k). rewrite N.pow2_bits_eqb.
      destruct (Nat.lt_total kk n) as [Hl|[He|Hg]].
      + rewrite app_nth1 by (rewrite map_length, seq_length; exact Hl).
        replace (N.of_nat n =? N.of_nat kk)%N with false by (symmetry; apply N.eqb_neq; lia).
        rewrite andb_false_r. apply orb_false_r.
      + rewrite nth_overflow by (rewrite map_length, seq_length; lia).
        rewrite app_nth2 by (rewrite map_length, seq_length; lia).
        rewrite map_length, seq_length. rewrite He, Nat.sub_diag. cbn [nth].
        rewrite N.eqb_refl, andb_true_r. cbn [orb]. f_equal. lia.
      + rewrite nth_overflow by (rewrite map_length, seq_length; lia).
        rewrite app_nth2 by (rewrite map_length, seq_length; lia).
        replace (N.of_nat n =? N.of_nat kk)%N with false by (symmetry; apply N.eqb_neq; lia).
        rewrite andb_false_r. rewrite map_length, seq_length.
        destruct (kk - n) as [|d] eqn:Ed; [lia|]. destruct d; reflexivity.
    - rewrite N.shiftl_mul_pow2. replace (N.of_nat (Datatypes.S n)) with (N.of_nat n + 1)%N by lia.
      rewrite N.pow_add_r. reflexivity. }
  rewrite (HI 16) by lia. reflexivity.
Qed.

Lemma cmpeq_fb_ub a b : cmpeq_epi16_fb a b = UB.
Proof. reflexivity. Qed.
