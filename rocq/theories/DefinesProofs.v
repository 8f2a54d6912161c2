From Verif Require Import Base Words Mod3Proofs ShuffleModel ShuffleSpec ShuffleSpanProofs F2CodeProofs TableSpec TrimProofs DefinesModel.

(* ---------------- divCeil ---------------- *)

Lemma d_div_ceil_ok x y : (0 < y)%N -> (x + y <= 2 ^ 64)%N ->
  exists q, d_div_ceil x y = Ok q /\ (x <= q * y)%N /\ (q * y < x + y)%N.
Proof.
  intros Hy H. unfold d_div_ceil. destruct (N.eqb_spec y 0) as [E|_]; [lia|].
  assert (E : (((x + y) mod 2 ^ 64 + 2 ^ 64 - 1) mod 2 ^ 64 = x + y - 1)%N).
  { revert H. change (2 ^ 64)%N with 18446744073709551616%N. intros H.
    destruct (N.eq_dec (x + y) 18446744073709551616) as [E|E].
    - rewrite E. reflexivity.
    - rewrite (N.mod_small (x + y)) by lia. replace (x + y + 18446744073709551616 - 1)%N with (x + y - 1 + 1 * 18446744073709551616)%N by lia.
      rewrite N.mod_add by discriminate. apply N.mod_small. lia. }
  rewrite E. exists ((x + y - 1) / y)%N. split; [reflexivity|]. clear E H.
  pose proof (N.div_mod (x + y - 1) y ltac:(lia)) as D. pose proof (N.mod_lt (x + y - 1) y ltac:(lia)) as M.
  revert D M. generalize ((x + y - 1) / y)%N ((x + y - 1) mod y)%N. intros q r D M. rewrite (N.mul_comm q). lia.
Qed.

(* ---------------- getSign and fillInplace ---------------- *)

Lemma get_sign_ok val k : k < 8 * length val -> get_sign val k = Ok (sbit val k).
Proof.
  intros H. unfold get_sign. assert (L : k / 8 < length val) by (apply Nat.div_lt_upper_bound; lia).
  unfold get. rewrite (nth_error_nth' val 0%N L). cbn [bind]. f_equal. unfold sbit.
  rewrite <- N.bit0_odd, N.shiftr_spec by lia. f_equal.
Qed.

Lemma ldiff_bit o k : k < 8 ->
  N.testbit (N.ldiff 255 (N.ones (N.of_nat o))) (N.of_nat k) = (o <=? k).
Proof.
  intros Hk. rewrite N.ldiff_spec. change 255%N with (N.ones 8). rewrite N.ones_spec_low by lia. cbn [andb].
  destruct (Nat.leb_spec o k) as [L|L]; [rewrite N.ones_spec_high by lia; reflexivity|rewrite N.ones_spec_low by lia; reflexivity].
Qed.

Lemma mask_lt o : (N.ldiff 255 (N.ones (N.of_nat o)) < 256)%N.
Proof.
  change 256%N with (2 ^ 8)%N. apply bits_high_pow2. intros i Hi. rewrite N.ldiff_spec. change 255%N with (N.ones 8).
  rewrite N.ones_spec_high by lia. reflexivity.
Qed.

Lemma fill_tail (b : bool) v i : i <= length v -> bytes v ->
  exists v', forN i (length v - i) (fun i v => set v i (if b then 255 else 0)%N) v = Ok v' /\ length v' = length v /\ bytes v' /\
    forall j, j < 8 * length v -> sbit v' j = if j <? 8 * i then sbit v j else b.
Proof.
  intros Hi Bv. set (x := (if b then 255 else 0)%N).
  set (inv := fun k (w : list N) => length w = length v /\ forall m, nth m w 0%N = if (i <=? m) && (m <? k) then x else nth m v 0%N).
  destruct (@forN_inv _ inv (fun i v => set v i x) (length v - i) i v) as [w [Hrun [L I]]].
  - split; [reflexivity|]. intros m. destruct (Nat.leb_spec i m), (Nat.ltb_spec m i); cbn [andb]; try reflexivity; lia.
  - intros k w Hk [L I]. rewrite set_lt by lia. eexists. split; [reflexivity|]. split; [rewrite upd_length; exact L|].
    intros m. rewrite nth_upd, I. destruct (Nat.eqb_spec k m) as [->|Ne].
    + rewrite (proj2 (Nat.ltb_lt m (length w))) by lia. cbn [andb]. rewrite (proj2 (Nat.leb_le i m)), (proj2 (Nat.ltb_lt m (m + 1))) by lia. reflexivity.
    + cbn [andb]. destruct (Nat.leb_spec i m), (Nat.ltb_spec m k), (Nat.ltb_spec m (k + 1)); cbn [andb]; try reflexivity; lia.
  - exists w. split; [exact Hrun|]. split; [exact L|]. split.
    + apply Forall_forall. intros y Hy. apply In_nth with (d := 0%N) in Hy. destruct Hy as [m [Hm <-]]. rewrite I.
      destruct ((i <=? m) && (m <? i + (length v - i))); [unfold x; destruct b; reflexivity|].
      apply (proj1 (Forall_forall _ _) Bv). apply nth_In. lia.
    + intros j Hj. unfold sbit. rewrite I. pose proof (Nat.div_mod j 8 ltac:(discriminate)) as D. pose proof (Nat.mod_upper_bound j 8 ltac:(discriminate)) as M.
      assert (Lj : j / 8 < length v) by (apply Nat.div_lt_upper_bound; lia).
      destruct (Nat.leb_spec i (j / 8)) as [A|A].
      * rewrite (proj2 (Nat.ltb_lt (j / 8) (i + (length v - i)))) by lia. cbn [andb].
        destruct (Nat.ltb_spec j (8 * i)) as [B|B]; [lia|]. unfold x. destruct b; [|apply N.bits_0].
        change 255%N with (N.ones 8). apply N.ones_spec_low. lia.
      * cbn [andb]. destruct (Nat.ltb_spec j (8 * i)) as [B|B]; [reflexivity|lia].
Qed.

(* the first bit that fillInplace writes *)
Definition fill_from (k : nat) : nat := if k mod 8 =? 0 then k else k + 1.

Lemma fill_ok val k b : k < 8 * length val -> bytes val ->
  exists v, fill_inplace val k b = Ok v /\ length v = length val /\ bytes v /\
    forall j, j < 8 * length val -> sbit v j = if j <? fill_from k then sbit val j else b.
Proof.
  intros Hk Bv. pose proof (Nat.div_mod k 8 ltac:(discriminate)) as D. pose proof (Nat.mod_upper_bound k 8 ltac:(discriminate)) as M.
  assert (L : k / 8 < length val) by (apply Nat.div_lt_upper_bound; lia).
  unfold fill_inplace, fill_from. cbv zeta. destruct (Nat.eqb_spec (k mod 8) 0) as [E|E].
  - cbn [bind fst snd]. destruct (@fill_tail b val (k / 8) ltac:(lia) Bv) as [v [Hrun [Lv [Bv' Hs]]]].
    exists v. split; [exact Hrun|]. split; [exact Lv|]. split; [exact Bv'|]. intros j Hj. rewrite Hs by exact Hj.
    replace (8 * (k / 8)) with k by lia. reflexivity.
  - set (mask := N.ldiff 255 (N.ones (N.of_nat (k mod 8 + 1)))).
    unfold get. rewrite (nth_error_nth' val 0%N L). cbn [bind]. rewrite set_lt by exact L. cbn [bind fst snd].
    set (x := nth (k / 8) val 0%N). set (y := if b then N.lor x mask else N.ldiff x mask).
    assert (Bx : (x < 256)%N) by (apply (proj1 (Forall_forall _ _) Bv); apply nth_In; exact L).
    assert (By : (y < 256)%N).
    { pose proof (mask_lt (k mod 8 + 1)) as HM. fold mask in HM. change 256%N with (2 ^ 8)%N in *.
      apply bits_high_pow2. intros i Hi. unfold y. destruct b.
      - rewrite N.lor_spec, (pow2_bits_high Bx Hi), (pow2_bits_high HM Hi). reflexivity.
      - rewrite N.ldiff_spec, (pow2_bits_high Bx Hi). reflexivity. }
    assert (Bw : bytes (upd val (k / 8) y)).
    { apply Forall_forall. intros z Hz. apply In_nth with (d := 0%N) in Hz. destruct Hz as [m [Hm <-]]. rewrite upd_length in Hm.
      rewrite nth_upd. destruct ((k / 8 =? m) && (k / 8 <? length val)); [exact By|]. apply (proj1 (Forall_forall _ _) Bv). apply nth_In. exact Hm. }
    destruct (@fill_tail b (upd val (k / 8) y) (k / 8 + 1) ltac:(rewrite upd_length; lia) Bw) as [v [Hrun [Lv [Bv' Hs]]]].
    rewrite upd_length in *. exists v. split; [exact Hrun|]. split; [exact Lv|]. split; [exact Bv'|]. intros j Hj. rewrite Hs by exact Hj.
    pose proof (Nat.div_mod j 8 ltac:(discriminate)) as Dj. pose proof (Nat.mod_upper_bound j 8 ltac:(discriminate)) as Mj.
    unfold sbit. rewrite nth_upd, (proj2 (Nat.ltb_lt (k / 8) (length val)) L), andb_true_r.
    destruct (Nat.eqb_spec (k / 8) (j / 8)) as [A|A].
    + destruct (Nat.ltb_spec j (8 * (k / 8 + 1))) as [B|B]; [|lia].
      assert (HT : N.testbit mask (N.of_nat (j mod 8)) = (k mod 8 + 1 <=? j mod 8)) by (apply ldiff_bit; exact Mj).
      unfold y, x. rewrite <- A. destruct b; [rewrite N.lor_spec|rewrite N.ldiff_spec]; rewrite HT;
        destruct (Nat.leb_spec (k mod 8 + 1) (j mod 8)), (Nat.ltb_spec j (k + 1)); try lia;
        rewrite ?orb_true_r, ?orb_false_r, ?andb_true_r, ?andb_false_r; reflexivity.
    + destruct (Nat.ltb_spec j (8 * (k / 8 + 1))) as [B|B], (Nat.ltb_spec j (k + 1)) as [C|C]; try lia; reflexivity.
Qed.

Lemma fill_ub val k b : k mod 8 <> 0 -> 8 * length val <= k -> fill_inplace val k b = UB.
Proof.
  intros E H. unfold fill_inplace. cbv zeta. destruct (Nat.eqb_spec (k mod 8) 0) as [E'|_]; [contradiction|].
  unfold get. rewrite (proj2 (nth_error_None _ _)); [reflexivity|]. apply Nat.div_le_lower_bound; lia.
Qed.

(* ---------------- signExtend ---------------- *)

Lemma land_pow2_zero v b : (0 <= b)%Z -> (Z.land v (2 ^ b) =? 0)%Z = negb (Z.testbit v b).
Proof.
  intros Hb. destruct (Z.testbit v b) eqn:E; cbn [negb].
  - apply Z.eqb_neq. intros H. apply (f_equal (fun z => Z.testbit z b)) in H.
    rewrite Z.land_spec, E, Z.pow2_bits_true, Z.bits_0 in H by exact Hb. discriminate H.
  - apply Z.eqb_eq. apply Z.bits_inj'. intros n Hn. rewrite Z.land_spec, Z.bits_0.
    destruct (Z.eq_dec n b) as [->|Ne]; [rewrite E; reflexivity|]. rewrite Z.pow2_bits_false by congruence. apply andb_false_r.
Qed.

Lemma sign_extend_ok v b : b < 63 ->
  exists r, sign_extend v b = Ok r /\ (- 2 ^ Z.of_nat b <= r < 2 ^ Z.of_nat b)%Z /\ (r mod 2 ^ (Z.of_nat b + 1) = v mod 2 ^ (Z.of_nat b + 1))%Z.
Proof.
  intros Hb. unfold sign_extend. destruct (Nat.leb_spec 64 b) as [L|_]; [lia|]. destruct (Nat.leb_spec 64 (b + 1)) as [L|_]; [lia|]. cbv zeta.
  rewrite Z.shiftl_1_l, land_pow2_zero, negb_involutive by lia.
  replace (Z.of_nat (b + 1)) with (Z.of_nat b + 1)%Z by lia. assert (HB : (0 <= Z.of_nat b)%Z) by lia. revert HB. generalize (Z.of_nat b). clear b Hb. intros b HB.
  rewrite Z.shiftl_mul_pow2 by lia. change (Z.lnot 0) with (-1)%Z.
  assert (HP : (2 ^ (b + 1) = 2 * 2 ^ b)%Z) by (rewrite Z.pow_add_r by lia; change (2 ^ 1)%Z with 2%Z; lia).
  assert (HP0 : (0 < 2 ^ b)%Z) by (apply Z.pow_pos_nonneg; lia).
  assert (Hlnot : Z.lnot (-1 * 2 ^ (b + 1)) = Z.ones (b + 1)) by (rewrite Z.ones_equiv; unfold Z.lnot; lia).
  assert (Hm : (0 <= v mod 2 ^ (b + 1) < 2 ^ (b + 1))%Z) by (apply Z.mod_pos_bound; lia).
  assert (Hbit : Z.testbit v b = (2 ^ b <=? v mod 2 ^ (b + 1))%Z).
  { rewrite <- (Z.mod_pow2_bits_low v (b + 1) b) by lia. revert Hm. generalize (v mod 2 ^ (b + 1))%Z. intros m Hm.
    rewrite Z.testbit_odd, Z.shiftr_div_pow2 by lia. destruct (Z.leb_spec (2 ^ b) m) as [L|L].
    - replace (m / 2 ^ b)%Z with 1%Z; [reflexivity|]. apply Z.div_unique with (m - 2 ^ b)%Z; lia.
    - rewrite Z.div_small by lia. reflexivity. }
  assert (HA : Z.land v (Z.ones (b + 1)) = (v mod 2 ^ (b + 1))%Z) by (apply Z.land_ones; lia).
  destruct (Z.testbit v b) eqn:ES; symmetry in Hbit.
  - apply Z.leb_le in Hbit.
    assert (HO : Z.lor v (-1 * 2 ^ (b + 1)) = (v mod 2 ^ (b + 1) - 2 ^ (b + 1))%Z).
    { assert (HD : Z.land (v mod 2 ^ (b + 1)) (-1 * 2 ^ (b + 1)) = 0%Z).
      { rewrite <- HA, <- Z.land_assoc, <- Hlnot. rewrite (Z.land_comm (Z.lnot _)), Z.land_lnot_diag. apply Z.land_0_r. }
      replace (v mod 2 ^ (b + 1) - 2 ^ (b + 1))%Z with (v mod 2 ^ (b + 1) + -1 * 2 ^ (b + 1))%Z by lia.
      rewrite (Z.add_nocarry_lxor _ _ HD), (Z.lxor_lor _ _ HD), <- HA, Z.lor_land_distr_l, <- Hlnot.
      rewrite (Z.lor_comm (Z.lnot _)), Z.lor_lnot_diag. symmetry. apply Z.land_m1_r. }
    rewrite HO. eexists. split; [reflexivity|]. split; [lia|].
    replace (v mod 2 ^ (b + 1) - 2 ^ (b + 1))%Z with (v mod 2 ^ (b + 1) + (-1) * 2 ^ (b + 1))%Z by lia.
    rewrite Z.mod_add by lia. apply Z.mod_mod. lia.
  - apply Z.leb_gt in Hbit. rewrite Hlnot, HA. eexists. split; [reflexivity|]. split; [lia|]. apply Z.mod_mod. lia.
Qed.

Lemma sign_extend_id v b r : b < 63 -> sign_extend v b = Ok r -> (- 2 ^ Z.of_nat b <= v < 2 ^ Z.of_nat b)%Z -> r = v.
Proof.
  intros Hb H Hv. destruct (sign_extend_ok v Hb) as [r' [E [Hr Hm]]]. assert (r' = r) as -> by congruence.
  assert (HP : (2 ^ (Z.of_nat b + 1) = 2 * 2 ^ Z.of_nat b)%Z) by (rewrite Z.pow_add_r by lia; change (2 ^ 1)%Z with 2%Z; lia).
  rewrite HP in Hm. clear - Hm Hr Hv. revert Hm Hr Hv. generalize (2 ^ Z.of_nat b)%Z. intros p Hm Hr Hv.
  pose proof (Z.div_mod r (2 * p) ltac:(lia)) as D1. pose proof (Z.div_mod v (2 * p) ltac:(lia)) as D2. rewrite Hm in D1.
  revert D1 D2. generalize (r / (2 * p))%Z (v / (2 * p))%Z. intros q1 q2 D1 D2.
  assert (E : (r - v = 2 * p * (q1 - q2))%Z) by lia. assert (q1 - q2 = 0 \/ q1 - q2 >= 1 \/ q1 - q2 <= -1)%Z as [H0|[H1|H1]] by lia; [rewrite H0 in E; lia|nia|nia].
Qed.
