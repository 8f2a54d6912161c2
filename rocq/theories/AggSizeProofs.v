From Verif Require Import Base GmwModel ShuffleModel ShuffleSpec AggModel AggSpec GmwProofs ShuffleSpanProofs.

(* what the size computation returns, in closed form *)
Definition size_facts (n : nat) (sh : shape) : Prop :=
  exists f, sN sh = n /\ n <= sN16 sh /\ sR sh = sN16 sh - 2 ^ f /\ 2 ^ f <= sN16 sh /\
  if sComplete sh then
    1 <= f /\ sN16 sh = 2 ^ f /\ length (sSizes sh) = f + 1 /\
    (forall l, l <= f -> nth_error (sSizes sh) l = Some (2 ^ (f - l)))
  else
    4 <= f /\ 0 < sR sh < 2 ^ f /\ sR sh mod 16 = 0 /\ length (sSizes sh) = f + 2 /\
    nth_error (sSizes sh) 0 = Some (2 * sR sh) /\
    (forall l, 1 <= l <= f + 1 -> nth_error (sSizes sh) l = Some (2 ^ (f + 1 - l))).

Lemma halve_loop top : forall m i sz, 2 <= i -> i + m = length sz -> top + 1 = length sz ->
  (forall l, 1 <= l < i -> nth_error sz l = Some (2 ^ (top - l))) ->
  exists sz', forN i m (fun i sz => do p <- get sz (i - 1); set sz i (p / 2)) sz = Ok sz' /\
    length sz' = length sz /\ nth_error sz' 0 = nth_error sz 0 /\
    (forall l, 1 <= l <= top -> nth_error sz' l = Some (2 ^ (top - l))).
Proof.
  induction m as [|m IH]; intros i sz Hi Hm Ht H.
  - exists sz. split; [reflexivity|]. split; [reflexivity|]. split; [reflexivity|]. intros l Hl. apply H. lia.
  - rewrite forN_S. unfold get. rewrite (H (i - 1)) by lia. cbn [bind].
    rewrite set_lt by lia. cbn [bind].
    destruct (IH (i + 1) (upd sz i (2 ^ (top - (i - 1)) / 2))) as [sz' [H1 [H2 [H3 H4]]]].
    + lia.
    + rewrite upd_length. lia.
    + rewrite upd_length. lia.
    + intros l Hl. destruct (Nat.eq_dec l i) as [->|Ne].
      * rewrite nth_error_upd_eq by lia. f_equal.
        replace (top - (i - 1)) with (S (top - i)) by lia. cbn [Nat.pow].
        rewrite Nat.mul_comm, Nat.div_mul by discriminate. reflexivity.
      * rewrite nth_error_upd_ne by lia. apply H. lia.
    + exists sz'. split; [replace (S i) with (i + 1) by lia; exact H1|]. rewrite upd_length in H2. split; [exact H2|].
      split; [|exact H4]. rewrite H3. apply nth_error_upd_ne. lia.
Qed.

Lemma pow2_pos k : 0 < 2 ^ k.
Proof. pose proof (Nat.pow_nonzero 2 k). lia. Qed.

Lemma pow2_16 f : 4 <= f -> exists q, 2 ^ f = 16 * q.
Proof. intros H. exists (2 ^ (f - 4)). replace f with (4 + (f - 4)) at 1 by lia. rewrite Nat.pow_add_r. reflexivity. Qed.

Lemma tree_sizes_ok n : 2 <= n -> exists sh, tree_sizes n = Ok sh /\ size_facts n sh.
Proof.
  intros Hn. unfold tree_sizes. destruct (Nat.eqb_spec n 0) as [Z|_]; [lia|].
  cbv zeta. set (n16 := Nat.min (2 ^ Nat.log2_up n) (round_up n 16)).
  assert (Hge : n <= n16).
  { unfold n16. apply Nat.min_glb; [|apply round_up_ge; lia].
    destruct (Nat.log2_up_spec n) as [_ G]; [lia|exact G]. }
  destruct (Nat.log2_spec n16) as [F1 F2]; [lia|].
  destruct (Nat.log2_up_spec n16) as [U1 U2]; [lia|].
  set (f := Nat.log2 n16) in *. set (c := Nat.log2_up n16) in *.
  assert (Hf1 : 1 <= f).
  { destruct f as [|f']; [|lia]. simpl in F2. lia. }
  destruct (Nat.eqb_spec f c) as [E|E].
  - (* complete *)
    assert (E16 : n16 = 2 ^ f) by (rewrite <- E in U2; lia).
    rewrite <- E in *. replace (n16 - 2 ^ f) with 0 by lia. change (0 =? 0) with true. cbv iota.
    rewrite set_lt by (rewrite repeat_length; lia). cbn [bind].
    rewrite set_lt by (rewrite upd_length, repeat_length; lia). cbn [bind].
    unfold get at 1. rewrite nth_error_upd_ne, nth_error_upd_eq by (rewrite ?repeat_length; lia). cbn [bind].
    rewrite set_lt by (rewrite !upd_length, repeat_length; lia). cbn [bind].
    set (sz := upd _ 1 (n16 / 2)).
    assert (Hl : length sz = f + 1) by (unfold sz; rewrite !upd_length, repeat_length; reflexivity).
    destruct (@halve_loop f (length sz - 2) 2 sz) as [sz' [H1 [H2 [H3 H4]]]]; try lia.
    { intros l Hl'. assert (l = 1) as -> by lia. unfold sz.
      rewrite nth_error_upd_eq by (rewrite !upd_length, repeat_length; lia). f_equal. rewrite E16.
      replace f with (S (f - 1)) at 1 by lia. cbn [Nat.pow]. rewrite Nat.mul_comm, Nat.div_mul by discriminate. reflexivity. }
    rewrite H1. cbn [bind]. unfold get. rewrite H2, Hl.
    replace (f + 1 - 1) with f by lia. rewrite (H4 f) by lia. rewrite Nat.sub_diag. cbn [bind Nat.eqb negb Nat.pow].
    change (0 mod 8) with 0. cbn [Nat.eqb negb].
    eexists. split; [reflexivity|]. exists f. cbn [sN sN16 sR sComplete sSizes].
    split; [reflexivity|]. split; [exact Hge|]. split; [lia|]. split; [lia|]. split; [exact Hf1|].
    split; [exact E16|]. split; [congruence|].
    intros l Hl'. destruct l as [|l]; [|apply H4; lia].
    rewrite H3. unfold sz. rewrite !nth_error_upd_ne by lia. rewrite nth_error_upd_eq by (rewrite repeat_length; lia).
    f_equal. rewrite Nat.sub_0_r. exact E16.
  - (* two leaf levels *)
    assert (Hc : c = f + 1).
    { assert (f < c).
      { destruct (Nat.lt_ge_cases f c) as [L|L]; [exact L|]. exfalso.
        assert (2 ^ c <= 2 ^ f) by (apply Nat.pow_le_mono_r; lia).
        assert (L2 : c = f); [|congruence]. apply Nat.pow_inj_r with 2; lia. }
      assert (~ (f + 1 < c)); [|lia]. intros L.
      assert (2 ^ S f <= 2 ^ pred c) by (apply Nat.pow_le_mono_r; lia). lia. }
    assert (Hr0 : n16 <> 2 ^ f).
    { intros E16. apply E. unfold c. rewrite E16. rewrite Nat.log2_up_pow2 by lia. reflexivity. }
    assert (E16 : n16 = round_up n 16).
    { destruct (Nat.min_spec (2 ^ Nat.log2_up n) (round_up n 16)) as [[_ M]|[_ M]]; fold n16 in M; [|exact M].
      exfalso. apply Hr0. unfold f. rewrite M. rewrite Nat.log2_pow2 by lia. reflexivity. }
    destruct (round_up_mult n 16) as [q Hq]. rewrite <- E16 in Hq.
    assert (Hf4 : 4 <= f).
    { destruct (Nat.le_gt_cases 4 f) as [L|L]; [exact L|]. exfalso.
      assert (2 ^ S f <= 2 ^ 4) by (apply Nat.pow_le_mono_r; lia). change (2 ^ 4) with 16 in *. lia. }
    destruct (pow2_16 Hf4) as [q2 Hq2].
    set (r := n16 - 2 ^ f).
    assert (Hr : r mod 16 = 0) by (unfold r; rewrite Hq, Hq2; replace (16 * q - 16 * q2) with ((q - q2) * 16) by lia; apply Nat.mod_mul; discriminate).
    assert (Hr8 : r mod 8 = 0) by (unfold r; rewrite Hq, Hq2; replace (16 * q - 16 * q2) with ((2 * (q - q2)) * 8) by lia; apply Nat.mod_mul; discriminate).
    destruct (Nat.eqb_spec r 0) as [Z|_]; [unfold r in Z; lia|].
    rewrite Hc in *.
    rewrite set_lt by (rewrite repeat_length; lia). cbn [bind].
    rewrite set_lt by (rewrite upd_length, repeat_length; lia). cbn [bind].
    set (sz := upd _ 1 (2 ^ f)).
    assert (Hl : length sz = f + 2) by (unfold sz; rewrite !upd_length, repeat_length; lia).
    destruct (@halve_loop (f + 1) (length sz - 2) 2 sz) as [sz' [H1 [H2 [H3 H4]]]]; try lia.
    { intros l Hl'. assert (l = 1) as -> by lia. unfold sz.
      rewrite nth_error_upd_eq by (rewrite !upd_length, repeat_length; lia). f_equal. f_equal. lia. }
    rewrite H1. cbn [bind]. unfold get. rewrite H2, Hl.
    replace (f + 2 - 1) with (f + 1) by lia. rewrite (H4 (f + 1)) by lia. rewrite Nat.sub_diag. cbn [bind Nat.eqb negb Nat.pow].
    rewrite Hr8. cbn [Nat.eqb negb].
    eexists. split; [reflexivity|]. exists f. cbn [sN sN16 sR sComplete sSizes].
    split; [reflexivity|]. split; [exact Hge|]. split; [reflexivity|]. split; [lia|]. split; [exact Hf4|].
    split; [unfold r; rewrite Nat.pow_succ_r' in F2; lia|]. split; [exact Hr|]. split; [congruence|].
    split; [|exact H4].
    rewrite H3. unfold sz. rewrite !nth_error_upd_ne by lia. rewrite nth_error_upd_eq by (rewrite repeat_length; lia). reflexivity.
Qed.

Lemma nth_of_error A (l : list A) i d a : nth_error l i = Some a -> nth i l d = a.
Proof. intros H. rewrite nth_nth_error, H. reflexivity. Qed.

Lemma pow2_even k : 1 <= k -> Nat.even (2 ^ k) = true.
Proof. intros H. replace k with (S (k - 1)) by lia. cbn [Nat.pow]. rewrite Nat.even_mul. reflexivity. Qed.

Lemma pow2_half k : 2 ^ (k + 1) / 2 = 2 ^ k.
Proof. replace (k + 1) with (S k) by lia. cbn [Nat.pow]. rewrite Nat.mul_comm. apply Nat.div_mul. discriminate. Qed.

Lemma size_facts_shape n sh : size_facts n sh -> tree_shape (sN16 sh) (sSizes sh).
Proof.
  intros [f [_ [_ [HR [_ H]]]]]. unfold tree_shape. cbv zeta.
  destruct (sComplete sh).
  - destruct H as [Hf [E16 [Hl Hs]]]. rewrite Hl.
    assert (G : forall l, l <= f -> nth l (sSizes sh) 0 = 2 ^ (f - l)) by (intros l L; apply nth_of_error, Hs, L).
    split; [lia|]. rewrite !G by lia. split; [replace (f - (f + 1 - 1)) with 0 by lia; reflexivity|].
    split.
    { intros l L. rewrite G by lia. apply pow2_even. lia. }
    rewrite E16, Nat.sub_0_r. split; [lia|]. split.
    { rewrite Nat.sub_diag, Nat.add_0_r. replace f with ((f - 1) + 1) at 2 by lia. rewrite pow2_half. reflexivity. }
    intros l L. rewrite !G by lia. replace (f - l) with ((f - (l + 1)) + 1) by lia. rewrite pow2_half. reflexivity.
  - destruct H as [Hf [Hr [Hm [Hl [H0 Hs]]]]]. rewrite Hl.
    assert (G : forall l, 1 <= l <= f + 1 -> nth l (sSizes sh) 0 = 2 ^ (f + 1 - l)) by (intros l L; apply nth_of_error, Hs, L).
    assert (G0 : nth 0 (sSizes sh) 0 = 2 * sR sh) by (apply nth_of_error, H0).
    split; [lia|]. rewrite G0, !G by lia. split; [replace (f + 1 - (f + 2 - 1)) with 0 by lia; reflexivity|].
    split.
    { intros l L. destruct l as [|l]; [rewrite G0, Nat.even_mul; reflexivity|]. rewrite G by lia. apply pow2_even. lia. }
    split; [lia|]. split.
    { rewrite (Nat.mul_comm 2), Nat.div_mul by discriminate. replace (f + 1 - 1) with f by lia. lia. }
    intros l L. rewrite !G by lia. replace (f + 1 - l) with ((f + 1 - (l + 1)) + 1) by lia. rewrite pow2_half. reflexivity.
Qed.
