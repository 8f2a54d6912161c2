(* The whole tree on shares. *)
From Verif Require Import Base GmwModel GmwSpec AggModel AggSpec AggSizeProofs AggProofs AggCirModel AggCirSpec AggCirProofs AggCirBuild AggCirAdd AggCirRun AggTwoModel AggTwoSpec AggTwoRel AggTwoTree AggTwoLeaf AggRunModel AggRunProofs PropsAgg PropsAggCir.

Section Norm.
Variable k : nat.
Variable f : list bool -> list bool -> list bool.
Hypothesis W : word_op k f.
Let norm (a : list bool) := firstn k (a ++ repeat false k).
Lemma norm_len a : length (norm a) = k.
Proof. unfold norm. rewrite firstn_length, app_length, repeat_length. lia. Qed.
Lemma norm_id a : length a = k -> norm a = a.
Proof. intros <-. unfold norm. rewrite firstn_app, Nat.sub_diag, firstn_all. cbn [firstn]. apply app_nil_r. Qed.
Definition gnorm a b := f (norm a) (norm b).
Lemma gnorm_eq a b : length a = k -> length b = k -> gnorm a b = f a b.
Proof. intros A B. unfold gnorm. rewrite !norm_id by assumption. reflexivity. Qed.
Lemma gnorm_assoc : assoc_op gnorm.
Proof.
  intros a b c. destruct W as (WL & WA). unfold gnorm.
  rewrite (@norm_id (f (norm b) (norm c))), (@norm_id (f (norm a) (norm b))) by (apply WL; apply norm_len). apply WA; apply norm_len.
Qed.
Lemma gnorm_range z src a b : Forall (fun x => length x = k) src -> agg_range gnorm z src a b = agg_range f z src a b.
Proof.
  intros H. unfold agg_range, slice. assert (H' : Forall (fun x => length x = k) (firstn (b - a) (skipn a src))).
  { apply Forall_forall. intros x Hx. rewrite Forall_forall in H. apply H. rewrite <- (firstn_skipn a src). apply in_or_app. right. rewrite <- (firstn_skipn (b - a) (skipn a src)). apply in_or_app. left. exact Hx. }
  destruct (firstn (b - a) (skipn a src)) as [|y l]; [reflexivity|]. inversion_clear H' as [|? ? Hy Hl]. revert y Hy.
  induction Hl as [|x l Hx Hl IH]; intros y Hy; cbn [fold_left]; [reflexivity|]. rewrite gnorm_eq by assumption. apply IH. apply W; assumption.
Qed.
End Norm.

Lemma word_vals k src0 src1 src : F3 (word_shares k) src0 src1 src -> Forall (fun x => length x = k) src.
Proof. intros H. exact (rv_vals H). Qed.

Lemma plain_scan k f ty src ctrl : word_op k f -> Forall (fun x => length x = k) src -> 2 <= length src -> length src = length ctrl -> (ty = Suffix \/ nth_error ctrl 0 = Some false) ->
  agg_apply ty (gnorm k f) (repeat false k) src ctrl = Ok (scan ty f (repeat false k) src ctrl).
Proof.
  intros W HL H2 EL HC. pose proof (gnorm_assoc W) as A. unfold scan. destruct ty.
  - rewrite (C24_prefix _ A H2 EL) by (destruct HC; [discriminate|assumption]). f_equal. apply map_ext. intros i. apply gnorm_range; assumption.
  - rewrite (C24_suffix _ A H2 EL). f_equal. apply map_ext. intros i. apply gnorm_range; assumption.
  - rewrite (C24_full _ A H2 EL) by (destruct HC; [discriminate|assumption]). f_equal. apply map_ext. intros i. apply gnorm_range; assumption.
Qed.

Lemma two_scan k f o o' ty src0 src1 src ctrl0 ctrl1 ctrl sh ups downs leaf : word_op k f -> 2 <= length src -> length src = length ctrl -> (ty = Suffix \/ nth_error ctrl 0 = Some false) ->
  F3 (word_shares k) src0 src1 src -> F3 bit_shares ctrl0 ctrl1 ctrl -> tree_sizes (length src) = Ok sh ->
  (forall lvl, lvl < length (sSizes sh) - 1 -> run_ok (nth lvl (sSizes sh) 0 / 2) (up_ins k ty) (up_outs k ty) (up_fun f ty) (ups lvl)) ->
  (forall lvl, lvl < length (sSizes sh) - 1 -> run_ok (nth lvl (sSizes sh) 0 / 2) (down_ins k ty) (down_outs k ty) (down_fun f o o' ty) (downs lvl)) ->
  run_ok (sN16 sh / 2) (leaf_ins k ty) (leaf_outs k) (leaf_fun f ty) leaf ->
  exists o0 o1, agg_two ty (repeat false k) ups downs leaf src0 src1 ctrl0 ctrl1 = Ok (o0, o1) /\ F3 (word_shares k) o0 o1 (scan ty f (repeat false k) src ctrl).
Proof.
  intros W H2 EL HC HS HB Es HU HD HF. eapply (@two_ok k f (gnorm k f)); eauto.
  - intros a b A B. apply gnorm_eq; assumption.
  - apply W.
  - apply plain_scan; auto. exact (word_vals HS).
Qed.

(* every level has nodes *)
Lemma level_pos n sh lvl : 2 <= n -> tree_sizes n = Ok sh -> lvl < length (sSizes sh) - 1 -> 0 < nth lvl (sSizes sh) 0 / 2.
Proof.
  intros H2 Es Hl. destruct (tree_sizes_ok H2) as (sh' & Es' & f & _ & _ & _ & _ & HF). assert (sh' = sh) by congruence. subst sh'. destruct (sComplete sh).
  - destruct HF as (F1 & F2 & F3' & F4). rewrite F3' in Hl. rewrite (nth_error_nth _ _ 0 (F4 lvl ltac:(lia))). replace (f - lvl) with (f - lvl - 1 + 1) by lia. rewrite pow2_half. apply pow2_pos.
  - destruct HF as (F1 & F2 & _ & F3' & F0 & F4). rewrite F3' in Hl. destruct lvl as [|lvl].
    + rewrite (nth_error_nth _ _ 0 F0), Nat.mul_comm, Nat.div_mul by discriminate. lia.
    + rewrite (nth_error_nth _ _ 0 (F4 (S lvl) ltac:(lia))). replace (f + 1 - S lvl) with (f + 1 - S lvl - 1 + 1) by lia. rewrite pow2_half. apply pow2_pos.
Qed.
Lemma leaf_pos n sh : 2 <= n -> tree_sizes n = Ok sh -> 0 < sN16 sh / 2.
Proof.
  intros H2 Es. destruct (tree_sizes_ok H2) as (sh' & Es' & HF). assert (sh' = sh) by congruence. subst sh'. destruct (facts_half HF) as (_ & Hle & h & Eh). rewrite Eh, Nat.mul_comm, Nat.div_mul by discriminate. lia.
Qed.
Lemma up_pos k ty : 0 < k -> Forall (fun n => 0 < n) (up_ins k ty) /\ Forall (fun n => 0 < n) (up_outs k ty) /\ up_outs k ty <> [].
Proof. intros H. destruct ty; (split; [repeat constructor; assumption|]; split; [repeat constructor; assumption|discriminate]). Qed.
Lemma down_pos k ty : 0 < k -> Forall (fun n => 0 < n) (down_ins k ty) /\ Forall (fun n => 0 < n) (down_outs k ty) /\ down_outs k ty <> [].
Proof. intros H. destruct ty; (split; [repeat constructor; assumption|]; split; [repeat constructor; assumption|discriminate]). Qed.
Lemma lf_pos k ty : 0 < k -> Forall (fun n => 0 < n) (leaf_ins k ty) /\ Forall (fun n => 0 < n) (leaf_outs k) /\ leaf_outs k <> [].
Proof. intros H. destruct ty; (split; [repeat constructor; assumption|]; split; [repeat constructor; assumption|discriminate]). Qed.

Lemma tree_scan k f op mux ty cu cd cl lu ld ll up0 up1 dn0 dn1 lf0 lf1 src0 src1 src ctrl0 ctrl1 ctrl sh :
  0 < k -> operator_ok k f op -> multiplexer_ok k mux -> word_op k f ->
  upstream_cir op mux k ty = Ok cu -> downstream_cir op k ty = Ok cd -> leaf_cir op mux k ty = Ok cl -> levels_of cu lu -> levels_of cd ld -> levels_of cl ll ->
  2 <= length src -> length src = length ctrl -> (ty = Suffix \/ nth_error ctrl 0 = Some false) ->
  F3 (word_shares k) src0 src1 src -> F3 bit_shares ctrl0 ctrl1 ctrl -> tree_sizes (length src) = Ok sh ->
  (forall lvl, lvl < length (sSizes sh) - 1 -> tapes_ok (nth lvl (sSizes sh) 0 / 2) lu (up0 lvl) (up1 lvl)) ->
  (forall lvl, lvl < length (sSizes sh) - 1 -> tapes_ok (nth lvl (sSizes sh) 0 / 2) ld (dn0 lvl) (dn1 lvl)) ->
  tapes_ok (sN16 sh / 2) ll lf0 lf1 ->
  exists o0 o1, agg_gmw ty (repeat false k) cu cd cl lu ld ll up0 up1 dn0 dn1 lf0 lf1 src0 src1 ctrl0 ctrl1 = Ok (o0, o1) /\
    F3 (word_shares k) o0 o1 (scan ty f (repeat false k) src ctrl).
Proof.
  intros Hk OP MX W Ecu Ecd Ecl Lu Ld Ll H2 EL HC HS HB Es TU TD TL.
  unfold agg_gmw. rewrite (f3_len0 HS), Es. cbn [bind]. cbv zeta.
  set (o := (repeat false k, false)).
  destruct (@C71_up k f op mux ty OP MX) as (c1 & E1 & R1 & F1). assert (c1 = cu) by congruence. subst c1.
  destruct (@C71_down k f op ty o o OP) as (c2 & E2 & R2 & F2). assert (c2 = cd) by congruence. subst c2.
  destruct (@C71_leaf k f op mux ty OP MX) as (c3 & E3 & R3 & F3'). assert (c3 = cl) by congruence. subst c3.
  destruct (up_pos ty Hk) as (A1 & A2 & A3). destruct (down_pos ty Hk) as (B1 & B2 & B3). destruct (lf_pos ty Hk) as (D1 & D2 & D3).
  eapply (@two_scan k f o o); eauto.
  - intros lvl Hl. apply gmw_lanes_ok; auto. exact (level_pos H2 Es Hl).
  - intros lvl Hl. apply gmw_lanes_ok; auto. exact (level_pos H2 Es Hl).
  - apply gmw_lanes_ok; auto. exact (leaf_pos H2 Es).
Qed.

(* the two operators *)
Lemma dup_word k : word_op k (fun a b => a).
Proof. split; auto. Qed.
Lemma nbits_mod k z : nbits k (z mod 2 ^ N.of_nat k) = nbits k z.
Proof. unfold nbits. apply map_ext_in. intros i Hi. apply in_seq in Hi. apply N.mod_pow2_bits_low. lia. Qed.
Lemma add_fields_len ws : forall x y, length (add_fields ws x y) = fold_right Nat.add 0 ws.
Proof. induction ws as [|w ws IH]; intros x y; [reflexivity|]. cbn [add_fields fold_right]. rewrite app_length, nbits_length, IH. reflexivity. Qed.
Lemma add_word ws : word_op (fold_right Nat.add 0 ws) (add_fields ws).
Proof.
  split; [intros; apply add_fields_len|]. intros a b c _ _ _. revert a b c. induction ws as [|w ws IH]; intros a b c; [reflexivity|]. cbn [add_fields].
  assert (F1 : forall z l, firstn w (nbits w z ++ l) = nbits w z) by (intros z l; rewrite firstn_app, nbits_length, Nat.sub_diag, firstn_all2 by (rewrite nbits_length; lia); cbn [firstn]; apply app_nil_r).
  assert (F2 : forall z l, skipn w (nbits w z ++ l) = l) by (intros z l; rewrite skipn_app, nbits_length, Nat.sub_diag, skipn_all2 by (rewrite nbits_length; lia); reflexivity).
  rewrite !F1, !F2, IH, !bnum_nbits. f_equal. rewrite <- nbits_mod. rewrite <- (nbits_mod w (_ + bnum (firstn w c))). f_equal.
  rewrite N.add_mod_idemp_r, N.add_mod_idemp_l by (apply N.pow_nonzero; discriminate). f_equal. lia.
Qed.
Lemma dup_range z (src : list (list bool)) a b : a < b -> a < length src -> agg_range (fun x y => x) z src a b = nth a src z.
Proof.
  intros H L. unfold agg_range, slice. destruct (skipn a src) as [|y l] eqn:E; [apply (f_equal (@length _)) in E; rewrite skipn_length in E; cbn [length] in E; lia|].
  assert (EN : nth a src z = y) by (rewrite <- (firstn_skipn a src), E, app_nth2 by (rewrite firstn_length; lia); rewrite firstn_length, Nat.min_l, Nat.sub_diag by lia; reflexivity). rewrite EN.
  destruct (b - a) as [|m] eqn:Em; [lia|]. cbn [firstn]. clear. induction (firstn m l) as [|x r IH]; [reflexivity|exact IH].
Qed.
Lemma blk_start_le c i : blk_start c i <= i.
Proof. induction i as [|i IH]; cbn [blk_start]; [lia|]. destruct (nth (S i) c false); lia. Qed.
Lemma dup_scan z src ctrl : scan Prefix (fun x y => x) z src ctrl = map (fun i => nth (blk_start ctrl i) src z) (seq 0 (length src)).
Proof. unfold scan. apply map_ext_in. intros i Hi. apply in_seq in Hi. pose proof (blk_start_le ctrl i). apply dup_range; lia. Qed.
