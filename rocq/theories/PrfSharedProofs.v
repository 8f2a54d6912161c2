From Verif Require Import Base Words Mod3Model Mod3Spec Mod3Proofs PermSpec F2CodeModel F2CodeSpec F2CodeProofs F3CodeModel F3CodeSpec F3CodeProofs
  ConvModel ConvSpec ConvProofs KeyMultModel KeyMultSpec KeyMultProofs PrfModel PrfSpec PrfProofs PrfProtoProofs.

Lemma mod3AddIn_mtx_ok z1 z0 y1 y0 cols :
  dims z1 KeySize cols -> dims z0 KeySize cols -> dims y1 KeySize cols -> dims y0 KeySize cols ->
  all_valid z1 z0 -> all_valid y1 y0 ->
  exists r1 r0, mod3AddIn_mtx z1 z0 y1 y0 cols = Ok (r1, r0) /\ dims r1 KeySize cols /\ dims r0 KeySize cols /\ all_valid r1 r0 /\
    forall r c l, r < KeySize -> c < cols -> trit (cell r1 r c) (cell r0 r c) l =
      (trit (cell z1 r c) (cell z0 r c) l + trit (cell y1 r c) (cell y0 r c) l) mod 3.
Proof.
  intros Dz1 Dz0 Dy1 Dy0 Vz Vy. unfold mod3AddIn_mtx.
  destruct (mod3AddIn_span_spec (concat_len Dz1) (concat_len Dz0) (concat_len Dy1) (concat_len Dy0)) as ([c1 c0] & E & L1 & L0 & H).
  rewrite E. cbn [bind fst snd] in *. rewrite (proj1 Dz1), (proj1 Dz0).
  assert (D1 := @take_rows_dims KeySize cols c1 L1). assert (D0 := @take_rows_dims KeySize cols c0 L0).
  assert (HC : forall r c l, r < KeySize -> c < cols ->
     tvalid (cell (take_rows KeySize cols c1) r c) (cell (take_rows KeySize cols c0) r c) l /\
     trit (cell (take_rows KeySize cols c1) r c) (cell (take_rows KeySize cols c0) r c) l =
      (trit (cell z1 r c) (cell z0 r c) l + trit (cell y1 r c) (cell y0 r c) l) mod 3).
  { intros r c l Hr Hc. rewrite !take_rows_cell by assumption.
    destruct (H (r * cols + c) (index_lt Hr Hc)) as [H1 H0].
    rewrite (nth_error_nth _ _ _ H1), (nth_error_nth _ _ _ H0). unfold nthN.
    rewrite (concat_cell Dz1), (concat_cell Dz0), (concat_cell Dy1), (concat_cell Dy0) by assumption.
    apply mod3Add_lane; [apply Vz|apply Vy]. }
  eexists; eexists. split; [reflexivity|]. split; [exact D1|]. split; [exact D0|]. split.
  - apply (all_valid_in D1 D0). intros r c l Hr Hc. apply HC; assumption.
  - intros r c l Hr Hc. apply HC; assumption.
Qed.

Lemma bits_eqb_refl l : bits_eqb l l = true.
Proof. induction l as [|[] l IH]; simpl; auto. Qed.

Lemma e_bit_linear G x y r : e_bit G (N.lxor x y) r = xorb (e_bit G x r) (e_bit G y r).
Proof.
  unfold e_bit. destruct (r / 128); [apply N.lxor_spec|]. rewrite f2_mul_linear. apply N.lxor_spec.
Qed.

Lemma run_shared_ok G B A M p fuel c n cs cr ks kr xs xr :
  length G = 3 -> (forall g, In g G -> length g = 128) -> perms_ok KeySize A ->
  prf_make G B A = Ok p -> f3_getMatrix KeySize MidSize A = Ok M ->
  0 < n -> length xs = n -> length xr = n -> cor_ok c n ->
  segs_rel trit_ot cs cr -> total cr = KeySize * blocks128 n -> keys_ok ks kr ->
  prf_run_shared fuel p c n cs cr ks kr xs xr = Hang \/
  exists ys yr, prf_run_shared fuel p c n cs cr ks kr xs xr = Ok (ys, yr) /\ length ys = n /\ length yr = n /\
    forall i, i < n -> is_prf G M B (joint_key (Some (pkKey ks)) (pkKey kr)) (N.lxor (nth i xs 0%N) (nth i xr 0%N))
                         (N.lxor (nth i ys 0%N) (nth i yr 0%N)).
Proof.
  intros HG Hg HA Hp HM Hn Hxs Hxr Hc Hct Htot (Kss & Ksr & Ho1 & Ho2).
  destruct (prf_make_ok B HG Hg HA) as (p' & Ep & Hok & EA).
  rewrite Hp in Ep. injection Ep as <-. rewrite <- EA in HM. unfold prf_run_shared.
  destruct (Nat.eqb_spec n 0); [lia|]. rewrite Hxs, Hxr, Nat.eqb_refl. cbn [negb throw_if bind].
  assert (Hchk : mod2_check c n = Ok tt).
  { apply (@mod2_run_ok c n (repeat (0%N,0%N) (blocks128 n * MidSize)) (repeat (0%N,0%N) (blocks128 n * MidSize)) Hc); apply repeat_length. }
  rewrite Hchk. cbn [bind]. unfold key_checks. rewrite Kss, Ksr, !bits_eqb_refl. cbn [negb throw_if bind].
  set (cols := blocks128 n) in *.
  destruct (@expand_ok p G B xs cols (mtx KeySize cols) Hok) as (es & Es & Des & Hes); [subst n; reflexivity|apply dims_mtx|].
  destruct (@expand_ok p G B xr cols (mtx KeySize cols) Hok) as (er & Er & Der & Her); [rewrite Hxr; reflexivity|apply dims_mtx|].
  rewrite Es. cbn [bind]. rewrite Er. cbn [bind].
  assert (Htot' : total cs = KeySize * cols) by (rewrite (segs_total Hct); exact Htot).
  unfold conv_send_checks, conv_recv_checks. unfold total in Htot, Htot'. rewrite Htot, Htot', Nat.eqb_refl.
  rewrite (proj2 (Nat.ltb_ge (128 * (KeySize * cols)) (KeySize * cols))) by lia.
  rewrite (proj2 (Nat.ltb_ge (128 * (KeySize * cols)) (KeySize * cols * 128))) by lia.
  rewrite (proj2 (Nat.eqb_eq (128 * (KeySize * cols)) (KeySize * cols * 128))) by lia.
  cbn [negb throw_if bind].
  assert (Les := concat_len Des). assert (Ler := concat_len Der).
  destruct (conv_all Hct (xs := concat es) (xr := concat er)) as (cor & dl & ysl & yrl & C1 & C2 & C3 & HF); [lia|unfold total; lia|].
  rewrite C1. cbn [bind]. rewrite C2. cbn [bind fst snd]. rewrite C3. cbn [bind].
  destruct (Forall4_length HF) as (_ & Lys & Lyr). rewrite Les in Lys, Lyr.
  set (es1 := take_rows KeySize cols (map fst ysl)). set (es0 := take_rows KeySize cols (map snd ysl)).
  set (er1 := take_rows KeySize cols (map fst yrl)). set (er0 := take_rows KeySize cols (map snd yrl)).
  assert (Des1 : dims es1 KeySize cols) by (apply take_rows_dims; rewrite map_length; exact Lys).
  assert (Des0 : dims es0 KeySize cols) by (apply take_rows_dims; rewrite map_length; exact Lys).
  assert (Der1 : dims er1 KeySize cols) by (apply take_rows_dims; rewrite map_length; exact Lyr).
  assert (Der0 : dims er0 KeySize cols) by (apply take_rows_dims; rewrite map_length; exact Lyr).
  assert (HC : forall r c l, r < KeySize -> c < cols ->
     tvalid (cell es1 r c) (cell es0 r c) l /\ tvalid (cell er1 r c) (cell er0 r c) l /\
     ((l < 128)%N -> (trit (cell es1 r c) (cell es0 r c) l + trit (cell er1 r c) (cell er0 r c) l) mod 3 =
        b2n (xorb (N.testbit (cell es r c) l) (N.testbit (cell er r c) l)))).
  { intros r k l Hr Hk. unfold es1, es0, er1, er0. rewrite !take_rows_cell by (rewrite ?map_length; assumption).
    assert (HI := index_lt Hr Hk).
    assert (K := Forall4_nth HF 0%N 0%N (0%N, 0%N) (0%N, 0%N) (k := r * cols + k)).
    rewrite Les, (concat_cell Des), (concat_cell Der) in K by assumption. specialize (K HI l).
    rewrite !(fun l i => @nth_map_default (N * N) N fst l i (0%N, 0%N) 0%N eq_refl), !(fun l i => @nth_map_default (N * N) N snd l i (0%N, 0%N) 0%N eq_refl).
    apply K. destruct (N.ltb_spec l 128) as [Hl|Hl]; [left; assumption|right]. rewrite Her by assumption.
    rewrite <- (N2Nat.id l), e_cell_bit. replace (N.to_nat l <? 128) with false; [reflexivity|].
    symmetry. apply Nat.ltb_ge. clear - Hl. lia. }
  assert (Ves : all_valid es1 es0) by (apply (all_valid_in Des1 Des0); intros; apply HC; assumption).
  assert (Ver : all_valid er1 er0) by (apply (all_valid_in Der1 Der0); intros; apply HC; assumption).
  assert (Hin1 : km_input ((n + 127) / 128) er0 er1) by (split; [exact Der0|right; split; [exact Der1|exact Ver]]).
  assert (Hin2 : km_input ((n + 127) / 128) es0 es1) by (split; [exact Des0|right; split; [exact Des1|exact Ves]]).
  destruct (mult_ok fuel (Some (pkKey kr)) Ho1 Hin1) as [Eh|(msgs & os & or & E1 & E2 & _ & HS)].
  { left. fold (blocks128 n) in Eh. fold cols in Eh. rewrite Eh. reflexivity. }
  fold (blocks128 n) in E1, HS. fold cols in E1, HS. rewrite E1. cbn [bind fst snd]. rewrite E2. cbn [bind].
  destruct (mult_ok fuel (Some (pkKey ks)) Ho2 Hin2) as [Eh|(msgs' & os' & or' & E1' & E2' & _ & HS')].
  { left. fold (blocks128 n) in Eh. fold cols in Eh. rewrite Eh. reflexivity. }
  fold (blocks128 n) in E1', HS'. fold cols in E1', HS'. rewrite E1'. cbn [bind fst snd]. rewrite E2'. cbn [bind]. right.
  destruct (km_mats_ok HS) as (Ds1 & Ds0 & Vs & Dr1 & Dr0 & Vr & Hsum).
  destruct (km_mats_ok HS') as (Ds1' & Ds0' & Vs' & Dr1' & Dr0' & Vr' & Hsum').
  destruct (km_mats os) as [s1 s0], (km_mats or) as [r1 r0], (km_mats os') as [s1' s0'], (km_mats or') as [r1' r0']. cbn [fst snd] in *.
  destruct (mod3AddIn_mtx_ok Dr1 Dr0 Ds1' Ds0' Vr Vs') as (a1 & a0 & Ea & Da1 & Da0 & Va & Ha).
  destruct (mod3AddIn_mtx_ok Dr1' Dr0' Ds1 Ds0 Vr' Vs) as (b1 & b0 & Eb & Db1 & Db0 & Vb & Hb).
  rewrite Ea. cbn [bind]. rewrite Eb. cbn [bind].
  set (key := joint_key (Some (pkKey ks)) (pkKey kr)).
  destruct (@tail_ok p G B M c n a1 a0 b1 b0 (fun k l => ek_vec G key (N.lxor (nth (128 * k + l) xs 0%N) (nth (128 * k + l) xr 0%N)))
    Hok HM Hc Da1 Da0 Va Db1 Db0 Vb) as (ys & yr & Et & Lys' & Lyr' & Hy).
  - intros k l Hk Hl. apply (nth_ext _ _ 0 0).
    + rewrite add3_length, !lane_length, (proj1 Da1), (proj1 Db1). unfold ek_vec. rewrite map_length, seq_length. reflexivity.
    + rewrite add3_length, !lane_length, (proj1 Da1), (proj1 Db1), Nat.min_id. intros r Hr.
      rewrite add3_nth by (rewrite lane_length, ?(proj1 Da1), ?(proj1 Db1); exact Hr).
      rewrite !lane_nth by (rewrite ?(proj1 Da1), ?(proj1 Db1); exact Hr).
      rewrite Ha, Hb by assumption.
      assert (S1 := Hsum r k (N.of_nat l) Hr Hk). assert (S2 := Hsum' r k (N.of_nat l) Hr Hk).
      destruct (HC r k (N.of_nat l) Hr Hk) as (V1 & V2 & S3). specialize (S3 ltac:(clear - Hl; lia)).
      unfold ek_vec. rewrite nth_map_seq by exact Hr. unfold key. rewrite joint_nth by exact Hr. cbn [share_bit] in *.
      rewrite e_bit_linear.
      assert (Q1 : N.testbit (cell es r k) (N.of_nat l) = e_bit G (nth (128 * k + l) xs 0%N) r).
      { rewrite Hes, e_cell_bit, (proj2 (Nat.ltb_lt _ _) Hl) by assumption. reflexivity. }
      assert (Q2 : N.testbit (cell er r k) (N.of_nat l) = e_bit G (nth (128 * k + l) xr 0%N) r).
      { rewrite Her, e_cell_bit, (proj2 (Nat.ltb_lt _ _) Hl) by assumption. reflexivity. }
      rewrite Q1, Q2 in S3. rewrite <- Nat.add_mod by discriminate.
      unfold xval in S1, S2. rewrite (proj1 Der1) in S1. rewrite (proj1 Des1) in S2. change (KeySize =? 0) with false in S1, S2. cbn iota in S1, S2.
      change (wrd er1 r k) with (cell er1 r k) in S1. change (wrd er0 r k) with (cell er0 r k) in S1.
      change (wrd es1 r k) with (cell es1 r k) in S2. change (wrd es0 r k) with (cell es0 r k) in S2.
      rewrite (xorb_comm (nth r (pkKey kr) false)) in S1.
      revert S1 S2 S3.
      repeat match goal with |- context [trit ?a ?b ?i] => generalize (trit a b i) end.
      clear. intros t1 t2 t3 t4 t5 t6.
      destruct (xorb (nth r (pkKey ks) false) (nth r (pkKey kr) false)); rewrite ?andb_true_r, ?andb_false_r; cbn [b2n];
        destruct (xorb _ _); cbn [b2n]; intros; lia.
  - exists ys, yr. split; [exact Et|]. split; [exact Lys'|]. split; [exact Lyr'|]. intros i Hi. apply is_prf_nat. intros q.
    rewrite Hy by assumption. destruct (lane_split Hi) as (_ & _ & H3). rewrite H3. reflexivity.
Qed.

(* ---------- the statements of PropsPrf ---------- *)
Lemma params_perms G A : params_ok G A -> perms_ok KeySize A.
Proof. intros (_ & _ & H1 & H2). split; assumption. Qed.

Lemma eval_total G B A M p key x n : length key = 512 -> params_ok G A ->
  prf_make G B A = Ok p -> f3_getMatrix 512 256 A = Ok M -> length x = n ->
  exists y, prf_eval p key x n = Ok y /\ length y = n /\
    forall i, i < n -> is_prf G M B key (nth i x 0%N) (nth i y 0%N).
Proof. intros Hk HP. apply eval_ok; try assumption; apply HP. Qed.

Lemma params_total G B A : params_ok G A ->
  (exists p, prf_make G B A = Ok p) /\ (exists M, f3_getMatrix 512 256 A = Ok M).
Proof.
  intros HP. split.
  - destruct (@prf_make_ok G B A) as (p & E & _); [apply HP|apply HP|apply (params_perms HP)|]. exists p. exact E.
  - assert (Hn : MidSize < KeySize) by (unfold MidSize, KeySize; lia).
    destruct (f3_matrix_correct Hn (params_perms HP)) as (M & E & _). exists M. exact E.
Qed.

Lemma run_ro_total G B A M p fuel c n ros rshare sos skey x : params_ok G A ->
  prf_make G B A = Ok p -> f3_getMatrix 512 256 A = Ok M ->
  0 < n -> length x = n -> cor_ok c n -> ots_ok ros sos skey ->
  prf_run_ro fuel p c n ros rshare sos skey x = Hang \/
  exists ys yr, prf_run_ro fuel p c n ros rshare sos skey x = Ok (ys, yr) /\ length ys = n /\ length yr = n /\
    forall i, i < n -> is_prf G M B (joint_key rshare skey) (nth i x 0%N) (N.lxor (nth i ys 0%N) (nth i yr 0%N)).
Proof. intros HP HE. apply (run_ro_ok (A := A)); try apply HP; assumption. Qed.

Lemma run_shared_total G B A M p fuel c n cs cr ks kr xs xr : params_ok G A ->
  prf_make G B A = Ok p -> f3_getMatrix 512 256 A = Ok M ->
  0 < n -> length xs = n -> length xr = n -> cor_ok c n ->
  segs_rel trit_ot cs cr -> total cr = 512 * blocks128 n -> keys_ok ks kr ->
  prf_run_shared fuel p c n cs cr ks kr xs xr = Hang \/
  exists ys yr, prf_run_shared fuel p c n cs cr ks kr xs xr = Ok (ys, yr) /\ length ys = n /\ length yr = n /\
    forall i, i < n -> is_prf G M B (joint_key (Some (pkKey ks)) (pkKey kr)) (N.lxor (nth i xs 0%N) (nth i xr 0%N))
                         (N.lxor (nth i ys 0%N) (nth i yr 0%N)).
Proof. intros HP HE. apply (run_shared_ok (A := A)); try apply HP; assumption. Qed.

Lemma is_prf_fun G M B key x y y' : is_prf G M B key x y -> is_prf G M B key x y' -> y = y'.
Proof. intros H H'. apply N.bits_inj. intros c. rewrite H, H'. reflexivity. Qed.

Lemma Forall2_map_both A B C (R : B -> C -> Prop) (f : A -> B) (g : A -> C) l :
  (forall a, R (f a) (g a)) -> Forall2 R (map f l) (map g l).
Proof. intros H. induction l; simpl; constructor; auto. Qed.
