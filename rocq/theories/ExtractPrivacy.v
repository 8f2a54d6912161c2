(* What a party sees in Extract is explained by every input of the other party with the same opened flags. *)
From Verif Require Import Base Words PermModel PermSpec PermProofs PermCorModel PermCorSpec PermCorProofs CompPermProofs KeyMultModel ShuffleModel ShuffleSpec RadixSpec
  TableModel TableSpec TrimProofs TableProofs BitInjProofs OmJoinModel OmJoinSpec PackProofs OmJoinProofs OmJoinTop RadixSortProofs ExtractModel ExtractSpec ExtractProofs.

(* a matrix given by its cells *)
Definition mkm (n c : nat) (f : nat -> nat -> N) : mat N := Mat n c (concat (map (fun i => map (f i) (seq 0 c)) (seq 0 n))).
Lemma mkm_rows n c (f : nat -> nat -> N) r : In r (map (fun i => map (f i) (seq 0 c)) (seq 0 n)) -> length r = c.
Proof. intros H. apply in_map_iff in H. destruct H as (i & <- & _). rewrite map_length. apply seq_length. Qed.
Lemma mkm_len n c f : length (dat (mkm n c f)) = n * c.
Proof. unfold mkm. cbn [dat]. rewrite (concat_length (m := c)); [rewrite map_length, seq_length; reflexivity|]. apply mkm_rows. Qed.
Lemma mkm_cel n c f i j : i < n -> j < c -> cel c (dat (mkm n c f)) i j = f i j.
Proof.
  intros Hi Hj. unfold cel, mkm. cbn [dat]. rewrite (@nth_concat _ 0%N _ c); [|apply mkm_rows|rewrite map_length, seq_length; exact Hi|exact Hj].
  rewrite nth_map_seq' by exact Hi. cbn [Nat.add]. rewrite nth_map_seq' by exact Hj. reflexivity.
Qed.
Lemma mkm_bytes n c f : (forall i j, i < n -> j < c -> (f i j < 256)%N) -> bytes (dat (mkm n c f)).
Proof.
  intros H. unfold mkm. cbn [dat]. apply Forall_forall. intros x Hx. apply in_concat in Hx. destruct Hx as (r & Hr & Hx). apply in_map_iff in Hr. destruct Hr as (i & <- & Hi).
  apply in_map_iff in Hx. destruct Hx as (j & <- & Hj). apply in_seq in Hi, Hj. apply H; lia.
Qed.
Lemma cel_byte c m i j : bytes m -> (cel c m i j < 256)%N.
Proof. intros H. unfold cel. unfold bytes in H. rewrite Forall_forall in H. destruct (nth_in_or_default (i * c + j) m 0%N) as [K|K]; [apply H, K|rewrite K; reflexivity]. Qed.
Lemma lxor_byte a b : (a < 256)%N -> (b < 256)%N -> (N.lxor a b < 256)%N.
Proof. intros Ha Hb. assert (H : bytes (xors [a] [b])) by (apply bytes_xors; constructor; auto). cbn in H. inversion H. assumption. Qed.
Lemma cels_eq n w a b : length a = n * w -> length b = n * w -> (forall i j, i < n -> j < w -> cel w a i j = cel w b i j) -> a = b.
Proof.
  intros La Lb H. apply nth_ext with 0%N 0%N; [lia|]. intros k Hk. destruct (Nat.eq_dec w 0) as [->|Hw]; [lia|].
  pose proof (Nat.div_mod_eq k w). specialize (H (k / w) (k mod w)). unfold cel in H. replace (k / w * w + k mod w) with k in H by lia. apply H; [apply Nat.div_lt_upper_bound; lia|apply Nat.mod_upper_bound; lia].
Qed.
Lemma cel_xors n w a b i j : length a = n * w -> length b = n * w -> i < n -> j < w -> cel w (xors a b) i j = N.lxor (cel w a i j) (cel w b i j).
Proof. intros La Lb Hi Hj. unfold cel, xors. apply map2_nth; nia. Qed.

(* the combined matrix of a table *)
Definition tflat (n : nat) (t : table) : list N := concat (map (crow (tAct t) (map cDat (tCols t))) (seq 0 n)).
Lemma tflat_ok n t : Forall (col_ok n) (tCols t) -> length (tAct t) = n -> bytes (tAct t) ->
  ex_combine (tAct t) (map cDat (tCols t)) = Ok (Mat n (row_bytes t) (tflat n t)) /\ length (tflat n t) = n * row_bytes t /\ bytes (tflat n t) /\
  forall i, i < n -> cel (row_bytes t) (tflat n t) i 0 = nth i (tAct t) 0%N.
Proof.
  intros HC L HB. pose proof (col_forall HC) as K. destruct (ex_combine_ok K L) as [E LC]. rewrite row_bytes_width in E, LC. split; [exact E|]. split; [exact LC|].
  assert (HZ : forall i, i < n -> length (crow (tAct t) (map cDat (tCols t)) i) = row_bytes t /\ bytes (crow (tAct t) (map cDat (tCols t)) i)).
  { intros i Hi. destruct (zrow_ok K Hi) as [L1 B1]. rewrite row_bytes_width in L1. split; [exact L1|]. constructor; [|exact B1]. unfold bytes in HB. rewrite Forall_forall in HB. apply HB, nth_In. lia. }
  split.
  - apply Forall_forall. intros x Hx. apply in_concat in Hx. destruct Hx as (r & Hr & Hx). apply in_map_iff in Hr. destruct Hr as (i & <- & Hi). apply in_seq in Hi.
    destruct (HZ i) as [_ B]; [lia|]. unfold bytes in B. rewrite Forall_forall in B. apply B, Hx.
  - intros i Hi. unfold cel, tflat. rewrite (@nth_concat _ 0%N _ (row_bytes t)).
    + rewrite nth_map_seq' by exact Hi. reflexivity.
    + intros r Hr. apply in_map_iff in Hr. destruct Hr as (k & <- & Hk). apply in_seq in Hk. apply HZ. lia.
    + rewrite map_length, seq_length. exact Hi.
    + destruct (HZ i Hi) as [E1 _]. cbn [crow length] in E1. lia.
Qed.

(* the two messages *)
Lemma ex_msgs_ok n c c0 c1 t0 t1 : 0 < n -> (N.of_nat c < 2 ^ 64)%N -> comp_rel n c c0 c1 -> shared_table n t0 t1 -> bytes (tAct t0) -> bytes (tAct t1) ->
  row_bytes t1 = row_bytes t0 -> csOff (cpS c0) + row_bytes t0 <= c -> csOff (cpS c1) + row_bytes t0 <= c ->
  exists m1 m2, ex_msgs c0 c1 t0 t1 = Ok (m1, m2) /\ length m1 = n * row_bytes t0 /\ length m2 = n * row_bytes t0 /\
    forall i j, i < n -> j < row_bytes t0 ->
      cel (row_bytes t0) m1 i j = N.lxor (cel c (dat (crA (cpR c1))) i (crOff (cpR c1) + j)) (cel (row_bytes t0) (tflat n t1) i j) /\
      cel (row_bytes t0) m2 i j = N.lxor (cel c (dat (crA (cpR c0))) i (crOff (cpR c0) + j))
        (N.lxor (N.lxor (cel (row_bytes t0) (tflat n t0) (nth i (csPerm (cpS c0)) 0) j) (cel (row_bytes t0) (tflat n t1) (nth i (csPerm (cpS c0)) 0) j))
                (cel c (dat (crB (cpR c1))) i (crOff (cpR c1) + j))).
Proof.
  intros Hn Hc (I0 & I1 & HR0 & HR1) (C0 & C1 & CI & L0 & L1) B0 B1 EW O0 O1.
  destruct (tflat_ok C0 L0 B0) as (E0 & LF0 & _), (tflat_ok C1 L1 B1) as (E1 & LF1 & _). rewrite EW in E1, LF1. set (w := row_bytes t0) in *.
  unfold ex_msgs. rewrite E0, E1. cbn [bind rows cols].
  pose proof HR0 as (Hp0 & _ & _ & _ & RA1 & CA1 & LA1 & RB1 & CB1 & LB1 & EO1 & _).
  destruct (@recv_ok n c (cpR c1) Regular w (Mat n w (tflat n t1)) (zmat n w)) as (m1 & y1 & ER1 & Lm1 & Ly1 & H1); auto; [lia|apply zmat_len|].
  destruct (@round_ok n c (cpS c0) (cpR c1) Regular w (Some (Mat n w (tflat n t0))) (Mat n w (tflat n t1)) (zmat n w) (zmat n w)) as (m1' & y1' & y0 & ER1' & ES & Ly0 & Ly1' & HP); auto; try apply zmat_len.
  rewrite ER1 in ER1'. injection ER1' as <- <-. rewrite ER1. cbn [bind fst snd]. rewrite ES. cbn [bind fst snd].
  pose proof HR1 as (_ & _ & _ & _ & RA0 & CA0 & LA0 & RB0 & CB0 & LB0 & EO0 & _).
  destruct (@recv_ok n c (cpR c0) Regular w (Mat n w y0) (zmat n w)) as (m2 & z0 & ER2 & Lm2 & Lz0 & H2); auto; [lia|apply zmat_len|].
  rewrite ER2. cbn [bind fst snd]. exists m1, m2. split; [reflexivity|]. split; [exact Lm1|]. split; [exact Lm2|]. intros i j Hi Hj. split; [apply (H1 i j Hi Hj)|].
  destruct (H2 i j Hi Hj) as [-> _]. cbn [dat encM]. f_equal. cbn [option_map in_or_zero permuted dat] in HP.
  apply (gathered_cel (n := n)) in HP; [|exact Hp0|apply xors_len; assumption]. destruct HP as [_ HP]. specialize (HP i j Hi Hj).
  assert (Hk : nth i (csPerm (cpS c0)) 0 < n) by apply (nthp Hp0 Hi).
  rewrite !(@cel_xors n w) in HP by assumption. rewrite (proj2 (H1 i j Hi Hj)) in HP. cbn [outM] in HP.
  rewrite <- HP, N.lxor_assoc, N.lxor_nilpotent, N.lxor_0_r. reflexivity.
Qed.

Lemma same_row_bytes n t0 t1 : Forall (col_ok n) (tCols t0) -> Forall (col_ok n) (tCols t1) -> Forall2 same_info (tCols t0) (tCols t1) -> row_bytes t0 = row_bytes t1.
Proof.
  intros C0 C1 CI. unfold row_bytes. induction CI as [|a b l l' (_ & _ & Hb) CI IH]; [reflexivity|]. apply Forall_cons_iff in C0, C1. destruct C0 as [((_ & Ea) & _ & Fa & _) C0], C1 as [((_ & Eb) & _ & Fb & _) C1].
  cbn [fold_right]. rewrite IH by assumption. congruence.
Qed.
Lemma out_fits_refl t : out_fits t t.
Proof. right. apply same_info_refl. Qed.

(* the views in terms of the correlations *)
Lemma ex_views n c c0 c1 t0 t1 : 0 < n -> (N.of_nat c < 2 ^ 64)%N -> comp_rel n c c0 c1 -> bytes (dat (crB (cpR c0))) -> shared_table n t0 t1 -> bytes (tAct t0) -> bytes (tAct t1) ->
  csOff (cpS c0) + row_bytes t0 <= c -> csOff (cpS c1) + row_bytes t0 <= c ->
  exists m1 m2 f0, ex_msgs c0 c1 t0 t1 = Ok (m1, m2) /\ f0 = map (fun i => N.odd (cel c (dat (crB (cpR c0))) i (crOff (cpR c0)))) (seq 0 n) /\
    ex_view0 c0 c1 n t0 t1 = Ok (m1, map2 xorb f0 (opened c0 c1 t0 t1)) /\ ex_view1 c0 c1 n t0 t1 = Ok (m2, f0).
Proof.
  intros Hn Hc HR HB HT B0 B1 O0 O1. pose proof HT as (C0 & C1 & CI & _).
  destruct (ex_msgs_ok Hn Hc HR HT B0 B1 (eq_sym (same_row_bytes C0 C1 CI)) O0 O1) as (m1 & m2 & E & _).
  destruct (@ex_tables_ok n c c0 c1 t0 t1 t0 t1) as (o0 & o1 & f0 & f1 & ET & _ & F0 & F1); auto using out_fits_refl.
  exists m1, m2, f0. unfold ex_view0, ex_view1. rewrite E, ET. cbn [bind fst snd]. rewrite F1. split; [reflexivity|]. split; [exact F0|]. split; reflexivity.
Qed.

Lemma lxor_cancel a b : N.lxor a (N.lxor a b) = b.
Proof. rewrite <- N.lxor_assoc, N.lxor_nilpotent. apply N.lxor_0_l. Qed.

(* party 0's view *)
Lemma private0 n c c0 c1 t0 t1 t1' p1' : 0 < n -> (N.of_nat c < 2 ^ 64)%N -> comp_rel n c c0 c1 -> comp_bytes c0 -> comp_bytes c1 ->
  shared_table n t0 t1 -> shared_table n t0 t1' -> bytes (tAct t0) -> bytes (tAct t1) -> bytes (tAct t1') ->
  csOff (cpS c0) + row_bytes t0 <= c -> csOff (cpS c1) + row_bytes t0 <= c -> is_perm n p1' ->
  map (fun i => is_active t0 t1' (nth i (csPerm (cpS c0)) 0)) p1' = opened c0 c1 t0 t1 ->
  exists c1', csPerm (cpS c1') = p1' /\ comp_rel n c c0 c1' /\ comp_bytes c1' /\ ex_view0 c0 c1' n t0 t1' = ex_view0 c0 c1 n t0 t1.
Proof.
  intros Hn Hc HR HB0 HB1 HT HT' B0 B1 B1' O0 O1 Hp1' HF. destruct HB0 as (BD0 & BA0 & BB0), HB1 as (BD1 & BA1 & BB1).
  destruct (ex_views Hn Hc HR BB0 HT B0 B1 O0 O1) as (m1 & m2 & f0 & EM & EF & EV & _).
  pose proof HT as (C0 & C1 & CI & L0 & L1). pose proof HT' as (_ & C1' & CI' & _ & L1').
  destruct (ex_msgs_ok Hn Hc HR HT B0 B1 (eq_sym (same_row_bytes C0 C1 CI)) O0 O1) as (m1_ & m2_ & EM_ & LM1 & LM2 & HM). rewrite EM in EM_. injection EM_ as <- <-.
  pose proof HR as (I0 & I1 & HR0 & HR1). pose proof HR0 as (Hp0 & RD0 & CD0 & LD0 & RA1 & CA1 & LA1 & RB1 & CB1 & LB1 & EO1 & HC0).
  pose proof HR1 as (Hp1 & RD1 & CD1 & LD1 & RA0 & CA0 & LA0 & RB0 & CB0 & LB0 & EO0 & HC1).
  set (w := row_bytes t0) in *. set (o := crOff (cpR c1)).
  destruct (tflat_ok C1' L1' B1') as (_ & LF1' & BF1' & _). rewrite <- (same_row_bytes C0 C1' CI') in LF1'. fold w in LF1'.
  assert (HA1 : forall m : nat, m < n -> nth m (csPerm (cpS c0)) 0 < n) by (intros m Hm; apply (nthp Hp0 Hm)).
  assert (HA1' : forall m : nat, m < n -> nth m p1' 0 < n) by (intros m Hm; apply (nthp Hp1' Hm)).
  set (fA := fun i j => if (o <=? j) && (j <? o + w) then N.lxor (cel w m1 i (j - o)) (cel w (tflat n t1') i (j - o)) else cel c (dat (crA (cpR c1))) i j).
  set (fB := fun i j => N.lxor (cel c (dat (csDelta (cpS c0))) i j) (fA (nth i (csPerm (cpS c0)) 0) j)).
  set (fD := fun i j => N.lxor (cel c (dat (crB (cpR c0))) i j) (cel c (dat (crA (cpR c0))) (nth i p1' 0) j)).
  set (R1' := CorR (mkm n c fA) (mkm n c fB) o). set (S1' := CorS p1' (mkm n c fD) (csOff (cpS c1))). exists (Comp 1 S1' R1').
  assert (BM1 : forall i j, i < n -> j < w -> (cel w m1 i j < 256)%N).
  { intros i j Hi Hj. rewrite (proj1 (HM i j Hi Hj)). destruct (tflat_ok C1 L1 B1) as (_ & _ & BF1 & _). apply lxor_byte; apply cel_byte; assumption. }
  assert (BfA : forall i j, i < n -> j < c -> (fA i j < 256)%N).
  { intros i j Hi Hj. unfold fA. destruct (Nat.leb_spec o j); [destruct (Nat.ltb_spec j (o + w))|]; cbn [andb]; try (apply cel_byte; assumption). apply lxor_byte; [apply BM1; lia|apply cel_byte; assumption]. }
  assert (HR' : comp_rel n c c0 (Comp 1 S1' R1')).
  { split; [exact I0|]. split; [reflexivity|]. cbn [cpS cpR]. split.
    - repeat split; try assumption; try apply Hp0; try apply mkm_len. cbn [crA crB R1']. intros i j Hi Hj. rewrite !mkm_cel by auto. unfold fB. apply lxor_cancel.
    - repeat split; try assumption; try apply Hp1'; try apply mkm_len. cbn [csDelta csPerm S1']. intros i j Hi Hj. rewrite !mkm_cel by auto. unfold fD. rewrite N.lxor_comm. apply lxor_cancel. }
  split; [reflexivity|]. split; [exact HR'|]. split.
  { split; [|split]; cbn [cpS cpR csDelta crA crB S1' R1']; apply mkm_bytes; intros i j Hi Hj.
    - apply lxor_byte; apply cel_byte; assumption.
    - apply BfA; assumption.
    - apply lxor_byte; [apply cel_byte; assumption|apply BfA; auto]. }
  assert (O1' : csOff (cpS (Comp 1 S1' R1')) + row_bytes t0 <= c) by exact O1.
  destruct (ex_views Hn Hc HR' BB0 HT' B0 B1' O0 O1') as (m1' & m2' & f0' & EM' & EF' & EV' & _).
  destruct (ex_msgs_ok Hn Hc HR' HT' B0 B1' (eq_sym (same_row_bytes C0 C1' CI')) O0 O1') as (m1_ & m2_ & EM_ & LM1' & LM2' & HM'). rewrite EM' in EM_. injection EM_ as <- <-.
  rewrite EV', EV. fold w in LM1', HM'. replace m1' with m1.
  - rewrite EF', EF. do 3 f_equal. unfold opened at 1. rewrite <- HF. unfold comp_perm. rewrite map_map. reflexivity.
  - apply (cels_eq LM1 LM1'). intros i j Hi Hj. rewrite (proj1 (HM' i j Hi Hj)). cbn [cpR crA crOff R1']. rewrite mkm_cel by (try exact Hi; unfold o; lia).
    unfold fA. replace (o <=? o + j) with true by lia. replace (o + j <? o + w) with true by lia. cbn [andb]. replace (o + j - o) with j by lia.
    rewrite N.lxor_assoc, N.lxor_nilpotent, N.lxor_0_r. reflexivity.
Qed.

(* party 1's view *)
Lemma private1 n c c0 c1 t0 t1 t0' p0' : 0 < n -> (N.of_nat c < 2 ^ 64)%N -> comp_rel n c c0 c1 -> comp_bytes c0 -> comp_bytes c1 ->
  shared_table n t0 t1 -> shared_table n t0' t1 -> bytes (tAct t0) -> bytes (tAct t1) -> bytes (tAct t0') ->
  csOff (cpS c0) + row_bytes t0 <= c -> csOff (cpS c1) + row_bytes t0 <= c -> is_perm n p0' ->
  map (fun i => is_active t0' t1 (nth i p0' 0)) (csPerm (cpS c1)) = opened c0 c1 t0 t1 ->
  exists c0', csPerm (cpS c0') = p0' /\ comp_rel n c c0' c1 /\ comp_bytes c0' /\ ex_view1 c0' c1 n t0' t1 = ex_view1 c0 c1 n t0 t1.
Proof.
  intros Hn Hc HR HB0 HB1 HT HT' B0 B1 B0' O0 O1 Hp0' HF. destruct HB0 as (BD0 & BA0 & BB0), HB1 as (BD1 & BA1 & BB1).
  destruct (ex_views Hn Hc HR BB0 HT B0 B1 O0 O1) as (m1 & m2 & f0 & EM & EF & _ & EV).
  pose proof HT as (C0 & C1 & CI & L0 & L1). pose proof HT' as (C0' & _ & CI' & L0' & _).
  assert (EW' : row_bytes t0' = row_bytes t0) by (rewrite (same_row_bytes C0 C1 CI), (same_row_bytes C0' C1 CI'); reflexivity).
  pose proof (same_row_bytes C0 C1 CI) as EW.
  destruct (ex_msgs_ok Hn Hc HR HT B0 B1 (eq_sym EW) O0 O1) as (m1_ & m2_ & EM_ & LM1 & LM2 & HM). rewrite EM in EM_. injection EM_ as <- <-.
  pose proof HR as (I0 & I1 & HR0 & HR1). pose proof HR0 as (Hp0 & RD0 & CD0 & LD0 & RA1 & CA1 & LA1 & RB1 & CB1 & LB1 & EO1 & HC0).
  pose proof HR1 as (Hp1 & RD1 & CD1 & LD1 & RA0 & CA0 & LA0 & RB0 & CB0 & LB0 & EO0 & HC1).
  destruct (tflat_ok C0 L0 B0) as (_ & LF0 & BF0 & HF0), (tflat_ok C1 L1 B1) as (_ & LF1 & BF1 & HF1), (tflat_ok C0' L0' B0') as (_ & LF0' & BF0' & HF0').
  rewrite <- EW in LF1, HF1. rewrite EW' in LF0', HF0'. set (w := row_bytes t0) in *. set (o := crOff (cpR c0)) in *.
  assert (HP1 : forall m : nat, m < n -> nth m (csPerm (cpS c1)) 0 < n) by (intros m Hm; apply (nthp Hp1 Hm)).
  assert (HP0 : forall m : nat, m < n -> nth m (csPerm (cpS c0)) 0 < n) by (intros m Hm; apply (nthp Hp0 Hm)).
  assert (HP0' : forall m : nat, m < n -> nth m p0' 0 < n) by (intros m Hm; apply (nthp Hp0' Hm)).
  (* the other input after party 0's permutation, under party 1's mask *)
  set (y := fun i j => N.lxor (N.lxor (cel w (tflat n t0') (nth i p0' 0) j) (cel w (tflat n t1) (nth i p0' 0) j)) (cel c (dat (crB (cpR c1))) i (crOff (cpR c1) + j))).
  set (fA := fun i j => if (o <=? j) && (j <? o + w) then N.lxor (cel w m2 i (j - o)) (y i (j - o)) else cel c (dat (crA (cpR c0))) i j).
  set (fB := fun i j => N.lxor (cel c (dat (csDelta (cpS c1))) i j) (fA (nth i (csPerm (cpS c1)) 0) j)).
  set (fD := fun i j => N.lxor (cel c (dat (crB (cpR c1))) i j) (cel c (dat (crA (cpR c1))) (nth i p0' 0) j)).
  set (R0' := CorR (mkm n c fA) (mkm n c fB) o). set (S0' := CorS p0' (mkm n c fD) (csOff (cpS c0))). exists (Comp 0 S0' R0').
  assert (By : forall i j, (y i j < 256)%N) by (intros i j; unfold y; repeat apply lxor_byte; apply cel_byte; assumption).
  assert (BM2 : forall i j, i < n -> j < w -> (cel w m2 i j < 256)%N).
  { intros i j Hi Hj. rewrite (proj2 (HM i j Hi Hj)). repeat apply lxor_byte; apply cel_byte; assumption. }
  assert (BfA : forall i j, i < n -> j < c -> (fA i j < 256)%N).
  { intros i j Hi Hj. unfold fA. destruct (Nat.leb_spec o j); [destruct (Nat.ltb_spec j (o + w))|]; cbn [andb]; try (apply cel_byte; assumption). apply lxor_byte; [apply BM2; lia|apply By]. }
  assert (HR' : comp_rel n c (Comp 0 S0' R0') c1).
  { split; [reflexivity|]. split; [exact I1|]. cbn [cpS cpR]. split.
    - repeat split; try assumption; try apply Hp0'; try apply mkm_len. cbn [csDelta csPerm S0']. intros i j Hi Hj. rewrite !mkm_cel by auto. unfold fD. rewrite N.lxor_comm. apply lxor_cancel.
    - repeat split; try assumption; try apply Hp1; try apply mkm_len. cbn [crA crB R0']. intros i j Hi Hj. rewrite !mkm_cel by auto. unfold fB. apply lxor_cancel. }
  split; [reflexivity|]. split; [exact HR'|].
  assert (BB0' : bytes (dat (mkm n c fB))) by (apply mkm_bytes; intros i j Hi Hj; apply lxor_byte; [apply cel_byte; assumption|apply BfA; auto]).
  split.
  { split; [|split]; cbn [cpS cpR csDelta crA crB S0' R0']; [|apply mkm_bytes; exact BfA|exact BB0']. apply mkm_bytes; intros i j Hi Hj. apply lxor_byte; apply cel_byte; assumption. }
  assert (O0' : csOff (cpS (Comp 0 S0' R0')) + row_bytes t0' <= c) by (rewrite EW'; exact O0).
  assert (O1' : csOff (cpS c1) + row_bytes t0' <= c) by (rewrite EW'; exact O1).
  destruct (ex_views Hn Hc HR' BB0' HT' B0' B1 O0' O1') as (m1' & m2' & f0' & EM' & EF' & _ & EV').
  destruct (ex_msgs_ok Hn Hc HR' HT' B0' B1 ltac:(rewrite EW', <- EW; reflexivity) O0' O1') as (m1_ & m2_ & EM_ & LM1' & LM2' & HM'). rewrite EM' in EM_. injection EM_ as <- <-.
  rewrite EV', EV. rewrite EW' in LM2', HM'. cbn [cpS cpR crA crB crOff csPerm S0' R0'] in HM', EF'.
  assert (EA : forall i j, i < n -> j < w -> fA i (o + j) = N.lxor (cel w m2 i j) (y i j)).
  { intros i j Hi Hj. unfold fA. replace (o <=? o + j) with true by lia. replace (o + j <? o + w) with true by lia. cbn [andb]. replace (o + j - o) with j by lia. reflexivity. }
  replace m2' with m2.
  - rewrite EF', EF. do 2 f_equal. apply map_ext_in. intros i Hi. apply in_seq in Hi. destruct Hi as [_ Hi]. cbn [Nat.add] in Hi.
    destruct (zrow_ok (col_forall C0) (i := i)) as [HW _]; [exact Hi|]. rewrite row_bytes_width in HW. fold w in HW.
    rewrite mkm_cel by (try exact Hi; lia). unfold fB. set (k := nth i (csPerm (cpS c1)) 0). assert (Hk : k < n) by (apply HP1; exact Hi).
    replace o with (o + 0) at 2 by lia. rewrite EA by (try exact Hk; lia). rewrite (proj2 (HM k 0 Hk ltac:(lia))).
    pose proof (HC1 i (o + 0) Hi ltac:(lia)) as HC. fold k in HC. rewrite <- HC. unfold y. rewrite Nat.add_0_r. rewrite !HF0, !HF1, !HF0' by auto. rewrite !odd_lxor.
    assert (HFi : is_active t0' t1 (nth k p0' 0) = is_active t0 t1 (nth k (csPerm (cpS c0)) 0)).
    { pose proof (f_equal (fun l => nth i l false) HF) as E. cbn beta in E. unfold opened, comp_perm in E. rewrite map_map in E.
      pose proof (is_perm_length Hp1) as LP. rewrite (nth_indep _ false (is_active t0' t1 (nth 0 p0' 0))) in E by (rewrite map_length; lia).
      rewrite (nth_indep (map (fun x => is_active t0 t1 (nth x (csPerm (cpS c0)) 0)) (csPerm (cpS c1))) false (is_active t0 t1 (nth 0 (csPerm (cpS c0)) 0))) in E by (rewrite map_length; lia).
      rewrite (map_nth (fun i => is_active t0' t1 (nth i p0' 0))), (map_nth (fun i => is_active t0 t1 (nth i (csPerm (cpS c0)) 0))) in E. exact E. }
    unfold is_active in HFi. rewrite !odd_lxor in HFi.
    repeat match goal with |- context [N.odd ?x] => let b := fresh "b" in set (b := N.odd x) in * end.
    repeat match goal with b := N.odd _ |- _ => clearbody b end.
    repeat match goal with b : bool |- _ => destruct b end; cbn in HFi |- *; congruence.
  - apply (cels_eq LM2 LM2'). intros i j Hi Hj. rewrite (proj2 (HM' i j Hi Hj)). rewrite mkm_cel by (try exact Hi; lia). rewrite EA by assumption. fold (y i j).
    rewrite N.lxor_assoc, N.lxor_nilpotent, N.lxor_0_r. reflexivity.
Qed.

Lemma lxor_inj_r a b x : N.lxor a x = N.lxor b x -> a = b.
Proof. intros H. apply (f_equal (fun v => N.lxor v x)) in H. rewrite !N.lxor_assoc, N.lxor_nilpotent, !N.lxor_0_r in H. exact H. Qed.
Lemma lxor_solve a b x : N.lxor a b = x -> b = N.lxor a x.
Proof. intros <-. symmetry. apply lxor_cancel. Qed.

(* the explanation is unique: the masks of the window are determined by the view and the input *)
Lemma private0_unique n c c0 c1 c1' t0 t1 m1 m1' m2 m2' : 0 < n -> (N.of_nat c < 2 ^ 64)%N -> comp_rel n c c0 c1 -> comp_rel n c c0 c1' ->
  shared_table n t0 t1 -> bytes (tAct t0) -> bytes (tAct t1) ->
  csOff (cpS c0) + row_bytes t0 <= c -> csOff (cpS c1) + row_bytes t0 <= c ->
  ex_msgs c0 c1 t0 t1 = Ok (m1, m2) -> ex_msgs c0 c1' t0 t1 = Ok (m1', m2') -> m1 = m1' -> same_window n c (row_bytes t0) (cpR c1) (cpR c1').
Proof.
  intros Hn Hc HR HR' HT B0 B1 O0 O1 E E' EM. pose proof HT as (C0 & C1 & CI & _).
  pose proof HR as (_ & _ & HR0 & HR1). pose proof HR0 as (Hp0 & _ & _ & _ & _ & _ & _ & _ & _ & _ & EO1 & HC0). pose proof HR1 as (_ & _ & _ & _ & _ & _ & _ & _ & _ & _ & EO0 & _).
  pose proof HR' as (_ & _ & HR0' & HR1'). pose proof HR0' as (_ & _ & _ & _ & _ & _ & _ & _ & _ & _ & EO1' & HC0'). pose proof HR1' as (_ & _ & _ & _ & _ & _ & _ & _ & _ & _ & EO0' & _).
  assert (O1' : csOff (cpS c1') + row_bytes t0 <= c) by lia.
  destruct (ex_msgs_ok Hn Hc HR HT B0 B1 (eq_sym (same_row_bytes C0 C1 CI)) O0 O1) as (x1 & x2 & X & _ & _ & HM). rewrite E in X. injection X as <- <-.
  destruct (ex_msgs_ok Hn Hc HR' HT B0 B1 (eq_sym (same_row_bytes C0 C1 CI)) O0 O1') as (x1 & x2 & X & _ & _ & HM'). rewrite E' in X. injection X as <- <-.
  assert (HA : forall i j, i < n -> j < row_bytes t0 -> cel c (dat (crA (cpR c1))) i (crOff (cpR c1) + j) = cel c (dat (crA (cpR c1'))) i (crOff (cpR c1) + j)).
  { intros i j Hi Hj. pose proof (proj1 (HM i j Hi Hj)) as K. rewrite EM, (proj1 (HM' i j Hi Hj)) in K. replace (crOff (cpR c1')) with (crOff (cpR c1)) in K by congruence. symmetry. apply (lxor_inj_r K). }
  intros i j Hi Hj. split; [apply HA; assumption|]. assert (HJ : crOff (cpR c1) + j < c) by lia. rewrite (lxor_solve (HC0 i (crOff (cpR c1) + j) Hi HJ)), (lxor_solve (HC0' i (crOff (cpR c1) + j) Hi HJ)).
  f_equal. apply HA; [apply (nthp Hp0 Hi)|exact Hj].
Qed.
Lemma private1_unique n c c0 c0' c1 t0 t1 m1 m1' m2 m2' : 0 < n -> (N.of_nat c < 2 ^ 64)%N -> comp_rel n c c0 c1 -> comp_rel n c c0' c1 -> csPerm (cpS c0') = csPerm (cpS c0) ->
  shared_table n t0 t1 -> bytes (tAct t0) -> bytes (tAct t1) ->
  csOff (cpS c0) + row_bytes t0 <= c -> csOff (cpS c1) + row_bytes t0 <= c ->
  ex_msgs c0 c1 t0 t1 = Ok (m1, m2) -> ex_msgs c0' c1 t0 t1 = Ok (m1', m2') -> m2 = m2' -> same_window n c (row_bytes t0) (cpR c0) (cpR c0').
Proof.
  intros Hn Hc HR HR' EP HT B0 B1 O0 O1 E E' EM. pose proof HT as (C0 & C1 & CI & _).
  pose proof HR as (_ & _ & HR0 & HR1). pose proof HR0 as (_ & _ & _ & _ & _ & _ & _ & _ & _ & _ & EO1 & _). pose proof HR1 as (Hp1 & _ & _ & _ & _ & _ & _ & _ & _ & _ & EO0 & HC1).
  pose proof HR' as (_ & _ & HR0' & HR1'). pose proof HR0' as (_ & _ & _ & _ & _ & _ & _ & _ & _ & _ & EO1' & _). pose proof HR1' as (_ & _ & _ & _ & _ & _ & _ & _ & _ & _ & EO0' & HC1').
  assert (O0' : csOff (cpS c0') + row_bytes t0 <= c) by lia.
  destruct (ex_msgs_ok Hn Hc HR HT B0 B1 (eq_sym (same_row_bytes C0 C1 CI)) O0 O1) as (x1 & x2 & X & _ & _ & HM). rewrite E in X. injection X as <- <-.
  destruct (ex_msgs_ok Hn Hc HR' HT B0 B1 (eq_sym (same_row_bytes C0 C1 CI)) O0' O1) as (x1 & x2 & X & _ & _ & HM'). rewrite E' in X. injection X as <- <-.
  assert (HA : forall i j, i < n -> j < row_bytes t0 -> cel c (dat (crA (cpR c0))) i (crOff (cpR c0) + j) = cel c (dat (crA (cpR c0'))) i (crOff (cpR c0) + j)).
  { intros i j Hi Hj. pose proof (proj2 (HM i j Hi Hj)) as K. rewrite EM, (proj2 (HM' i j Hi Hj)), EP in K. replace (crOff (cpR c0')) with (crOff (cpR c0)) in K by congruence. symmetry. apply (lxor_inj_r K). }
  intros i j Hi Hj. split; [apply HA; assumption|]. assert (HJ : crOff (cpR c0) + j < c) by lia. rewrite (lxor_solve (HC1 i (crOff (cpR c0) + j) Hi HJ)), (lxor_solve (HC1' i (crOff (cpR c0) + j) Hi HJ)).
  f_equal. apply HA; [apply (nthp Hp1 Hi)|exact Hj].
Qed.
