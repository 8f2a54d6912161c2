From Verif Require Import Base Words Mod3Tables Mod3Model Mod3Spec.

(* ---------- block level arithmetic ---------- *)
Lemma mod3Add_lane x1 x0 y1 y0 i :
  tvalid x1 x0 i -> tvalid y1 y0 i ->
  let z := mod3Add x1 x0 y1 y0 in
  tvalid (fst z) (snd z) i /\
  trit (fst z) (snd z) i = (trit x1 x0 i + trit y1 y0 i) mod 3.
Proof. unfold mod3Add; cbn [fst snd]. lanes. Qed.

Lemma trit_swap y1 y0 i : tvalid y1 y0 i ->
  tvalid y0 y1 i /\ trit y0 y1 i = (3 - trit y1 y0 i) mod 3.
Proof. lanes. Qed.

Lemma mod3Sub_lane x1 x0 y1 y0 i :
  tvalid x1 x0 i -> tvalid y1 y0 i ->
  let z := mod3Sub x1 x0 y1 y0 in
  tvalid (fst z) (snd z) i /\
  trit (fst z) (snd z) i = (trit x1 x0 i + 3 - trit y1 y0 i) mod 3.
Proof. unfold mod3Sub, mod3Add; cbn [fst snd]. lanes. Qed.

Lemma mod3Add1_lane x1 x0 y i : tvalid x1 x0 i ->
  let z := mod3Add1 x1 x0 y in
  tvalid (fst z) (snd z) i /\
  trit (fst z) (snd z) i = (trit x1 x0 i + b2n (N.testbit y i)) mod 3.
Proof. unfold mod3Add1; cbn [fst snd]. lanes. Qed.

Lemma mod3Sub1_lane x1 x0 y i : tvalid x1 x0 i ->
  let z := mod3Sub1 x1 x0 y in
  tvalid (fst z) (snd z) i /\
  trit (fst z) (snd z) i = (trit x1 x0 i + 3 - b2n (N.testbit y i)) mod 3.
Proof. unfold mod3Sub1; cbn [fst snd]. lanes. Qed.

Lemma mod3AddIn1_lane x1 x0 y i : tvalid x1 x0 i ->
  let z := mod3AddIn1 x1 x0 y in
  tvalid (fst z) (snd z) i /\
  trit (fst z) (snd z) i = (trit x1 x0 i + b2n (N.testbit y i)) mod 3.
Proof. unfold mod3AddIn1; cbn [fst snd]. lanes. Qed.

(* ---------- spans ---------- *)
Lemma put2_ok i p (z1 z0 : list N) : i < length z1 -> i < length z0 ->
  put2 i p (z1, z0) = Ok (upd z1 i (fst p), upd z0 i (snd p)).
Proof. intros H1 H0. unfold put2. cbn [fst snd]. rewrite !set_lt by auto. reflexivity. Qed.

(* a loop that writes f(i) at index i of both outputs *)
Lemma put2_loop n (f : nat -> N * N) (body : nat -> list N * list N -> outcome (list N * list N)) z1 z0 :
  length z1 = n -> length z0 = n ->
  (forall i z, i < n -> length (fst z) = n -> length (snd z) = n ->
     (forall j, i <= j -> nth_error (fst z) j = nth_error z1 j /\ nth_error (snd z) j = nth_error z0 j) ->
     body i z = put2 i (f i) z) ->
  exists r, forN 0 n body (z1, z0) = Ok r /\ length (fst r) = n /\ length (snd r) = n /\
    forall i, i < n -> nth_error (fst r) i = Some (fst (f i)) /\ nth_error (snd r) i = Some (snd (f i)).
Proof.
  intros L1 L0 HB.
  destruct (forN_inv (P := fun k z => length (fst z) = n /\ length (snd z) = n /\
     (forall i, i < k -> nth_error (fst z) i = Some (fst (f i)) /\ nth_error (snd z) i = Some (snd (f i))) /\
     (forall j, k <= j -> nth_error (fst z) j = nth_error z1 j /\ nth_error (snd z) j = nth_error z0 j))
     (f := body) (n := n) (i := 0) (s := (z1, z0))) as [r [E (H1 & H2 & H3 & _)]].
  - cbn [fst snd]. repeat split; auto; lia.
  - intros k [a b] Hk (H1 & H2 & H3 & H4). cbn [fst snd] in *.
    rewrite HB by (cbn [fst snd]; auto; lia). rewrite put2_ok by lia.
    eexists. split; [reflexivity|]. cbn [fst snd]. rewrite !upd_length.
    split; auto. split; auto. split.
    + intros i Hi. rewrite !nth_error_upd.
      destruct (Nat.eqb_spec k i) as [->|Hne].
      * destruct (Nat.ltb_spec i (length a)); [|lia]. destruct (Nat.ltb_spec i (length b)); [|lia]. auto.
      * simpl. apply H3. lia.
    + intros j Hj. rewrite !nth_error_upd_ne by lia. apply H4. lia.
  - exists r. repeat split; auto; apply H3; lia.
Qed.

Ltac getx l k := let a := fresh "a" in let E := fresh "E" in let F := fresh "F" in
  destruct (get_lt (l := l) (i := k)) as [a [E F]]; [lia|]; rewrite ?E; cbn [bind].

Lemma get_nthN l i : i < length l -> get l i = Ok (nthN l i).
Proof. intros H. apply get_Ok. apply nth_error_nth_lt. exact H. Qed.

Lemma nth_error_nthN l i a : nth_error l i = Some a -> nthN l i = a.
Proof. intros H. unfold nthN. apply nth_error_nth. exact H. Qed.

Lemma mod3Add_span_spec z1 z0 x1 x0 y1 y0 n :
  length z1 = n -> length z0 = n -> length x1 = n -> length x0 = n -> length y1 = n -> length y0 = n ->
  exists r, mod3Add_span z1 z0 x1 x0 y1 y0 = Ok r /\ length (fst r) = n /\ length (snd r) = n /\
   forall i, i < n -> nth_error (fst r) i = Some (fst (mod3Add (nthN x1 i) (nthN x0 i) (nthN y1 i) (nthN y0 i))) /\
                      nth_error (snd r) i = Some (snd (mod3Add (nthN x1 i) (nthN x0 i) (nthN y1 i) (nthN y0 i))).
Proof.
  intros. unfold mod3Add_span. replace (length z0) with n by auto.
  apply (put2_loop (f := fun i => mod3Add (nthN x1 i) (nthN x0 i) (nthN y1 i) (nthN y0 i))); auto.
  intros i z Hi _ _ _. rewrite !get_nthN by lia. reflexivity.
Qed.

Lemma mod3Add1_span_spec z1 z0 x1 x0 y n :
  length z1 = n -> length z0 = n -> length x1 = n -> length x0 = n -> length y = n ->
  exists r, mod3Add1_span z1 z0 x1 x0 y = Ok r /\ length (fst r) = n /\ length (snd r) = n /\
   forall i, i < n -> nth_error (fst r) i = Some (fst (mod3Add1 (nthN x1 i) (nthN x0 i) (nthN y i))) /\
                      nth_error (snd r) i = Some (snd (mod3Add1 (nthN x1 i) (nthN x0 i) (nthN y i))).
Proof.
  intros. unfold mod3Add1_span. replace (length x1) with n by auto.
  apply (put2_loop (f := fun i => mod3Add1 (nthN x1 i) (nthN x0 i) (nthN y i))); auto.
  intros i z Hi _ _ _. rewrite !get_nthN by lia. reflexivity.
Qed.

Lemma mod3Sub1_span_spec z1 z0 x1 x0 y n :
  length z1 = n -> length z0 = n -> length x1 = n -> length x0 = n -> length y = n ->
  exists r, mod3Sub1_span z1 z0 x1 x0 y = Ok r /\ length (fst r) = n /\ length (snd r) = n /\
   forall i, i < n -> nth_error (fst r) i = Some (fst (mod3Sub1 (nthN x1 i) (nthN x0 i) (nthN y i))) /\
                      nth_error (snd r) i = Some (snd (mod3Sub1 (nthN x1 i) (nthN x0 i) (nthN y i))).
Proof.
  intros. unfold mod3Sub1_span. replace (length x1) with n by auto.
  apply (put2_loop (f := fun i => mod3Sub1 (nthN x1 i) (nthN x0 i) (nthN y i))); auto.
  intros i z Hi _ _ _. rewrite !get_nthN by lia. reflexivity.
Qed.

Lemma nthN_agree a b i : length a = length b -> i < length a -> nth_error a i = nth_error b i -> nthN a i = nthN b i.
Proof.
  intros HL Hi E. unfold nthN. destruct (nth_error_ex (l := b) (i := i)) as [x Hx]; [lia|].
  rewrite (nth_error_nth _ _ 0%N Hx). rewrite Hx in E. apply (nth_error_nth _ _ 0%N E).
Qed.

Lemma mod3AddIn_span_spec z1 z0 y1 y0 n :
  length z1 = n -> length z0 = n -> length y1 = n -> length y0 = n ->
  exists r, mod3AddIn_span z1 z0 y1 y0 = Ok r /\ length (fst r) = n /\ length (snd r) = n /\
   forall i, i < n -> nth_error (fst r) i = Some (fst (mod3Add (nthN z1 i) (nthN z0 i) (nthN y1 i) (nthN y0 i))) /\
                      nth_error (snd r) i = Some (snd (mod3Add (nthN z1 i) (nthN z0 i) (nthN y1 i) (nthN y0 i))).
Proof.
  intros. unfold mod3AddIn_span. replace (length z0) with n by auto.
  apply (put2_loop (f := fun i => mod3Add (nthN z1 i) (nthN z0 i) (nthN y1 i) (nthN y0 i))); auto.
  intros i z Hi H1' H2' Hz. destruct (Hz i) as [E1 E2]; [lia|].
  rewrite !get_nthN by lia. cbn [bind].
  rewrite (nthN_agree (a := fst z) (b := z1)), (nthN_agree (a := snd z) (b := z0)); auto; lia.
Qed.

Lemma mod3AddIn1_span_spec z1 z0 y n :
  length z1 = n -> length z0 = n -> length y = n ->
  exists r, mod3AddIn1_span z1 z0 y = Ok r /\ length (fst r) = n /\ length (snd r) = n /\
   forall i, i < n -> nth_error (fst r) i = Some (fst (mod3AddIn1 (nthN z1 i) (nthN z0 i) (nthN y i))) /\
                      nth_error (snd r) i = Some (snd (mod3AddIn1 (nthN z1 i) (nthN z0 i) (nthN y i))).
Proof.
  intros. unfold mod3AddIn1_span. replace (length z0) with n by auto.
  apply (put2_loop (f := fun i => mod3AddIn1 (nthN z1 i) (nthN z0 i) (nthN y i))); auto.
  intros i z Hi H1' H2' Hz. destruct (Hz i) as [E1 E2]; [lia|].
  rewrite !get_nthN by lia. cbn [bind].
  rewrite (nthN_agree (a := fst z) (b := z1)), (nthN_agree (a := snd z) (b := z0)); auto; lia.
Qed.

Lemma span_valid_nthN x1 x0 k i : span_valid x1 x0 -> k < length x1 -> k < length x0 ->
  tvalid (nthN x1 k) (nthN x0 k) i.
Proof. intros H H1 H0. apply (H k); apply nth_error_nth_lt; auto. Qed.

(* lane-by-lane statements used by the property file *)
Lemma span_finish n r (f : nat -> N * N) (Q : nat -> N -> N -> N -> Prop) :
  length (fst r) = n -> length (snd r) = n ->
  (forall i, i < n -> nth_error (fst r) i = Some (fst (f i)) /\ nth_error (snd r) i = Some (snd (f i))) ->
  (forall k i, k < n -> Q k (fst (f k)) (snd (f k)) i) ->
  span_lanes n r Q.
Proof.
  intros H1 H2 H3 HQ. repeat split; auto. intros k m l i Hm Hl.
  assert (Hk : k < n) by (apply nth_error_lt in Hm; lia).
  destruct (H3 k Hk) as [E1 E2]. rewrite E1 in Hm. rewrite E2 in Hl.
  inversion Hm; inversion Hl; subst. apply HQ. exact Hk.
Qed.

Lemma mod3_spans_correct z1 z0 x1 x0 y1 y0 y n :
  length z1 = n -> length z0 = n -> length x1 = n -> length x0 = n -> length y1 = n -> length y0 = n ->
  length y = n -> span_valid x1 x0 -> span_valid y1 y0 ->
  (exists r, mod3Add_span z1 z0 x1 x0 y1 y0 = Ok r /\ span_lanes n r (fun k m l i =>
     tvalid m l i /\ trit m l i = (trit (nthN x1 k) (nthN x0 k) i + trit (nthN y1 k) (nthN y0 k) i) mod 3)) /\
  (exists r, mod3Sub_span z1 z0 x1 x0 y1 y0 = Ok r /\ span_lanes n r (fun k m l i =>
     tvalid m l i /\ trit m l i = (trit (nthN x1 k) (nthN x0 k) i + 3 - trit (nthN y1 k) (nthN y0 k) i) mod 3)) /\
  (exists r, mod3Add1_span z1 z0 x1 x0 y = Ok r /\ span_lanes n r (fun k m l i =>
     tvalid m l i /\ trit m l i = (trit (nthN x1 k) (nthN x0 k) i + b2n (N.testbit (nthN y k) i)) mod 3)) /\
  (exists r, mod3Sub1_span z1 z0 x1 x0 y = Ok r /\ span_lanes n r (fun k m l i =>
     tvalid m l i /\ trit m l i = (trit (nthN x1 k) (nthN x0 k) i + 3 - b2n (N.testbit (nthN y k) i)) mod 3)) /\
  (exists r, mod3AddIn_span x1 x0 y1 y0 = Ok r /\ span_lanes n r (fun k m l i =>
     tvalid m l i /\ trit m l i = (trit (nthN x1 k) (nthN x0 k) i + trit (nthN y1 k) (nthN y0 k) i) mod 3)) /\
  (exists r, mod3AddIn1_span x1 x0 y = Ok r /\ span_lanes n r (fun k m l i =>
     tvalid m l i /\ trit m l i = (trit (nthN x1 k) (nthN x0 k) i + b2n (N.testbit (nthN y k) i)) mod 3)).
Proof.
  intros L1 L0 X1 X0 Y1 Y0 LY VX VY.
  assert (Hx : forall k i, k < n -> tvalid (nthN x1 k) (nthN x0 k) i)
    by (intros; apply span_valid_nthN; auto; lia).
  assert (Hy : forall k i, k < n -> tvalid (nthN y1 k) (nthN y0 k) i)
    by (intros; apply span_valid_nthN; auto; lia).
  repeat split.
  - destruct (mod3Add_span_spec L1 L0 X1 X0 Y1 Y0) as (r & E & H1 & H2 & H3). exists r. split; auto.
    eapply (span_finish H1 H2); [exact H3|]. intros k i Hk. apply mod3Add_lane; auto.
  - destruct (mod3Add_span_spec L1 L0 X1 X0 Y0 Y1) as (r & E & H1 & H2 & H3). exists r. split; auto.
    eapply (span_finish H1 H2); [exact H3|]. intros k i Hk.
    apply (mod3Sub_lane (x1 := nthN x1 k) (x0 := nthN x0 k) (y1 := nthN y1 k) (y0 := nthN y0 k)); auto.
  - destruct (mod3Add1_span_spec L1 L0 X1 X0 LY) as (r & E & H1 & H2 & H3). exists r. split; auto.
    eapply (span_finish H1 H2); [exact H3|]. intros k i Hk. apply mod3Add1_lane; auto.
  - destruct (mod3Sub1_span_spec L1 L0 X1 X0 LY) as (r & E & H1 & H2 & H3). exists r. split; auto.
    eapply (span_finish H1 H2); [exact H3|]. intros k i Hk. apply mod3Sub1_lane; auto.
  - destruct (mod3AddIn_span_spec X1 X0 Y1 Y0) as (r & E & H1 & H2 & H3). exists r. split; auto.
    eapply (span_finish H1 H2); [exact H3|]. intros k i Hk. apply mod3Add_lane; auto.
  - destruct (mod3AddIn1_span_spec X1 X0 LY) as (r & E & H1 & H2 & H3). exists r. split; auto.
    eapply (span_finish H1 H2); [exact H3|]. intros k i Hk. apply mod3AddIn1_lane; auto.
Qed.

(* ---------- sample8Mod3 ---------- *)
Lemma testbit_low64 x t : (t < 64)%N -> N.testbit (x mod 2 ^ 64) t = N.testbit x t.
Proof. intros H. apply N.mod_pow2_bits_low. exact H. Qed.

Lemma testbit_ones w i : N.testbit (N.ones w) i = (i <? w)%N.
Proof.
  destruct (N.ltb_spec i w). - apply N.ones_spec_low; auto. - apply N.ones_spec_high; auto.
Qed.

Lemma sample1Mod3_bits x :
  let valid := wnot 64 (N.land (x mod 2 ^ 64) (N.shiftr x 64 mod 2 ^ 64)) in
  forall t, N.testbit valid t = ((t <? 64)%N && negb (N.testbit x (64 + t) && N.testbit x t)).
Proof.
  intros valid t. unfold valid, wnot. rewrite N.lxor_spec, N.land_spec, testbit_ones.
  destruct (N.ltb_spec t 64) as [H|H].
  - rewrite !N.mod_pow2_bits_low by auto. rewrite N.shiftr_spec'.
    rewrite (N.add_comm 64 t). destruct (N.testbit x t), (N.testbit x (t + 64)); reflexivity.
  - rewrite !N.mod_pow2_bits_high by auto. reflexivity.
Qed.

Lemma land1_testbit a i : N.land (N.shiftr a i) 1 = if N.testbit a i then 1%N else 0%N.
Proof.
  apply N.bits_inj. intros t. rewrite N.land_spec, N.shiftr_spec'.
  destruct (N.eq_dec t 0) as [->|Ht].
  - rewrite N.add_0_l. destruct (N.testbit a i); reflexivity.
  - replace (N.testbit 1 t) with false.
    + rewrite andb_false_r. destruct (N.testbit a i); [|rewrite N.bits_0; auto].
      symmetry. destruct t; [congruence|]. reflexivity.
    + destruct t; [congruence|]. reflexivity.
Qed.

(* the sample is the topmost pair that is not (1,1); if there is none the behaviour is undefined *)
Lemma sample1Mod3_spec x :
  ((exists t, (t < 64)%N /\ pair_at x t <> (true, true)) ->
   exists t, (t < 64)%N /\ pair_at x t <> (true, true) /\
     (forall u, (t < u < 64)%N -> pair_at x u = (true, true)) /\
     sample1Mod3 x = Ok (if fst (pair_at x t) then 1%N else 0%N, if snd (pair_at x t) then 1%N else 0%N)) /\
  ((forall t, (t < 64)%N -> pair_at x t = (true, true)) -> sample1Mod3 x = UB).
Proof.
  pose proof (sample1Mod3_bits x) as HB. cbn zeta in HB.
  unfold sample1Mod3. cbn zeta.
  set (valid := wnot 64 (N.land (x mod 2 ^ 64) (N.shiftr x 64 mod 2 ^ 64))) in *.
  split.
  - intros (t0 & Ht0 & Hp).
    assert (Hnz : valid <> 0%N).
    { intros E. specialize (HB t0). rewrite E, N.bits_0 in HB.
      unfold pair_at in Hp. destruct (N.ltb_spec t0 64); [|lia].
      destruct (N.testbit x (64 + t0)), (N.testbit x t0); simpl in HB; try discriminate. congruence. }
    destruct (N.eqb_spec valid 0); [contradiction|].
    pose proof (N.bit_log2 _ Hnz) as HL. rewrite HB in HL.
    apply andb_true_iff in HL. destruct HL as [HL1 HL2]. apply N.ltb_lt in HL1.
    exists (N.log2 valid). split; auto. split.
    { unfold pair_at. intros E. apply pair_equal_spec in E. destruct E as [E1 E2]. rewrite E1, E2 in HL2. discriminate. }
    split.
    { intros u [Hu1 Hu2]. pose proof (N.bits_above_log2 _ _ Hu1) as Hz. rewrite HB in Hz.
      destruct (N.ltb_spec u 64); [|lia]. unfold pair_at.
      destruct (N.testbit x (64 + u)), (N.testbit x u); simpl in Hz; congruence. }
    rewrite !land1_testbit. rewrite !N.mod_pow2_bits_low by auto. rewrite N.shiftr_spec'.
    unfold pair_at. cbn [fst snd]. rewrite (N.add_comm 64). reflexivity.
  - intros Hall. assert (E : valid = 0%N).
    { apply N.bits_inj. intros t. rewrite HB, N.bits_0. destruct (N.ltb_spec t 64); auto.
      specialize (Hall t H). unfold pair_at in Hall. apply pair_equal_spec in Hall. destruct Hall as [E1 E2]. rewrite E1, E2. reflexivity. }
    rewrite E. reflexivity.
Qed.

Definition good_seed (x : N) : Prop := exists t, (t < 64)%N /\ pair_at x t <> (true, true).

Lemma sample1Mod3_val x : good_seed x ->
  exists m l : bool, m && l = false /\ sample1Mod3 x = Ok (if m then 1%N else 0%N, if l then 1%N else 0%N) /\
   exists t, (t < 64)%N /\ pair_at x t = (m, l) /\ (forall u, (t < u < 64)%N -> pair_at x u = (true, true)).
Proof.
  intros H. destruct (sample1Mod3_spec x) as [HS _]. destruct (HS H) as (t & Ht & Hp & Hu & E).
  exists (fst (pair_at x t)), (snd (pair_at x t)). destruct (pair_at x t) as [m l] eqn:Ep. cbn [fst snd] in *.
  split; [|split; auto; exists t; auto].
  destruct m, l; auto. congruence.
Qed.

Lemma sample8Mod3_spec seed : length seed = 8 -> (forall x, In x seed -> good_seed x) ->
  exists m l, sample8Mod3 seed = Ok (m, l) /\
   (forall i, (8 <= i)%N -> N.testbit m i = false /\ N.testbit l i = false) /\
   forall j x, nth_error seed j = Some x ->
    exists p q, sample1Mod3 x = Ok (p, q) /\
      N.testbit m (N.of_nat j) = (p =? 1)%N /\ N.testbit l (N.of_nat j) = (q =? 1)%N /\
      tvalid m l (N.of_nat j).
Proof.
  intros HL HG.
  destruct (forN_inv (P := fun k ml =>
     (forall i, (N.of_nat k <= i)%N -> N.testbit (fst ml) i = false /\ N.testbit (snd ml) i = false) /\
     forall j x, j < k -> nth_error seed j = Some x ->
       exists p q, sample1Mod3 x = Ok (p, q) /\
        N.testbit (fst ml) (N.of_nat j) = (p =? 1)%N /\ N.testbit (snd ml) (N.of_nat j) = (q =? 1)%N /\
        tvalid (fst ml) (snd ml) (N.of_nat j))
     (f := fun j ml => do x <- get seed j; do p <- sample1Mod3 x;
       Ok (N.lor (fst ml) (N.shiftl (fst p) (N.of_nat j)),
           N.lor (snd ml) (N.shiftl (snd p) (N.of_nat j))))
     (n := 8) (i := 0) (s := (0%N, 0%N))) as [[m l] [E [H1 H2]]].
  - cbn [fst snd]. split; [intros; rewrite N.bits_0; auto|]. intros; lia.
  - intros k [m l] Hk [H1 H2]. cbn [fst snd] in *.
    destruct (get_lt (l := seed) (i := k)) as [x [Eg En]]; [lia|]. rewrite Eg. cbn [bind].
    destruct (sample1Mod3_val (x := x)) as (a & b & Hv & Es & _).
    { apply HG. eapply nth_error_In; eauto. }
    rewrite Es. cbn [bind fst snd]. eexists. split; [reflexivity|]. cbn [fst snd].
    assert (Hsh : forall (c : bool) i, N.testbit (N.shiftl (if c then 1 else 0)%N (N.of_nat k)) i
                  = (c && (i =? N.of_nat k)%N)).
    { intros c i. destruct c; cbn [andb].
      - destruct (N.ltb_spec i (N.of_nat k)).
        + rewrite N.shiftl_spec_low by auto. symmetry. apply N.eqb_neq. lia.
        + rewrite N.shiftl_spec_high' by auto. destruct (N.eqb_spec i (N.of_nat k)) as [->|].
          * rewrite N.sub_diag. reflexivity.
          * replace (i - N.of_nat k)%N with (N.succ (N.pred (i - N.of_nat k))) by lia.
            destruct (N.pred (i - N.of_nat k)); reflexivity.
      - rewrite N.shiftl_0_l. apply N.bits_0. }
    split.
    + intros i Hi. rewrite !N.lor_spec, !Hsh. destruct (H1 i) as [-> ->]; [lia|].
      destruct (N.eqb_spec i (N.of_nat k)); [lia|]. rewrite !andb_false_r. auto.
    + intros j y Hj Hy. destruct (Nat.eq_dec j k) as [->|Hne].
      * rewrite En in Hy. inversion Hy; subst y. eexists _, _. split; [exact Es|].
        unfold tvalid. rewrite !N.lor_spec, !Hsh. destruct (H1 (N.of_nat k)) as [-> ->]; [lia|].
        rewrite N.eqb_refl. destruct a, b; simpl in *; auto; discriminate.
      * destruct (H2 j y) as (p & q & Ep & B1 & B2 & V); [lia|auto|].
        exists p, q. split; auto. unfold tvalid in *. rewrite !N.lor_spec, !Hsh.
        destruct (N.eqb_spec (N.of_nat j) (N.of_nat k)); [lia|].
        rewrite !andb_false_r, !orb_false_r. auto.
  - exists m, l. split; [exact E|]. cbn [fst snd] in *. split; [intros; apply H1; lia|].
    intros j x Hx. apply H2; auto. apply nth_error_lt in Hx. lia.
Qed.

(* all seeds: bit t of the output bytes is the sample of seed t *)
Lemma sampleMod3_spec seed n : length seed = n * 128 -> (forall x, In x seed -> good_seed x) ->
  exists ms ls, sampleMod3 seed n n = Ok (ms, ls) /\ length ms = n * 16 /\ length ls = n * 16 /\
   forall t x, nth_error seed t = Some x ->
    exists m l p q, nth_error ms (t / 8) = Some m /\ nth_error ls (t / 8) = Some l /\
      sample1Mod3 x = Ok (p, q) /\
      N.testbit m (N.of_nat (t mod 8)) = (p =? 1)%N /\ N.testbit l (N.of_nat (t mod 8)) = (q =? 1)%N /\
      tvalid m l (N.of_nat (t mod 8)).
Proof.
  intros HL HG. unfold sampleMod3, throw_if.
  replace (n * 128 =? length seed) with true by (symmetry; apply Nat.eqb_eq; lia).
  rewrite Nat.eqb_refl. cbn [negb bind].
  destruct (forN_inv (P := fun k ml => length (fst ml) = k /\ length (snd ml) = k /\
     forall t x, t < 8 * k -> nth_error seed t = Some x ->
     exists m l p q, nth_error (fst ml) (t / 8) = Some m /\ nth_error (snd ml) (t / 8) = Some l /\
      sample1Mod3 x = Ok (p, q) /\
      N.testbit m (N.of_nat (t mod 8)) = (p =? 1)%N /\ N.testbit l (N.of_nat (t mod 8)) = (q =? 1)%N /\
      tvalid m l (N.of_nat (t mod 8)))
    (f := fun i ml => do s <- readN seed (8 * i) 8; do p <- sample8Mod3 s;
        Ok (fst ml ++ [fst p], snd ml ++ [snd p]))
    (n := length seed / 8) (i := 0) (s := ([], []))) as [[ms ls] [E (H1 & H2 & H3)]].
  - cbn. repeat split; auto. intros; lia.
  - intros k [ms ls] Hk (H1 & H2 & H3). cbn [fst snd] in *.
    rewrite readN_ok by lia. cbn [bind].
    destruct (sample8Mod3_spec (seed := slice seed (8 * k) 8)) as (m & l & Es & _ & Hs).
    { apply slice_length. lia. }
    { intros x Hx. apply HG. apply In_nth_error in Hx. destruct Hx as [j Hj].
      rewrite nth_error_slice in Hj. destruct (j <? 8); [|discriminate]. eapply nth_error_In; eauto. }
    rewrite Es. cbn [bind fst snd]. eexists. split; [reflexivity|]. cbn [fst snd].
    rewrite !app_length. cbn [length]. split; [lia|]. split; [lia|].
    intros t x Ht Hx. rewrite !nth_error_app, H1, H2.
    destruct (Nat.ltb_spec (t / 8) k).
    + apply H3; auto. lia.
    + replace (t / 8 - k) with 0 by lia. cbn [nth_error].
      destruct (Hs (t mod 8) x) as (p & q & Ep & B1 & B2 & V).
      { rewrite nth_error_slice. destruct (Nat.ltb_spec (t mod 8) 8); [|lia].
        rewrite <- Hx. f_equal. lia. }
      exists m, l, p, q. repeat split; auto.
  - cbn [fst snd] in *. exists ms, ls. split; auto. split; [lia|]. split; [lia|].
    intros t x Hx. apply H3; auto. apply nth_error_lt in Hx. lia.
Qed.

(* ---------- the tables ---------- *)
Definition check_entry (b : nat) (v lb mb : N) : bool :=
  if b <? 243 then
    (v =? 5)%N && (lb <? 32)%N && (mb <? 32)%N &&
    forallb (fun j => trit mb lb (N.of_nat j) =? digit3 (N.of_nat b) j) (seq 0 5)
  else (v =? 0)%N && (lb =? 0)%N && (mb =? 0)%N.

Lemma check_entry_ok b v lb mb : check_entry b v lb mb = true -> entry_ok b v lb mb.
Proof.
  unfold check_entry, entry_ok. destruct (Nat.ltb_spec b 243).
  - rewrite !andb_true_iff. intros [[[H1 H2] H3] H4]. left.
    apply N.eqb_eq in H1. apply N.ltb_lt in H2, H3. repeat split; auto.
    intros j Hj. rewrite forallb_forall in H4. apply Nat.eqb_eq, H4, in_seq. lia.
  - rewrite !andb_true_iff. intros [[H1 H2] H3]. right.
    apply N.eqb_eq in H1, H2, H3. auto.
Qed.

Lemma lookup_tables_ok b : b < 256 -> exists v lb mb,
  nth_error mod3TableV b = Some v /\ nth_error mod3TableLsb b = Some lb /\
  nth_error mod3TableMsb b = Some mb /\ entry_ok b v lb mb.
Proof.
  intros Hb.
  assert (HC : forallb (fun b => match nth_error mod3TableV b, nth_error mod3TableLsb b, nth_error mod3TableMsb b with
     | Some v, Some lb, Some mb => check_entry b v lb mb | _, _, _ => false end) (seq 0 256) = true)
    by (vm_compute; reflexivity).
  rewrite forallb_forall in HC. specialize (HC b). rewrite in_seq in HC.
  assert (Hc := HC ltac:(lia)). clear HC.
  destruct (nth_error mod3TableV b) as [v|]; [|discriminate].
  destruct (nth_error mod3TableLsb b) as [lb|]; [|discriminate].
  destruct (nth_error mod3TableMsb b) as [mb|]; [|discriminate].
  exists v, lb, mb. repeat split; auto. apply check_entry_ok, Hc.
Qed.

Lemma full_table_ok b : b < 256 -> exists v,
  nth_error mod3Table b = Some v /\
  entry_ok b (5 * N.shiftr v 16)%N (N.land v 255) (N.land (N.shiftr v 8) 255).
Proof.
  intros Hb.
  assert (HC : forallb (fun b => match nth_error mod3Table b with
     | Some v => check_entry b (5 * N.shiftr v 16)%N (N.land v 255) (N.land (N.shiftr v 8) 255)
     | _ => false end) (seq 0 256) = true)
    by (vm_compute; reflexivity).
  rewrite forallb_forall in HC. specialize (HC b). rewrite in_seq in HC.
  assert (Hc := HC ltac:(lia)). clear HC.
  destruct (nth_error mod3Table b) as [v|]; [|discriminate].
  exists v. split; auto. apply check_entry_ok, Hc.
Qed.

Lemma byte_of_lt x b : (byte_of x b < 256)%N.
Proof.
  unfold byte_of. change 255%N with (N.ones 8). rewrite N.land_ones. apply N.mod_lt. discriminate.
Qed.

(* ---------- lanes ---------- *)
Definition lane_inv (acc : list N) (ln : lane) : Prop :=
  (forall b, In b acc -> (b < 243)%N) /\
  lSize ln = (5 * N.of_nat (length acc))%N /\
  (lLsb ln < 2 ^ 32)%N /\ (lMsb ln < 2 ^ 32)%N /\
  forall i, i < 32 -> trit (lMsb ln) (lLsb ln) (N.of_nat i) =
    if i <? 5 * length acc then digit3 (nth (i / 5) acc 0%N) (i mod 5) else 0.

Lemma lane_inv_init : lane_inv [] (Lane 0 0 0).
Proof.
  unfold lane_inv; cbn [lSize lLsb lMsb length In]. split; [intros b []|].
  split; [reflexivity|]. split; [reflexivity|]. split; [reflexivity|].
  intros i Hi. unfold trit. rewrite !N.bits_0.
  destruct (Nat.ltb_spec i (5 * 0)); [lia|]. reflexivity.
Qed.

Lemma pow2_bits_high a w i : (a < 2 ^ w)%N -> (w <= i)%N -> N.testbit a i = false.
Proof.
  intros Ha Hi. destruct (N.eq_dec a 0) as [->|Hz]; [apply N.bits_0|].
  apply N.bits_above_log2. apply N.log2_lt_pow2 in Ha; lia.
Qed.

Lemma bits_high_pow2 a w : (forall i, (w <= i)%N -> N.testbit a i = false) -> (a < 2 ^ w)%N.
Proof.
  intros H. destruct (N.eq_dec a 0) as [->|Hz]; [apply N.neq_0_lt_0, N.pow_nonzero; discriminate|].
  apply N.log2_lt_pow2; [lia|]. destruct (N.lt_ge_cases (N.log2 a) w); auto.
  specialize (H _ H0). rewrite N.bit_log2 in H by auto. discriminate.
Qed.

Lemma lor_lt a b w : (a < 2 ^ w)%N -> (b < 2 ^ w)%N -> (N.lor a b < 2 ^ w)%N.
Proof.
  intros Ha Hb. apply bits_high_pow2. intros i Hi. rewrite N.lor_spec.
  rewrite (pow2_bits_high Ha Hi), (pow2_bits_high Hb Hi). reflexivity.
Qed.

Lemma shift5_bit a t i : (t < 32)%N -> i < 32 ->
  N.testbit (N.lor (N.shiftl a 5 mod 2 ^ 32) t) (N.of_nat i) =
  if i <? 5 then N.testbit t (N.of_nat i) else N.testbit a (N.of_nat (i - 5)).
Proof.
  intros Ht Hi. rewrite N.lor_spec, N.mod_pow2_bits_low by lia.
  destruct (Nat.ltb_spec i 5).
  - rewrite N.shiftl_spec_low by lia. reflexivity.
  - rewrite N.shiftl_spec_high' by lia.
    rewrite (pow2_bits_high (a := t) (w := 5)) by (simpl; lia). rewrite orb_false_r.
    f_equal. lia.
Qed.

(* shifting in one table entry *)
Lemma lane_inv_step acc ln b v lb mb :
  lane_inv acc ln -> (b < 256)%N -> length acc < 100 ->
  entry_ok (N.to_nat b) v lb mb ->
  lane_inv (if (b <? 243)%N then b :: acc else acc)
    (Lane (N.lor (N.shiftl (lLsb ln) v mod 2 ^ 32) lb)
          (N.lor (N.shiftl (lMsb ln) v mod 2 ^ 32) mb) (lSize ln + v)).
Proof.
  intros (HA & HS & HL & HM & HT) Hb Hlen HE. destruct HE as [(Hlt & -> & Hlb & Hmb & HD)|(Hge & -> & -> & ->)].
  - destruct (N.ltb_spec b 243); [|lia]. unfold lane_inv; cbn [lSize lLsb lMsb].
    split; [intros c [<-|Hc]; auto|].
    split; [cbn [length]; lia|].
    split; [apply lor_lt; [apply N.mod_lt; discriminate|lia]|].
    split; [apply lor_lt; [apply N.mod_lt; discriminate|lia]|].
    intros i Hi. unfold trit. rewrite !shift5_bit by auto.
    cbn [length]. destruct (Nat.ltb_spec i 5).
    + destruct (Nat.ltb_spec i (5 * S (length acc))); [|lia].
      replace (i / 5) with 0 by (symmetry; apply Nat.div_small; lia).
      rewrite Nat.mod_small by lia. cbn [nth].
      specialize (HD i H0). unfold trit in HD. rewrite HD. rewrite Nnat.N2Nat.id. reflexivity.
    + specialize (HT (i - 5)). unfold trit in HT. rewrite HT by lia.
      replace (i / 5) with (S ((i - 5) / 5)) by lia. replace (i mod 5) with ((i - 5) mod 5) by lia.
      cbn [nth]. destruct (Nat.ltb_spec (i - 5) (5 * length acc)), (Nat.ltb_spec i (5 * S (length acc))); auto; lia.
  - destruct (N.ltb_spec b 243); [lia|].
    replace (Lane _ _ _) with ln; [repeat split; auto|].
    destruct ln as [l m s]. cbn [lLsb lMsb lSize] in *. rewrite !N.shiftl_0_r, !N.lor_0_r, N.add_0_r.
    rewrite !N.mod_small by auto. reflexivity.
Qed.

Lemma lane_byte_ok acc ln b : lane_inv acc ln -> (b < 256)%N -> length acc < 100 ->
  exists ln', lane_byte ln b = Ok ln' /\ lane_inv (if (b <? 243)%N then b :: acc else acc) ln'.
Proof.
  intros HI Hb Hlen. unfold lane_byte.
  destruct (lookup_tables_ok (b := N.to_nat b)) as (v & lb & mb & E1 & E2 & E3 & HE); [lia|].
  unfold get. rewrite E1, E2, E3. cbn [bind]. eexists. split; [reflexivity|].
  pose proof (lane_inv_step HI Hb Hlen HE) as H.
  replace ((lSize ln + v) mod 2 ^ 32)%N with (lSize ln + v)%N; auto.
  symmetry. apply N.mod_small. destruct HI as (_ & HS & _). destruct HE as [(_ & -> & _)|(_ & -> & _)]; lia.
Qed.

(* all lanes satisfy the invariant for some list of at most k accepted bytes *)
Definition lanes_inv (k : nat) (ls : list lane) : Prop :=
  length ls = 32 /\ forall q ln, nth_error ls q = Some ln -> exists acc, length acc <= k /\ lane_inv acc ln.

Lemma sample_pass_ok rnd k s ls : lanes_inv k ls -> k < 50 ->
  exists s' ls', sample_pass rnd (s, ls) = Ok (s', ls') /\ lanes_inv (S k) ls'.
Proof.
  intros [HL HI] Hk. unfold sample_pass. cbn [fst snd].
  destruct (forN_inv (P := fun i l => length l = 32 /\
      forall q ln, nth_error l q = Some ln -> exists acc, length acc <= (if q <? i then S k else k) /\ lane_inv acc ln)
    (f := fun q ls => do ln <- get ls q;
        do ln' <- lane_byte ln (unit_byte rnd (refill1 s) (q / 8) (q mod 8)); set ls q ln')
    (n := 32) (i := 0) (s := ls)) as [l' [E [HL' HI']]].
  - split; auto.
  - intros i l Hi [HLl HIl]. destruct (get_lt (l := l) (i := i)) as [ln [Eg En]]; [lia|].
    rewrite Eg. cbn [bind]. destruct (HIl _ _ En) as [acc [Ha Hin]].
    rewrite Nat.ltb_irrefl in Ha.
    destruct (lane_byte_ok (b := unit_byte rnd (refill1 s) (i / 8) (i mod 8)) Hin) as [ln' [E' HI']];
      [apply byte_of_lt|lia|].
    rewrite E'. cbn [bind]. rewrite set_lt by lia. eexists. split; [reflexivity|].
    rewrite upd_length. split; auto. intros q x Hx. rewrite nth_error_upd in Hx.
    destruct (Nat.eqb_spec i q) as [->|Hne]; cbn [andb] in Hx.
    + destruct (Nat.ltb_spec q (length l)); [|lia]. inversion Hx; subst x.
      eexists. split; [|exact HI']. destruct (Nat.ltb_spec q (q + 1)); [|lia].
      destruct (_ <? 243)%N; cbn [length]; lia.
    + destruct (HIl _ _ Hx) as [a [Hal Hai]]. exists a. split; auto.
      destruct (Nat.ltb_spec q i), (Nat.ltb_spec q (i + 1)); lia.
  - rewrite E. cbn [bind]. eexists _, _. split; [reflexivity|]. split; auto.
    intros q ln Hq. destruct (HI' _ _ Hq) as [a [Ha Hi]]. exists a. split; auto.
    destruct (q <? 0 + 32); lia.
Qed.

Lemma sample_passes_ok rnd s :
  exists r, forN 0 8 (fun _ st => sample_pass rnd st) (s, repeat (Lane 0 0 0) 32) = Ok r /\ lanes_inv 8 (snd r).
Proof.
  destruct (forN_inv (P := fun k (st : smp * list lane) => lanes_inv k (snd st))
    (f := fun _ st => sample_pass rnd st) (n := 8) (i := 0) (s := (s, repeat (Lane 0 0 0) 32))) as [r [E H]].
  - cbn [snd]. split; [apply repeat_length|]. intros q ln Hq. exists []. split; [auto|].
    apply nth_error_In, repeat_spec in Hq. subst. apply lane_inv_init.
  - intros k [s' ls] Hk H. cbn [snd] in *. destruct (sample_pass_ok rnd s' H) as (s2 & l2 & E & H2); [lia|].
    exists (s2, l2). split; auto. replace (k + 1) with (S k) by lia. exact H2.
  - exists r. auto.
Qed.

(* the fix-up loop: if it ends, the lane is full *)
Lemma lane_fix_ok rnd : forall fuel s acc ln, lane_inv acc ln -> length acc <= 14 ->
  lane_fix fuel rnd s ln = Hang \/
  exists s' ln' acc', lane_fix fuel rnd s ln = Ok (s', ln') /\ lane_inv acc' ln' /\ 7 <= length acc' /\
    length acc' <= 14.
Proof.
  induction fuel as [|fuel IH]; intros s acc ln HI Hlen; cbn [lane_fix].
  - destruct (N.ltb_spec (lSize ln) 32); auto. right. exists s, ln, acc. split; auto. split; auto.
    destruct HI as (_ & HS & _). lia.
  - destruct (N.ltb_spec (lSize ln) 32) as [Hlt|Hge].
    + set (b := byte_of _ _). pose proof (byte_of_lt (rnd (sBase2 (refill2 s) + sPos2 (refill2 s) / 16)%N)
         (sPos2 (refill2 s) mod 16)) as Hb. fold b in Hb.
      destruct (full_table_ok (b := N.to_nat b)) as (v & Ev & HE); [lia|].
      unfold get. rewrite Ev. cbn [bind].
      pose proof (lane_inv_step HI Hb ltac:(lia) HE) as HI'.
      apply IH with (acc := if (b <? 243)%N then b :: acc else acc); auto.
      destruct HI as (_ & HS & _). destruct (b <? 243)%N; cbn [length]; lia.
    + right. exists s, ln, acc. split; auto. split; auto.
      destruct HI as (_ & HS & _). lia.
Qed.

Definition lanes_full (ls : list lane) : Prop :=
  length ls = 32 /\ forall q ln, nth_error ls q = Some ln -> exists acc, 7 <= length acc <= 14 /\ lane_inv acc ln.

Lemma sample_fix_ok fuel rnd st : lanes_inv 8 (snd st) ->
  sample_fix fuel rnd st = Hang \/
  exists r, sample_fix fuel rnd st = Ok r /\ lanes_full (snd r).
Proof.
  destruct st as [s ls]. cbn [snd]. intros HI0. unfold sample_fix.
  set (body := fun q (st : smp * list lane) => do ln <- get (snd st) q;
    do r <- lane_fix fuel rnd (fst st) ln; do ls <- set (snd st) q (snd r); Ok (fst r, ls)).
  assert (G : forall m k (st : smp * list lane), k + m = 32 -> length (snd st) = 32 ->
     (forall q ln, nth_error (snd st) q = Some ln -> exists acc, length acc <= 14 /\
         (q < k -> 7 <= length acc) /\ lane_inv acc ln) ->
     forN k m body st = Hang \/ exists r, forN k m body st = Ok r /\ lanes_full (snd r)).
  { induction m as [|m IH]; intros k [s' l] Hkm HL HI; cbn [snd] in *; cbn [forN].
    - right. exists (s', l). split; auto. cbn [snd]. split; auto. intros q ln Hq. destruct (HI _ _ Hq) as (a & H1 & H2 & H3).
      exists a. split; auto. split; auto. apply H2. apply nth_error_lt in Hq. lia.
    - unfold body at 1 3. cbn [fst snd]. destruct (get_lt (l := l) (i := k)) as [ln [Eg En]]; [lia|].
      rewrite Eg. cbn [bind]. destruct (HI _ _ En) as (acc & Ha & _ & Hin).
      destruct (lane_fix_ok rnd fuel s' Hin Ha) as [->|(s2 & ln' & acc' & -> & Hi' & H7 & H14)]; [left; reflexivity|].
      cbn [bind fst snd]. rewrite set_lt by lia. cbn [bind]. apply IH; cbn [fst snd].
      + lia.
      + rewrite upd_length. auto.
      + intros q x Hx. rewrite nth_error_upd in Hx. destruct (Nat.eqb_spec k q) as [->|Hne]; cbn [andb] in Hx.
        * destruct (Nat.ltb_spec q (length l)); [|lia]. inversion Hx; subst x. exists acc'. auto.
        * destruct (HI _ _ Hx) as (a & A1 & A2 & A3). exists a. split; auto. split; auto. intros; apply A2; lia. }
  apply (G 32 0 (s, ls)); auto.
  - apply HI0.
  - intros q ln Hq. destruct HI0 as [_ HI0]. destruct (HI0 _ _ Hq) as (a & A1 & A2). exists a.
    split; [lia|]. split; auto. intros; lia.
Qed.

(* ---------- output blocks ---------- *)
Lemma block_of_bit a b c d i : (a < 2 ^ 32)%N -> (b < 2 ^ 32)%N -> (c < 2 ^ 32)%N -> (d < 2 ^ 32)%N ->
  N.testbit (block_of [a; b; c; d]) i =
    if (i <? 32)%N then N.testbit a i else if (i <? 64)%N then N.testbit b (i - 32)
    else if (i <? 96)%N then N.testbit c (i - 64) else N.testbit d (i - 96).
Proof.
  intros Ha Hb Hc Hd. unfold block_of. rewrite !N.lor_spec.
  assert (S : forall x k, N.testbit (N.shiftl x k) i = if (i <? k)%N then false else N.testbit x (i - k)).
  { intros x k. destruct (N.ltb_spec i k). - apply N.shiftl_spec_low; auto. - apply N.shiftl_spec_high'; auto. }
  rewrite !S.
  destruct (N.ltb_spec i 32), (N.ltb_spec i 64), (N.ltb_spec i 96); try lia;
    rewrite ?orb_false_r; cbn [orb];
    try (rewrite (pow2_bits_high (i := i) Ha) by lia);
    try (rewrite (pow2_bits_high (i := (i - 32)%N) Hb) by lia);
    try (rewrite (pow2_bits_high (i := (i - 64)%N) Hc) by lia); rewrite ?orb_false_r; cbn [orb]; auto.
Qed.

Lemma block_of_lt a b c d : (a < 2 ^ 32)%N -> (b < 2 ^ 32)%N -> (c < 2 ^ 32)%N -> (d < 2 ^ 32)%N ->
  (block_of [a; b; c; d] < 2 ^ 128)%N.
Proof.
  intros Ha Hb Hc Hd. apply bits_high_pow2. intros i Hi. rewrite block_of_bit by auto.
  destruct (N.ltb_spec i 32); [lia|]. destruct (N.ltb_spec i 64); [lia|]. destruct (N.ltb_spec i 96); [lia|].
  apply (pow2_bits_high Hd). lia.
Qed.

Lemma word32_block a b c d q : (a < 2 ^ 32)%N -> (b < 2 ^ 32)%N -> (c < 2 ^ 32)%N -> (d < 2 ^ 32)%N ->
  q < 4 -> word32 (block_of [a; b; c; d]) q = nth q [a; b; c; d] 0%N.
Proof.
  intros Ha Hb Hc Hd Hq. apply N.bits_inj. intros i. unfold word32.
  rewrite N.land_spec, N.shiftr_spec', testbit_ones, block_of_bit by auto.
  destruct (N.ltb_spec i 32).
  - rewrite andb_true_r.
    do 4 (destruct q as [|q]; [cbn [nth N.of_nat]; repeat match goal with |- context [(?x <? ?y)%N] => destruct (N.ltb_spec x y); try lia end; f_equal; lia|]). lia.
  - rewrite andb_false_r. symmetry.
    do 4 (destruct q as [|q]; [cbn [nth]; eapply pow2_bits_high; eauto; lia|]). lia.
Qed.

Definition good_block (m l : N) : Prop :=
  (m < 2 ^ 128)%N /\ (l < 2 ^ 128)%N /\ (forall i, tvalid m l i) /\
  forall q, q < 4 -> exists acc, trits_of_bytes (word32 m q) (word32 l q) acc.

Lemma digit3_lt b j : digit3 b j < 3.
Proof. unfold digit3. pose proof (N.mod_lt (b / 3 ^ N.of_nat j) 3). lia. Qed.

Lemma lane_inv_valid acc ln i : lane_inv acc ln -> tvalid (lMsb ln) (lLsb ln) i.
Proof.
  intros (_ & _ & HL & HM & HT). destruct (N.lt_ge_cases i 32).
  - apply trit_lt_valid. specialize (HT (N.to_nat i)). rewrite Nnat.N2Nat.id in HT. rewrite HT by lia.
    destruct (_ <? _); [apply digit3_lt|lia].
  - unfold tvalid. rewrite (pow2_bits_high HM) by lia. reflexivity.
Qed.

Lemma lane_inv_trits acc ln : lane_inv acc ln -> 7 <= length acc ->
  trits_of_bytes (lMsb ln) (lLsb ln) acc.
Proof.
  intros (HA & _ & _ & _ & HT) H7. repeat split; auto. intros i Hi. rewrite HT by auto.
  destruct (Nat.ltb_spec i (5 * length acc)); auto. lia.
Qed.

Lemma slice4 A (l : list A) o : o + 4 <= length l -> exists a b c d,
  slice l o 4 = [a; b; c; d] /\ nth_error l o = Some a /\ nth_error l (o + 1) = Some b /\
  nth_error l (o + 2) = Some c /\ nth_error l (o + 3) = Some d.
Proof.
  intros H. pose proof (slice_length H) as HL.
  destruct (slice l o 4) as [|a [|b [|c [|d [|e t]]]]] eqn:E; try discriminate.
  exists a, b, c, d. split; auto.
  assert (F : forall k, k < 4 -> nth_error l (o + k) = nth_error (slice l o 4) k).
  { intros k Hk. rewrite nth_error_slice. destruct (Nat.ltb_spec k 4); auto. lia. }
  rewrite E in F. pose proof (F 0) as F0. rewrite Nat.add_0_r in F0.
  rewrite F0, (F 1), (F 2), (F 3) by lia. auto.
Qed.

Lemma good_block_of ls q : lanes_full ls -> q < 8 ->
  good_block (block_of (map lMsb (slice ls (4 * q) 4))) (block_of (map lLsb (slice ls (4 * q) 4))).
Proof.
  intros [HL HI] Hq.
  destruct (slice4 (l := ls) (o := 4 * q)) as (a & b & c & d & -> & Na & Nb & Nc & Nd); [lia|].
  destruct (HI _ _ Na) as (aa & La & Ia). destruct (HI _ _ Nb) as (ab & Lb & Ib).
  destruct (HI _ _ Nc) as (ac & Lc & Ic). destruct (HI _ _ Nd) as (ad & Ld & Id).
  pose proof Ia as (_ & _ & A1 & A2 & _). pose proof Ib as (_ & _ & B1 & B2 & _).
  pose proof Ic as (_ & _ & C1 & C2 & _). pose proof Id as (_ & _ & D1 & D2 & _).
  cbn [map]. split; [apply block_of_lt; auto|]. split; [apply block_of_lt; auto|]. split.
  - intros i. unfold tvalid. rewrite !block_of_bit by auto.
    destruct (i <? 32)%N; [apply (lane_inv_valid i Ia)|].
    destruct (i <? 64)%N; [apply (lane_inv_valid (i - 32) Ib)|].
    destruct (i <? 96)%N; [apply (lane_inv_valid (i - 64) Ic)|apply (lane_inv_valid (i - 96) Id)].
  - intros k Hk. rewrite !word32_block by auto.
    do 4 (destruct k as [|k]; [cbn [nth]; eexists; eapply lane_inv_trits; eauto; lia|]). lia.
Qed.

Definition blocks_good (ms ls : list N) : Prop :=
  forall k m l, nth_error ms k = Some m -> nth_error ls k = Some l -> good_block m l.

Lemma blocks_good_app a b a' b' : length a = length b ->
  blocks_good a b -> blocks_good a' b' -> blocks_good (a ++ a') (b ++ b').
Proof.
  intros HL H1 H2 k m l. rewrite !nth_error_app, <- HL. destruct (k <? length a); eauto.
Qed.

Lemma sampleMod3Lookup_ok fuel rnd idx n :
  sampleMod3Lookup fuel rnd idx n n = Hang \/
  exists idx' ms ls, sampleMod3Lookup fuel rnd idx n n = Ok (idx', (ms, ls)) /\
    length ms = n /\ length ls = n /\ blocks_good ms ls.
Proof.
  unfold sampleMod3Lookup, throw_if. rewrite Nat.eqb_refl. cbn [negb bind].
  assert (G : forall m k (st : smp * (list N * list N)), k + m = (n + 7) / 8 ->
    length (fst (snd st)) = Nat.min (8 * k) n -> length (snd (snd st)) = Nat.min (8 * k) n ->
    blocks_good (fst (snd st)) (snd (snd st)) ->
    forN k m (sample_group fuel rnd n) st = Hang \/
    exists r, forN k m (sample_group fuel rnd n) st = Ok r /\ length (fst (snd r)) = n /\
      length (snd (snd r)) = n /\ blocks_good (fst (snd r)) (snd (snd r))).
  { induction m as [|m IH]; intros k st Hkm L1 L2 HG; cbn [forN].
    - right. exists st. split; auto. split; [lia|]. split; [lia|]. exact HG.
    - unfold sample_group at 1 3.
      destruct (sample_passes_ok rnd (fst st)) as (r & -> & HI). cbn [bind].
      destruct (sample_fix_ok fuel rnd HI) as [->|(r2 & -> & HF)]; [left; reflexivity|].
      cbn [bind]. apply IH; cbn [fst snd].
      + lia.
      + rewrite app_length, map_length, seq_length. lia.
      + rewrite app_length, map_length, seq_length. lia.
      + apply blocks_good_app; [lia|exact HG|].
        intros j mm ll. rewrite !nth_error_map, !nth_error_seq.
        destruct (Nat.ltb_spec j (Nat.min (n - 8 * k) 8)); cbn [option_map]; [|discriminate].
        intros Em El. inversion Em; inversion El; subst. apply good_block_of; auto. lia. }
  destruct (G ((n + 7) / 8) 0 (smp_init idx, ([], []))) as [->|(r & -> & H1 & H2 & H3)].
  - lia.
  - reflexivity.
  - reflexivity.
  - intros k m l. cbn [fst snd]. destruct k; discriminate.
  - left. reflexivity.
  - right. cbn [bind]. destruct r as [s [ms ls]]. cbn [fst snd] in *. exists (sIdx s), ms, ls. auto.
Qed.

Lemma sampleMod3Lookup_throw fuel rnd idx n n' : n <> n' -> sampleMod3Lookup fuel rnd idx n n' = Throw.
Proof. intros H. unfold sampleMod3Lookup, throw_if. apply Nat.eqb_neq in H. rewrite H. reflexivity. Qed.

(* ---------- termination of the fix-up loop ---------- *)
Definition live (rnd : N -> N) : Prop := forall c, exists k, (k < 16)%N /\ (byte_of (rnd c) k < 243)%N.

Lemma lane_fix_refill fuel rnd s ln : (sPos2 s <= 128)%N -> (lSize ln < 32)%N ->
  lane_fix fuel rnd s ln = lane_fix fuel rnd (refill2 s) ln.
Proof.
  intros Hp Hl. destruct fuel; cbn [lane_fix]; destruct (N.ltb_spec (lSize ln) 32); try lia; auto.
  assert (E : refill2 (refill2 s) = refill2 s).
  { unfold refill2. destruct (N.eqb_spec (sPos2 s) 128) as [e|e]; cbn [sPos2].
    - reflexivity.
    - destruct (N.eqb_spec (sPos2 s) 128); [congruence|reflexivity]. }
  rewrite E. reflexivity.
Qed.

(* run through the rest of the current block *)
Lemma lane_fix_block rnd : forall j fuel s acc ln q, j <= 16 -> (q < 8)%N ->
  sPos2 s = (16 * q + (16 - N.of_nat j))%N -> lane_inv acc ln -> length acc <= 14 ->
  (exists r, lane_fix (j + fuel) rnd s ln = Ok r) \/
  exists s' acc' ln', lane_fix (j + fuel) rnd s ln = lane_fix fuel rnd s' ln' /\
    lane_inv acc' ln' /\ length acc' <= 14 /\
    sPos2 s' = (16 * (q + 1))%N /\ (lSize ln <= lSize ln')%N /\
    (forall k, (16 - N.of_nat j <= k < 16)%N -> (byte_of (rnd (sBase2 s + q)%N) k < 243)%N ->
       (lSize ln + 5 <= lSize ln')%N).
Proof.
  induction j as [|j IH]; intros fuel s acc ln q Hj Hq Hp HI Hlen.
  - right. exists s, acc, ln. cbn [Nat.add]. split; auto. split; auto. split; auto. split; [lia|].
    split; [lia|]. intros; lia.
  - destruct (N.lt_ge_cases (lSize ln) 32) as [Hlt|Hge].
    2:{ left. exists (s, ln). cbn [Nat.add lane_fix]. destruct (N.ltb_spec (lSize ln) 32); [lia|auto]. }
    cbn [Nat.add lane_fix]. destruct (N.ltb_spec (lSize ln) 32); [|lia].
    assert (ER : refill2 s = s).
    { unfold refill2. destruct (N.eqb_spec (sPos2 s) 128); auto. lia. }
    rewrite ER.
    replace (sPos2 s / 16)%N with q by (rewrite Hp; lia).
    replace (sPos2 s mod 16)%N with (16 - N.of_nat (S j))%N by (rewrite Hp; lia).
    set (b := byte_of (rnd (sBase2 s + q)%N) (16 - N.of_nat (S j))).
    pose proof (byte_of_lt (rnd (sBase2 s + q)%N) (16 - N.of_nat (S j))) as Hb. fold b in Hb.
    destruct (full_table_ok (b := N.to_nat b)) as (v & Ev & HE); [lia|].
    unfold get at 1 2. rewrite Ev. cbn [bind].
    pose proof (lane_inv_step HI Hb ltac:(lia) HE) as HI'.
    set (ln' := Lane _ _ _) in *.
    set (s' := Smp _ _ _ _ _).
    assert (HL' : length (if (b <? 243)%N then b :: acc else acc) <= 14).
    { destruct HI as (_ & HS & _). destruct (b <? 243)%N; cbn [length]; lia. }
    destruct (IH fuel s' _ ln' q ltac:(lia) Hq ltac:(cbn [s' sPos2]; lia) HI' HL')
      as [[r Er]|(s2 & acc2 & ln2 & E2 & I2 & L2 & P2 & S2 & B2)].
    + left. exists r. exact Er.
    + right. exists s2, acc2, ln2. split; [exact E2|]. split; auto. split; auto. split; auto.
      assert (HSz : lSize ln' = (lSize ln + 5 * N.shiftr v 16)%N) by reflexivity.
      split; [lia|]. intros k Hk Hkb. destruct (N.eq_dec k (16 - N.of_nat (S j))) as [->|Hne].
      * fold b in Hkb. destruct HE as [(_ & Hv & _)|(Hc & _)]; [|lia]. rewrite Hv in HSz. lia.
      * assert (lSize ln' + 5 <= lSize ln2)%N; [|lia]. apply (B2 k); [lia|]. exact Hkb.
Qed.

Lemma lane_fix_terminates rnd : live rnd -> forall need fuel s acc ln,
  lane_inv acc ln -> length acc <= 14 -> (exists q, sPos2 s = 16 * q /\ q <= 8)%N ->
  (32 <= lSize ln + 5 * N.of_nat need)%N ->
  exists r, lane_fix (16 * need + fuel) rnd s ln = Ok r.
Proof.
  intros Hlive. induction need as [|need IH]; intros fuel s acc ln HI Hlen (q & Hp & Hq) Hn.
  - exists (s, ln). destruct (16 * 0 + fuel); cbn [lane_fix]; destruct (N.ltb_spec (lSize ln) 32); auto; lia.
  - destruct (N.lt_ge_cases (lSize ln) 32) as [Hlt|Hge].
    2:{ exists (s, ln). destruct (16 * S need + fuel); cbn [lane_fix]; destruct (N.ltb_spec (lSize ln) 32); auto; lia. }
    rewrite lane_fix_refill by lia.
    assert (Hr : exists q', (sPos2 (refill2 s) = 16 * q' /\ q' < 8)%N).
    { unfold refill2. destruct (N.eqb_spec (sPos2 s) 128); cbn [sPos2].
      - exists 0%N. lia. - exists q. lia. }
    destruct Hr as (q' & Hp' & Hq').
    replace (16 * S need + fuel) with (16 + (16 * need + fuel)) by lia.
    destruct (lane_fix_block rnd (j := 16) (16 * need + fuel) (s := refill2 s) (q := q') ltac:(lia) Hq' ltac:(lia) HI Hlen)
      as [Hok|(s2 & acc2 & ln2 & -> & I2 & L2 & P2 & S2 & B2)]; auto.
    destruct (Hlive (sBase2 (refill2 s) + q')%N) as (k & Hk & Hkb).
    specialize (B2 k ltac:(lia) Hkb).
    apply (IH fuel s2 acc2 ln2); auto; [exists (q' + 1)%N; split; lia|lia].
Qed.

Lemma lane_fix_pos rnd : forall fuel s ln s' ln', (sPos2 s <= 128)%N ->
  lane_fix fuel rnd s ln = Ok (s', ln') -> (sPos2 s' <= 128)%N.
Proof.
  induction fuel as [|fuel IH]; intros s ln s' ln' Hp E; cbn [lane_fix] in E;
    destruct (N.ltb_spec (lSize ln) 32); try discriminate; try (inversion E; subst; auto; fail).
  destruct (get mod3Table _) as [v| | |]; cbn [bind] in E; try discriminate.
  apply IH in E; auto. cbn [sPos2]. unfold refill2. destruct (N.eqb_spec (sPos2 s) 128); cbn [sPos2]; lia.
Qed.

Lemma lane_fix_done fuel rnd s ln : (32 <= lSize ln)%N -> lane_fix fuel rnd s ln = Ok (s, ln).
Proof. intros H. destruct fuel; cbn [lane_fix]; destruct (N.ltb_spec (lSize ln) 32); auto; lia. Qed.

(* from an arbitrary position at most 15 bytes are needed to reach a block boundary *)
Lemma lane_fix_terminates_any rnd : live rnd -> forall s acc ln,
  lane_inv acc ln -> length acc <= 14 -> (sPos2 s <= 128)%N ->
  exists r, lane_fix 128 rnd s ln = Ok r.
Proof.
  intros Hlive s acc ln HI Hlen Hp.
  destruct (N.lt_ge_cases (lSize ln) 32) as [Hlt|Hge].
  2:{ exists (s, ln). apply lane_fix_done. exact Hge. }
  rewrite lane_fix_refill by auto. set (s0 := refill2 s).
  assert (Hp0 : (sPos2 s0 < 128)%N).
  { unfold s0, refill2. destruct (N.eqb_spec (sPos2 s) 128); cbn [sPos2]; lia. }
  set (q := (sPos2 s0 / 16)%N). set (j := N.to_nat (16 - sPos2 s0 mod 16)).
  assert (Hj : j <= 16) by (unfold j; lia).
  replace 128 with (j + (16 * 7 + (16 - j))) by lia.
  destruct (lane_fix_block rnd (j := j) (16 * 7 + (16 - j)) (s := s0) (q := q) Hj ltac:(unfold q; lia) ltac:(unfold q, j; lia) HI Hlen)
      as [Hok|(s2 & acc2 & ln2 & -> & I2 & L2 & P2 & S2 & B2)]; auto.
  apply (lane_fix_terminates Hlive (need := 7) (16 - j) (s := s2) I2 L2); [exists (q + 1)%N; split; [lia|unfold q; lia]|lia].
Qed.

Lemma sample_pass_pos2 rnd st st' : sample_pass rnd st = Ok st' -> sPos2 (fst st') = sPos2 (fst st).
Proof.
  unfold sample_pass. destruct (forN 0 32 _ (snd st)); cbn [bind]; try discriminate.
  intros E; inversion E; subst; cbn [fst sPos2]. unfold refill1. destruct (64 <=? _)%N; reflexivity.
Qed.

Lemma sample_fix_terminates rnd st : live rnd -> lanes_inv 8 (snd st) -> (sPos2 (fst st) <= 128)%N ->
  exists r, sample_fix 128 rnd st = Ok r /\ (sPos2 (fst r) <= 128)%N.
Proof.
  intros Hlive [HL HI] Hp. unfold sample_fix.
  destruct (forN_inv (P := fun k (st : smp * list lane) => (sPos2 (fst st) <= 128)%N /\ length (snd st) = 32 /\
      forall q ln, k <= q -> nth_error (snd st) q = Some ln -> exists acc, length acc <= 8 /\ lane_inv acc ln)
    (f := fun q st => do ln <- get (snd st) q; do r <- lane_fix 128 rnd (fst st) ln;
       do ls <- set (snd st) q (snd r); Ok (fst r, ls)) (n := 32) (i := 0) (s := st)) as [r [E (H1 & _)]].
  - split; auto. split; auto. intros q ln _ Hq. eauto.
  - intros k [s ls] Hk (H1 & H2 & H3). cbn [fst snd] in *.
    destruct (get_lt (l := ls) (i := k)) as [ln [Eg En]]; [lia|]. rewrite Eg. cbn [bind].
    destruct (H3 k ln ltac:(lia) En) as (acc & Ha & Hin).
    destruct (lane_fix_terminates_any Hlive (s := s) Hin ltac:(lia) H1) as [[s2 l2] E2]. rewrite E2.
    cbn [bind fst snd]. rewrite set_lt by lia. cbn [bind]. eexists. split; [reflexivity|]. cbn [fst snd].
    split; [eapply lane_fix_pos; eauto|]. rewrite upd_length. split; auto.
    intros q x Hq Hx. rewrite nth_error_upd_ne in Hx by lia. apply (H3 q); auto. lia.
  - exists r. auto.
Qed.

Lemma sampleMod3Lookup_terminates rnd idx n : live rnd ->
  exists r, sampleMod3Lookup 128 rnd idx n n = Ok r.
Proof.
  intros Hlive. unfold sampleMod3Lookup, throw_if. rewrite Nat.eqb_refl. cbn [negb bind].
  destruct (forN_inv (P := fun _ (st : smp * (list N * list N)) => (sPos2 (fst st) <= 128)%N)
    (f := sample_group 128 rnd n) (n := (n + 7) / 8) (i := 0) (s := (smp_init idx, ([], [])))) as [r [E _]].
  - cbn. lia.
  - intros k st Hk Hp. unfold sample_group.
    destruct (sample_passes_ok rnd (fst st)) as (r & E & HI).
    assert (Hpr : (sPos2 (fst r) <= 128)%N).
    { destruct (forN_inv (P := fun k (s : smp * list lane) => sPos2 (fst s) = sPos2 (fst st) /\ lanes_inv k (snd s))
        (f := fun _ st => sample_pass rnd st) (n := 8) (i := 0) (s := (fst st, repeat (Lane 0 0 0) 32))) as [r' [E' [H' _]]].
      - split; auto. split; [apply repeat_length|]. intros q ln Hq. exists []. split; [auto|].
        apply nth_error_In, repeat_spec in Hq. subst. apply lane_inv_init.
      - intros k' [s' ls] Hk' [H1 H2]. cbn [fst snd] in *.
        destruct (sample_pass_ok rnd s' H2) as (s2 & l2 & E2 & H2'); [lia|]. rewrite E2.
        eexists. split; [reflexivity|]. pose proof (sample_pass_pos2 E2) as HH. cbn [fst snd] in *.
        split; [congruence|]. replace (k' + 1) with (S k') by lia. exact H2'.
      - rewrite E in E'. inversion E'; subst r'. rewrite H'. exact Hp. }
    rewrite E. cbn [bind]. destruct (sample_fix_terminates Hlive HI Hpr) as (r2 & E2 & Hp2). rewrite E2.
    cbn [bind]. eexists. split; [reflexivity|]. exact Hp2.
  - rewrite E. cbn [bind]. eauto.
Qed.

(* ---- freshness ---- *)
Lemma smp_init_ok idx : smp_ok (smp_init idx).
Proof. unfold smp_ok, smp_init; simpl. lia. Qed.

Lemma sample_pass_fresh rnd s ls s' ls' : smp_ok s -> sample_pass rnd (s, ls) = Ok (s', ls') ->
  smp_ok s' /\ (next_unit s + 2 <= next_unit s')%N /\ sBase2 s' = sBase2 s /\ sPos2 s' = sPos2 s /\ (sIdx s <= sIdx s')%N.
Proof.
  intros (H1 & H2 & H3 & H4). unfold sample_pass. cbn [fst snd].
  destruct (forN 0 32 _ ls) as [l| | |]; try discriminate. cbn [bind]. intros E.
  assert (Es : s' = Smp (sIdx (refill1 s)) (sBase1 (refill1 s)) (sPos1 (refill1 s) + 1) (sBase2 (refill1 s)) (sPos2 (refill1 s))) by congruence.
  subst s'. unfold smp_ok, next_unit, refill1.
  destruct (N.leb_spec 64 (sPos1 s)); cbn [sIdx sBase1 sPos1 sBase2 sPos2].
  - destruct (N.leb_spec 64 (0 + 1)); [lia|]. repeat split; lia.
  - destruct (N.leb_spec 64 (sPos1 s + 1)); repeat split; lia.
Qed.

Lemma lane_fix_fresh rnd : forall fuel s ln s' ln', smp_ok s -> lane_fix fuel rnd s ln = Ok (s', ln') ->
  smp_ok s' /\ (next_byte s <= next_byte s')%N /\ ((lSize ln < 32)%N -> (next_byte s < next_byte s')%N) /\
  sBase1 s' = sBase1 s /\ sPos1 s' = sPos1 s /\ (sIdx s <= sIdx s')%N.
Proof.
  induction fuel as [|fuel IH]; intros s ln s' ln' HS; cbn [lane_fix].
  - destruct (N.ltb_spec (lSize ln) 32); [discriminate|]. intros E. assert (s' = s) by congruence. subst. repeat split; try apply HS; lia.
  - destruct (N.ltb_spec (lSize ln) 32) as [L|L].
    + destruct (get mod3Table _) as [v| | |]; try discriminate. cbn [bind]. intros E.
      apply IH in E.
      * destruct E as (A & B & _ & C & D & F). split; [exact A|].
        revert B C D F. unfold next_byte, refill2. destruct HS as (H1 & H2 & H3 & H4).
        destruct (N.eqb_spec (sPos2 s) 128); cbn [sIdx sBase1 sPos1 sBase2 sPos2].
        -- change (0 + 1 =? 128)%N with false. cbv iota. intros B C D F. repeat split; try lia; auto.
        -- destruct (N.eqb_spec (sPos2 s + 1) 128); intros B C D F; repeat split; try lia; auto.
      * destruct HS as (H1 & H2 & H3 & H4). unfold smp_ok, refill2.
        destruct (N.eqb_spec (sPos2 s) 128); cbn [sIdx sBase1 sPos1 sBase2 sPos2]; repeat split; lia.
    + intros E. assert (s' = s) by congruence. subst. repeat split; try apply HS; lia.
Qed.
