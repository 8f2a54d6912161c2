(* Proofs about the messages of a whole run of the PRF protocol. *)
From Verif Require Import Base Words Mod3Model Mod3Spec Mod3Proofs ConvModel ConvSpec KeyMultModel KeyMultSpec KeyMultProofs
  F3CodeModel F3CodeSpec F3CodeProofs PrfModel PrfSpec PrfProofs PrfProtoProofs PrivSpec ConvPrivacy Mod2Privacy PrfViewModel.

(* ---------------- the lanes above 128 are zero ---------------- *)
Definition hi0 (cols : nat) (xs : list N * list N) : Prop :=
  forall c l, c < cols -> (128 <= l)%N -> trit (nthN (fst xs) c) (nthN (snd xs) c) l = 0.

Lemma lt128_bit m l : (m < 2 ^ 128)%N -> (128 <= l)%N -> N.testbit m l = false.
Proof.
  intros H Hl. destruct (N.eq_dec m 0) as [->|Hm]; [apply N.bits_0|].
  apply N.bits_above_log2. apply N.log2_lt_pow2 in H; [|lia]. lia.
Qed.

Lemma send_row_hi fuel cols s p msg xs : row_in cols s -> (forall c l, c < cols -> (128 <= l)%N -> row_val s c l = 0) ->
  km_send_row fuel s = Ok (p, (msg, xs)) -> hi0 cols xs.
Proof.
  intros Hin Hx. unfold km_send_row, sample_prng. rewrite (proj1 Hin).
  destruct (sampleMod3Lookup_ok fuel (pRnd (srOt0 s)) (pIdx (srOt0 s)) cols) as [E|(idx' & ms & ls & E & Lm & Ll & HG)]; [rewrite E; discriminate|].
  rewrite E. cbn [bind fst snd].
  destruct (row_core Hin Lm Ll HG) as (m1 & m0 & x1 & x0 & E1 & M1 & M0 & X1 & X0 & HV). cbv zeta in E1.
  rewrite E1. cbn [bind fst snd].
  destruct (@xorVector_spec m1 (srOt1 s) cols M1) as (a & Ea & La & Ha). rewrite Ea. cbn [bind fst snd].
  destruct (@xorVector_spec m0 (Prng (pRnd (srOt1 s)) (pIdx (srOt1 s) + N.of_nat cols)) cols M0) as (b & Eb & Lb & Hb).
  rewrite Eb. cbn [bind fst snd]. intros Q. assert (Exs : xs = (x1, x0)) by congruence. subst xs. clear Q.
  intros c l Hc Hl. cbn [fst snd]. destruct (HV c l Hc) as (V1 & _ & V3 & T1 & _). rewrite (Hx c l Hc Hl) in T1.
  assert (Z : trit (nthN ms c) (nthN ls c) l = 0).
  { destruct (nth_error ms c) as [m|] eqn:Em; [|apply nth_error_None in Em; lia].
    destruct (nth_error ls c) as [q|] eqn:Eq; [|apply nth_error_None in Eq; lia].
    destruct (HG c m q Em Eq) as (Bm & Bq & _). apply nth_error_nthN in Em, Eq. rewrite Em, Eq.
    unfold trit. rewrite !lt128_bit by assumption. reflexivity. }
  rewrite Z, Nat.add_0_r in T1. pose proof (trit_lt V1) as B. rewrite Nat.mod_small in T1 by exact B.
  rewrite T1. destruct (srKey s); reflexivity.
Qed.

Lemma mapM_rel A B (f : A -> outcome B) (P : A -> B -> Prop) : (forall a b, f a = Ok b -> P a b) ->
  forall l o, mapM f l = Ok o -> Forall2 P l o.
Proof.
  intros H. induction l as [|a l IH]; cbn [mapM]; intros o E; [injection E as <-; constructor|].
  destruct (f a) as [b| | |] eqn:Ea; try discriminate. cbn [bind] in E.
  destruct (mapM f l) as [r| | |]; try discriminate. cbn [bind] in E. injection E as <-. constructor; auto.
Qed.

Lemma loop_hi fuel cols : forall g ss msgs os, Forall (fun s => row_in cols s /\ forall c l, c < cols -> (128 <= l)%N -> row_val s c l = 0) ss ->
  km_send_loop fuel g ss = Ok (msgs, os) -> Forall (fun o => hi0 cols (snd o)) os.
Proof.
  induction g as [|g IH]; intros ss msgs os HF E; cbn [km_send_loop] in E; [injection E as _ <-; constructor|].
  destruct (mapM (km_send_row fuel) (firstn km_step ss)) as [o| | |] eqn:Eo; try discriminate. cbn [bind] in E.
  destruct (km_send_loop fuel g (skipn km_step ss)) as [[m2 o2]| | |] eqn:E2; try discriminate. cbn [bind fst snd] in E.
  injection E as _ <-. rewrite <- (firstn_skipn km_step ss) in HF. apply Forall_app in HF. destruct HF as [F1 F2].
  apply Forall_app. split; [|exact (IH _ _ _ F2 E2)].
  assert (R := mapM_rel (P := fun s o => km_send_row fuel s = Ok o) (fun a b Hab => Hab) Eo). clear -F1 R.
  induction R as [|s [p [msg xs]] ss' o' Es R IHR]; cbn [map]; [constructor|]. inversion F1 as [|? ? [I X] F']; subst.
  constructor; [|exact (IHR F')]. cbn [fst snd]. exact (send_row_hi I X Es).
Qed.

Lemma km_send_hi fuel so share cols xl msgs os : xdims xl KeySize cols ->
  (forall r c l, r < KeySize -> c < cols -> (128 <= l)%N -> N.testbit (wrd xl r c) l = false) ->
  km_send fuel so share cols xl [] = Ok (msgs, os) -> Forall (fun o => hi0 cols (snd o)) os.
Proof.
  intros [Lx Dx] Hx. unfold km_send. rewrite Lx, Nat.eqb_refl. cbn [negb throw_if bind length Nat.eqb andb].
  destruct (length so =? 0); [discriminate|]. cbn [bind]. apply loop_hi. apply Forall_forall. intros s Hs.
  apply in_map_iff in Hs. destruct Hs as (i & <- & Hi). apply in_seq in Hi.
  split; [split; [cbn [srLsb]; apply Dx, nth_In; lia|exact I]|].
  intros c l Hc Hl. unfold row_val. cbn [srMsb srLsb]. change (nthN (nth i xl []) c) with (wrd xl i c).
  rewrite Hx by (try assumption; lia). reflexivity.
Qed.

(* the other party's share *)
Lemma km_recv_hi P Q k0 k1 cols xl (os : list (P * (list N * list N))) (or : list (Q * (list N * list N))) :
  km_shares k0 k1 cols xl [] os or -> Forall (fun o => hi0 cols (snd o)) os ->
  (forall r c l, r < KeySize -> c < cols -> (128 <= l)%N -> N.testbit (wrd xl r c) l = false) ->
  Forall (fun o => hi0 cols (snd o)) or.
Proof.
  intros (Ls & Lr & H) HF Hx. apply Forall_forall. intros t Ht. destruct (In_nth_error _ _ Ht) as [i Hi].
  assert (Ki : i < KeySize) by (rewrite <- Lr; apply nth_error_Some; congruence).
  destruct (nth_error os i) as [s|] eqn:Es; [|apply nth_error_None in Es; lia].
  destruct (H i s t Es Hi) as (_ & _ & _ & _ & K). intros c l Hc Hl. destruct (K c l Hc) as (V1 & V2 & T).
  unfold xval in T. cbn [length Nat.eqb] in T. rewrite (Hx i c l Ki Hc Hl) in T.
  assert (Z := proj1 (Forall_forall _ _) HF s (nth_error_In _ _ Es) c l Hc Hl). unfold nthN in *.
  rewrite Z, Nat.add_0_l, Nat.mod_small in T by exact (trit_lt V2). rewrite T. destruct (xorb _ _); reflexivity.
Qed.

Lemma dot3_zero : forall x a, Forall (fun v => v = 0) x -> dot3 a x = 0.
Proof.
  assert (G : forall x a, Forall (fun v => v = 0) x -> fold_right plus 0 (map2 mult a x) = 0).
  { induction x as [|v x IH]; intros [|b a] H; try reflexivity. inversion H as [|? ? -> H']; subst.
    cbn [map2 fold_right]. rewrite IH by exact H'. lia. }
  intros x a H. unfold dot3. rewrite G by exact H. reflexivity.
Qed.

Lemma matvec3_zero M x r : Forall (fun v => v = 0) x -> nth r (matvec3 M x) 0 = 0.
Proof.
  intros H. unfold matvec3. revert r. induction M as [|row M IH]; intros [|r]; cbn [map nth]; try reflexivity; [apply dot3_zero; exact H|apply IH].
Qed.

Lemma trit0_bits m l i : trit m l i = 0 -> N.testbit m i = false /\ N.testbit l i = false.
Proof. unfold trit. destruct (N.testbit m i), (N.testbit l i); cbn; intros H; try discriminate; split; reflexivity. Qed.

Lemma concat_blk (M : list (list N)) R C : dims M R C -> (forall r c, r < R -> c < C -> blk (cell M r c)) -> Forall blk (concat M).
Proof.
  intros [HL HD] H. apply Forall_forall. intros w Hw. apply in_concat in Hw. destruct Hw as (row & Hr & Hw).
  destruct (In_nth _ _ [] Hr) as (r & Lr & <-). destruct (In_nth _ _ 0%N Hw) as (c & Lc & <-).
  apply H; [lia|]. rewrite (HD _ Hr) in Lc. exact Lc.
Qed.

Lemma combine_blk2 : forall a b, Forall blk a -> Forall blk b -> Forall blk2 (combine a b).
Proof.
  intros a b Ha. revert b. induction Ha as [|x a Hx Ha IH]; intros b Hb; cbn [combine]; [constructor|].
  destruct Hb as [|y b Hy Hb]; constructor; [split; assumption|exact (IH b Hb)].
Qed.

(* u = A ek has words of 128 bits and the right size *)
Lemma encodeA_blk p M cols (ek1 ek0 : list (list N)) : perms_ok KeySize (prfA p) -> f3_getMatrix KeySize MidSize (prfA p) = Ok M ->
  dims ek1 KeySize cols -> dims ek0 KeySize cols -> all_valid ek1 ek0 ->
  (forall r c l, r < KeySize -> c < cols -> (128 <= l)%N -> trit (cell ek1 r c) (cell ek0 r c) l = 0) ->
  exists u, prf_encodeA p cols ek1 ek0 = Ok u /\ length (flat2 u) = MidSize * cols /\ Forall blk2 (flat2 u).
Proof.
  intros HP HM D1 D0 HV H0. destruct (encodeA_ok HP HM D1 D0 HV) as (u1 & u0 & E & U1 & U0 & Hu).
  exists (u1, u0). split; [exact E|]. unfold flat2. cbn [fst snd].
  assert (L1 := concat_len U1). assert (L0 := concat_len U0).
  split; [rewrite combine_length, L1, L0; apply Nat.min_id|].
  assert (B : forall r c, r < MidSize -> c < cols -> blk (cell u1 r c) /\ blk (cell u0 r c)).
  { intros r c Hr Hc. assert (G : forall l, (128 <= l)%N -> N.testbit (cell u1 r c) l = false /\ N.testbit (cell u0 r c) l = false).
    { intros l Hl. apply trit0_bits. rewrite (proj2 (Hu r c l Hr Hc)). apply matvec3_zero. unfold lane_col. apply Forall_forall.
      intros v Hv. apply in_map_iff in Hv. destruct Hv as (q & <- & Hq). apply in_seq in Hq. rewrite (proj1 D1) in Hq. apply H0; try assumption; lia. }
    split; intros l Hl; apply (G l Hl). }
  apply combine_blk2; [apply (concat_blk U0)|apply (concat_blk U1)]; intros r c Hr Hc; apply (B r c Hr Hc).
Qed.

Lemma mats_hi P cols (o : list (P * (list N * list N))) : length o = KeySize -> Forall (fun o => hi0 cols (snd o)) o ->
  forall r c l, r < KeySize -> c < cols -> (128 <= l)%N -> trit (cell (fst (km_mats o)) r c) (cell (snd (km_mats o)) r c) l = 0.
Proof.
  intros L HF r c l Hr Hc Hl. destruct (nth_error o r) as [t|] eqn:Et; [|apply nth_error_None in Et; lia].
  unfold km_mats. cbn [fst snd]. rewrite (cell_map (fun x : P * (list N * list N) => fst (snd x)) c Et), (cell_map (fun x : P * (list N * list N) => snd (snd x)) c Et).
  exact (proj1 (Forall_forall _ _) HF t (nth_error_In _ _ Et) c l Hc Hl).
Qed.

(* ---------------- the run up to the mod 2 step ---------------- *)
Lemma ro_front G B A M p fuel n ros rshare x sos0 key0 : length G = 3 -> (forall g, In g G -> length g = 128) -> perms_ok KeySize A ->
  prf_make G B A = Ok p -> f3_getMatrix KeySize MidSize A = Ok M -> 0 < n -> length x = n -> ots_ok ros sos0 key0 ->
  exists e, expandInputLinear p x (blocks128 n) (mtx KeySize (blocks128 n)) = Ok e /\
  (km_send fuel ros rshare (blocks128 n) e [] = Hang \/
   exists rk ru, km_send fuel ros rshare (blocks128 n) e [] = Ok rk /\
     prf_encodeA p (blocks128 n) (fst (km_mats (snd rk))) (snd (km_mats (snd rk))) = Ok ru /\
     length (flat2 ru) = MidSize * blocks128 n /\ Forall blk2 (flat2 ru) /\
     forall sos key, ots_ok ros sos key -> exists sk su, km_recv fuel sos key n (fst rk) = Ok sk /\
       prf_encodeA p (blocks128 n) (fst (km_mats sk)) (snd (km_mats sk)) = Ok su /\
       length (flat2 su) = MidSize * blocks128 n /\ Forall blk2 (flat2 su)).
Proof.
  intros HG Hg HA Hp HM Hn Hx Hots0. destruct (prf_make_ok B HG Hg HA) as (p' & Ep & Hok & EA).
  rewrite Hp in Ep. injection Ep as <-. rewrite <- EA in HM, HA. set (cols := blocks128 n).
  destruct (@expand_ok p G B x cols (mtx KeySize cols) Hok) as (e & E & De & He); [subst n; reflexivity|apply dims_mtx|].
  exists e. split; [exact E|].
  assert (Hin : km_input ((n + 127) / 128) e []) by (split; [exact De|left; reflexivity]).
  assert (Hhi : forall r c l, r < KeySize -> c < cols -> (128 <= l)%N -> N.testbit (wrd e r c) l = false).
  { intros r c l Hr Hc Hl. change (wrd e r c) with (cell e r c). rewrite He by assumption.
    rewrite <- (N2Nat.id l), e_cell_bit. destruct (Nat.ltb_spec (N.to_nat l) 128); [lia|reflexivity]. }
  destruct (mult_ok fuel rshare Hots0 Hin) as [Q|(msgs & os & or0 & Ek & _ & _ & HS0)]; [left; exact Q|].
  fold (blocks128 n) in *. fold cols in Ek, HS0. right. exists (msgs, os). cbn [fst snd].
  assert (F : Forall (fun o => hi0 cols (snd o)) os) by exact (km_send_hi De Hhi Ek).
  destruct (km_mats_ok HS0) as (Ds1 & Ds0 & Vs & _).
  destruct (encodeA_blk HA HM Ds1 Ds0 Vs (mats_hi (proj1 HS0) F)) as (ru & Er & Lr & Br).
  exists ru. split; [exact Ek|]. split; [exact Er|]. split; [exact Lr|]. split; [exact Br|].
  intros sos key Hots. destruct (mult_ok fuel rshare Hots Hin) as [Q|(msgs' & os' & or & Ek' & E2 & _ & HS)].
  { fold (blocks128 n) in Q. fold cols in Q. rewrite Q in Ek. discriminate. }
  fold (blocks128 n) in *. fold cols in Ek', HS. rewrite Ek in Ek'. injection Ek' as <- <-.
  assert (F' := km_recv_hi HS F Hhi). destruct (km_mats_ok HS) as (_ & _ & _ & Dr1 & Dr0 & Vr & _).
  destruct (encodeA_blk HA HM Dr1 Dr0 Vr (mats_hi (proj1 (proj2 HS)) F')) as (su & Es & Ls & Bs).
  exists or, su. split; [exact E2|]. split; [exact Es|]. split; [exact Ls|exact Bs].
Qed.

Lemma hides_same X R V (ok : R -> Prop) (view : X -> R -> V) x x' : (forall r, ok r -> view x' r = view x r) -> hides ok view x x'.
Proof. intros H. exists (fun r => r), (fun r => r). split; intros r Hr; [split; [exact Hr|split; [reflexivity|exact (H r Hr)]]|split; [exact Hr|reflexivity]]. Qed.

Lemma hides_eq X Y R V (ok : R -> Prop) (w : Y -> R -> V) (view : X -> R -> V) x x' y y' :
  hides ok w y y' -> (forall r, ok r -> view x r = w y r) -> (forall r, ok r -> view x' r = w y' r) -> hides ok view x x'.
Proof.
  intros (f & g & Hf & Hg) E E'. exists f, g. split; [|exact Hg]. intros r Hr. destruct (Hf r Hr) as (F1 & F2 & F3).
  split; [exact F1|]. split; [exact F2|]. rewrite (E' _ F1), F3, (E r Hr). reflexivity.
Qed.

Lemma fits_total A B (R : A -> B -> Prop) P b a : fits R P b a -> length (concat a) = length (concat b).
Proof.
  intros [H _]. unfold segs_rel in H. induction H as [|x y l m Hxy H IH]; [reflexivity|]. cbn [concat]. rewrite !app_length, IH.
  f_equal. clear -Hxy. induction Hxy; [reflexivity|]. cbn [length]. lia.
Qed.

Lemma ro_key_hides_f4 G B A M p fuel n ros rshare x rs sos sos' key key' :
  length G = 3 -> (forall g, In g G -> length g = 128) -> perms_ok KeySize A ->
  prf_make G B A = Ok p -> f3_getMatrix KeySize MidSize A = Ok M -> 0 < n -> length x = n ->
  ots_ok ros sos key -> ots_ok ros sos' key' -> Forall (Forall blk_fr) rs ->
  hides (fits f4_ot blk_fs rs) (fun k ss => prf_ro_msgs fuel p (CorF4 ss rs) n ros rshare (fst k) (snd k) x) (sos, key) (sos', key').
Proof.
  intros HG Hg HA Hp HM Hn Hx H H' Br.
  destruct (@ro_front G B A M p fuel n ros rshare x sos key HG Hg HA Hp HM Hn Hx H) as (e & E & K).
  unfold prf_ro_msgs. cbn [fst snd]. destruct (Nat.eqb_spec n 0); [lia|]. rewrite Hx, Nat.eqb_refl. cbn [negb throw_if bind].
  assert (C : forall ss, fits f4_ot blk_fs rs ss -> mod2_check (CorF4 ss rs) n = throw_if (negb (length (concat rs) =? blocks128 n * MidSize))).
  { intros ss Hf. unfold mod2_check. rewrite (fits_total Hf). destruct (_ =? _); reflexivity. }
  destruct (length (concat rs) =? blocks128 n * MidSize) eqn:EL.
  2:{ apply hides_same. intros ss Hf. rewrite (C ss Hf). reflexivity. }
  destruct K as [K|(rk & ru & K & Er & Lr & Bru & W)].
  { apply hides_same. intros ss Hf. rewrite (C ss Hf). cbn [negb throw_if bind]. rewrite E. cbn [bind]. rewrite K. reflexivity. }
  destruct (W sos key H) as (sk & su & R1 & S1 & L1 & B1). destruct (W sos' key' H') as (sk' & su' & R2 & S2 & L2 & B2).
  destruct (f4_recv_derand rs (flat2 ru)) as [d| | |] eqn:Ed.
  2,3,4: apply hides_same; intros ss Hf; cbn [fst snd]; rewrite (C ss Hf); cbn [negb throw_if bind]; rewrite E; cbn [bind]; rewrite K; cbn [bind];
    rewrite R1, R2; cbn [bind]; rewrite S1, S2; cbn [bind]; rewrite Er; cbn [bind]; unfold mod2_msgs; rewrite Ed; reflexivity.
  apply hides_eq with (w := fun v ss => sent (f4_send ss v d)) (y := flat2 su) (y' := flat2 su').
  - apply f4_send_hides; [exact Br|exact B1|exact B2|rewrite L1, L2; reflexivity].
  - intros ss Hf. cbn [fst snd]. rewrite (C ss Hf). cbn [negb throw_if bind]. rewrite E. cbn [bind]. rewrite K. cbn [bind]. rewrite R1. cbn [bind].
    rewrite S1. cbn [bind]. rewrite Er. cbn [bind]. unfold mod2_msgs. rewrite Ed. reflexivity.
  - intros ss Hf. cbn [fst snd]. rewrite (C ss Hf). cbn [negb throw_if bind]. rewrite E. cbn [bind]. rewrite K. cbn [bind]. rewrite R2. cbn [bind].
    rewrite S2. cbn [bind]. rewrite Er. cbn [bind]. unfold mod2_msgs. rewrite Ed. reflexivity.
Qed.

Lemma ro_key_hides_ole G B A M p fuel n ros rshare x rs sos sos' key key' :
  length G = 3 -> (forall g, In g G -> length g = 128) -> perms_ok KeySize A ->
  prf_make G B A = Ok p -> f3_getMatrix KeySize MidSize A = Ok M -> 0 < n -> length x = n ->
  ots_ok ros sos key -> ots_ok ros sos' key' -> Forall (Forall blk_ole) rs ->
  hides (fits bin_ole blk_ole rs) (fun k ss => prf_ro_msgs fuel p (CorOle ss rs) n ros rshare (fst k) (snd k) x) (sos, key) (sos', key').
Proof.
  intros HG Hg HA Hp HM Hn Hx H H' Br.
  destruct (@ro_front G B A M p fuel n ros rshare x sos key HG Hg HA Hp HM Hn Hx H) as (e & E & K).
  unfold prf_ro_msgs. cbn [fst snd]. destruct (Nat.eqb_spec n 0); [lia|]. rewrite Hx, Nat.eqb_refl. cbn [negb throw_if bind].
  assert (C : forall ss, fits bin_ole blk_ole rs ss -> mod2_check (CorOle ss rs) n = throw_if (negb (length (concat rs) =? blocks128 n * MidSize * 2))).
  { intros ss Hf. unfold mod2_check. rewrite (fits_total Hf). destruct (_ =? _); reflexivity. }
  destruct (length (concat rs) =? blocks128 n * MidSize * 2) eqn:EL.
  2:{ apply hides_same. intros ss Hf. rewrite (C ss Hf). reflexivity. }
  destruct K as [K|(rk & ru & K & Er & Lr & Bru & W)].
  { apply hides_same. intros ss Hf. rewrite (C ss Hf). cbn [negb throw_if bind]. rewrite E. cbn [bind]. rewrite K. reflexivity. }
  destruct (W sos key H) as (sk & su & R1 & S1 & L1 & B1). destruct (W sos' key' H') as (sk' & su' & R2 & S2 & L2 & B2).
  destruct (ole_recv_derand rs (flat2 ru)) as [d| | |] eqn:Ed.
  2,3,4: apply hides_same; intros ss Hf; cbn [fst snd]; rewrite (C ss Hf); cbn [negb throw_if bind]; rewrite E; cbn [bind]; rewrite K; cbn [bind];
    rewrite R1, R2; cbn [bind]; rewrite S1, S2; cbn [bind]; rewrite Er; cbn [bind]; unfold mod2_msgs; rewrite Ed; reflexivity.
  apply hides_eq with (w := fun v ss => sent (ole_send ss v d)) (y := flat2 su) (y' := flat2 su').
  - apply ole_send_hides; [exact Br|exact B1|exact B2|rewrite L1, L2; reflexivity].
  - intros ss Hf. cbn [fst snd]. rewrite (C ss Hf). cbn [negb throw_if bind]. rewrite E. cbn [bind]. rewrite K. cbn [bind]. rewrite R1. cbn [bind].
    rewrite S1. cbn [bind]. rewrite Er. cbn [bind]. unfold mod2_msgs. rewrite Ed. reflexivity.
  - intros ss Hf. cbn [fst snd]. rewrite (C ss Hf). cbn [negb throw_if bind]. rewrite E. cbn [bind]. rewrite K. cbn [bind]. rewrite R2. cbn [bind].
    rewrite S2. cbn [bind]. rewrite Er. cbn [bind]. unfold mod2_msgs. rewrite Ed. reflexivity.
Qed.

Lemma ro_msgs_run fuel p c n ros rshare sos key x ys yr : prf_run_ro fuel p c n ros rshare sos key x = Ok (ys, yr) ->
  exists msgs, prf_ro_msgs fuel p c n ros rshare sos key x = Ok msgs /\ prf_ro_recv fuel p c n ros rshare x msgs = Ok yr.
Proof.
  unfold prf_run_ro, prf_ro_msgs, prf_ro_recv, prf_tail.
  destruct (throw_if (n =? 0)) as [[]| | |]; try discriminate. cbn [bind].
  destruct (throw_if (negb (length x =? n))) as [[]| | |]; try discriminate. cbn [bind].
  destruct (mod2_check c n) as [[]| | |]; try discriminate. cbn [bind].
  destruct (expandInputLinear p x (blocks128 n) (mtx KeySize (blocks128 n))) as [e| | |]; try discriminate. cbn [bind].
  destruct (km_send fuel ros rshare (blocks128 n) e []) as [rk| | |]; try discriminate. cbn [bind].
  destruct (km_recv fuel sos key n (fst rk)) as [sk| | |]; try discriminate. cbn [bind].
  destruct (prf_encodeA p (blocks128 n) (fst (km_mats sk)) (snd (km_mats sk))) as [su| | |]; try discriminate. cbn [bind].
  destruct (prf_encodeA p (blocks128 n) (fst (km_mats (snd rk))) (snd (km_mats (snd rk)))) as [ru| | |]; try discriminate. cbn [bind].
  intros E. unfold mod2_run in E. unfold mod2_msgs. destruct c as [ss rs|ss rs].
  - destruct (f4_recv_derand rs (flat2 ru)) as [d| | |]; try discriminate. cbn [bind] in *.
    destruct (f4_send ss (flat2 su) d) as [s| | |]; try discriminate. cbn [bind] in *.
    exists (fst s). split; [reflexivity|].
    destruct (f4_recv_out rs (flat2 ru) (fst s)) as [w| | |]; try discriminate. cbn [bind fst snd] in *.
    destruct (compressB p (take_rows MidSize (blocks128 n) (snd s)) (blocks128 n) n) as [y1| | |]; try discriminate. cbn [bind] in E.
    destruct (compressB p (take_rows MidSize (blocks128 n) w) (blocks128 n) n) as [y2| | |]; try discriminate. cbn [bind] in E. congruence.
  - destruct (ole_recv_derand rs (flat2 ru)) as [d| | |]; try discriminate. cbn [bind] in *.
    destruct (ole_send ss (flat2 su) d) as [s| | |]; try discriminate. cbn [bind] in *.
    exists (fst s). split; [reflexivity|].
    destruct (ole_recv_out rs (flat2 ru) (fst s)) as [w| | |]; try discriminate. cbn [bind fst snd] in *.
    destruct (compressB p (take_rows MidSize (blocks128 n) (snd s)) (blocks128 n) n) as [y1| | |]; try discriminate. cbn [bind] in E.
    destruct (compressB p (take_rows MidSize (blocks128 n) w) (blocks128 n) n) as [y2| | |]; try discriminate. cbn [bind] in E. congruence.
Qed.
