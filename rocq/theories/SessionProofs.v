(* Proofs about the sessions of the alternating moduli PRF (C61). *)
From Verif Require Import Base Words F3CodeModel ConvModel ConvSpec KeyMultModel KeyMultSpec PrfModel PrfSpec PrfProtoProofs PrfSharedProofs
  CorGenModel CorGenSpec CorGenProofs SessionModel SessionSpec.

(* ---------------- requests ---------------- *)

Lemma requests_app dbg q1 : forall q2 g, requests dbg (q1 ++ q2) g =
  (do a <- requests dbg q1 g; do b <- requests dbg q2 (fst a); Ok (fst b, snd a ++ snd b)).
Proof.
  induction q1 as [|[[t r] n] q1 IH]; intros q2 g; cbn [app requests bind fst snd].
  - destruct (requests dbg q2 g) as [[g' s]| | |]; reflexivity.
  - destruct (request dbg t r n g) as [[g1 s1]| | |]; cbn [bind fst snd]; try reflexivity.
    rewrite IH. destruct (requests dbg q1 g1) as [[g2 s2]| | |]; cbn [bind fst snd]; try reflexivity.
    destruct (requests dbg q2 g2) as [[g3 s3]| | |]; reflexivity.
Qed.

Lemma req_single dbg t r n g g1 segs : request dbg t r n g = Ok (g1, segs) -> requests dbg [(t, r, n)] g = Ok (g1, [segs]).
Proof. intros E. cbn [requests]. rewrite E. reflexivity. Qed.

Lemma requests_cons dbg t r n qs g g1 segss : requests dbg ((t, r, n) :: qs) g = Ok (g1, segss) ->
  exists g2 s rst, request dbg t r n g = Ok (g2, s) /\ segss = s :: rst.
Proof.
  cbn [requests]. destruct (request dbg t r n g) as [[g2 s]| | |]; cbn [bind fst snd]; try discriminate.
  destruct (requests dbg qs g2) as [[g3 s3]| | |]; cbn [bind fst snd]; try discriminate. intros E. injection E as <- <-. eauto.
Qed.

Lemma gens_twin dbg bs qs g g' : gens_at dbg bs qs g g' ->
  (exists k S0, ginv k g S0) /\ (forall b x, nth_error (gBatches g) b = Some x -> (0 < bSize x)%N) /\ mirrored g g'.
Proof.
  intros (Hb & Hq & c & g0 & segss & E0 & E & E'). destruct (gen_init_inv E0 Hb) as [_ [He Hi]].
  assert (Hp : forall b x, nth_error (gBatches g0) b = Some x -> (0 < bSize x)%N).
  { rewrite He. intros b x Hx. destruct b; discriminate. }
  destruct (@requests_ok dbg _ qs g0 [] Hi Hq Hp) as (g1 & s1 & E1 & I1 & _ & _ & P1).
  rewrite E in E1. injection E1 as <- <-. split; [eauto|split; [exact P1|]].
  assert (Hm : mirrored g0 g0).
  { destruct (gen_init_eq E0) as [-> _]. split; [reflexivity|split; reflexivity]. }
  pose proof (@requests_mirror dbg qs g0 g0 Hm) as H. rewrite E, E' in H. exact (proj1 H).
Qed.

Lemma round128_up n : (n + 127 < two64)%N -> round128 n = up128 n.
Proof. intros. unfold round128, up128. rewrite N.mod_small by assumption. reflexivity. Qed.

Lemma round128_id n : (n mod 128 = 0)%N -> (n <= 2 ^ 64 - 256)%N -> round128 n = n.
Proof.
  intros H Hn. destruct (mod_mult128 H) as [k ->]. apply round128_mult.
  assert (two64 = 2 ^ 64)%N by reflexivity. lia.
Qed.

Lemma req_step dbg bs qs g g' t r n : gens_at dbg bs qs g g' -> (n mod 128 = 0)%N -> (n <= 2 ^ 64 - 256)%N ->
  exists g1 g1' segs, make_req dbg t r n g = Ok (g1, CReq segs n 0 false) /\
    make_req dbg t (negb r) n g' = Ok (g1', CReq segs n 0 false) /\
    request dbg t r n g = Ok (g1, segs) /\
    gens_at dbg bs (qs ++ [(t, r, n)]) g1 g1' /\ seg_total segs = n /\ Forall (fun s => (sSize s mod 128 = 0)%N) segs.
Proof.
  intros H Hm Hn. destruct (gens_twin H) as ((k & S0 & Hi) & Hp & Hmi).
  destruct (@request_ok dbg k t r n g S0 Hi Hn Hp) as (g1 & segs & E & _ & _ & V & _).
  pose proof (@requests_mirror dbg [(t, r, n)] g g' Hmi) as HM. cbn [requests map mirror_q] in HM.
  rewrite E in HM. cbn [bind fst snd] in HM.
  destruct (request dbg t (negb r) n g') as [[g1' segs']| | |] eqn:E'; cbn [bind fst snd mirror_out] in HM; try contradiction.
  destruct HM as [HM HS]. injection HS as <-.
  exists g1, g1', segs. unfold make_req. rewrite E, E'. cbn [bind fst snd]. rewrite (@round128_id n Hm Hn).
  split; [reflexivity|split; [reflexivity|split; [reflexivity|]]]. split.
  - destruct H as (Hb & Hq & c & g0 & segss & E0 & E1 & E2). split; [exact Hb|]. split.
    + apply Forall_app. split; [exact Hq|]. constructor; [exact Hn|constructor].
    + exists c, g0, (segss ++ [segs]). split; [exact E0|]. split.
      * rewrite requests_app, E1. cbn [bind fst snd requests]. rewrite E. reflexivity.
      * rewrite map_app, requests_app, E2. cbn [bind fst snd requests map mirror_q]. rewrite E'. reflexivity.
  - destruct V as [V1 V2]. cbn [served] in *.
    assert (HF : Forall (fun s => (sSize s mod 128 = 0)%N) segs).
    { eapply Forall_impl; [|exact V2]. cbv beta. tauto. }
    split; [|exact HF].
    assert (HT : (seg_total segs mod 128 = 0)%N).
    { clear - HF. induction HF as [|s l Hs _ IH]; [reflexivity|]. cbn [seg_total fold_right].
      fold (seg_total l). destruct (mod_mult128 Hs) as [a ->]. destruct (mod_mult128 IH) as [b ->].
      replace (128 * a + 128 * b)%N with (128 * (a + b))%N by lia. apply mult128_mod. }
    destruct (mod_mult128 Hm) as [a ->]. destruct (mod_mult128 HT) as [b Hb]. rewrite Hb in *. lia.
Qed.

(* with room in the open batch the key OTs are one segment *)
Lemma key_one dbg bs qs g g' g1 segs : gens_at dbg bs qs g g' -> key_room g ->
  request dbg COt false 512 g = Ok (g1, segs) -> exists sg, segs = [sg] /\ sSize sg = 512%N.
Proof.
  intros H HR E. destruct (gens_twin H) as ((k & S0 & Hi) & Hp & Hmi).
  assert (Hbs : (1024 <= gBatchSize g)%N /\ (gBatchSize g <= 2 ^ 26)%N).
  { destruct H as (Hb & Hq & c & g0 & segss & E0 & E1 & E2). destruct (gen_init_eq E0) as [-> [H1 H2]].
    assert (HB : gBatchSize g = bs).
    { destruct (gen_init_inv E0 Hb) as [_ [He Hi0]].
      destruct (@requests_ok dbg _ qs _ [] Hi0 Hq) as (ga & sa & Ea & Ia & _).
      { intros b x Hx. destruct b; discriminate. }
      rewrite E1 in Ea. injection Ea as <- <-. rewrite (gi_bs Ia).
      pose proof (N.div_mod bs 128 ltac:(lia)). lia. }
    rewrite HB. change (2 ^ 10)%N with 1024%N in H1. lia. }
  unfold request in E. change (round128 512) with 512%N in E. change (N.to_nat (512 / 128)) with 4 in E.
  assert (HC : forall g b x, nth_error (gBatches g) b = Some x -> gOpen g COt false = Some b ->
    (bSize x + 512 <= gBatchSize g)%N -> (gBatchSize g <= 2 ^ 26)%N ->
    cut dbg 4 COt false 512 0 g [] = Ok (g1, segs) -> exists sg, segs = [sg] /\ sSize sg = 512%N).
  { clear. intros g b x Hx Ho Hroom Hlim E. cbn [cut] in E. change (512 <=? 0)%N with false in E. cbv iota in E.
    unfold open_batch in E. rewrite Ho in E. unfold get in E. rewrite Hx in E. cbn [bind] in E.
    assert (HS : sub64 (gBatchSize g) (bSize x) = (gBatchSize g - bSize x)%N).
    { apply sub64_le; [lia|]. assert (two64 = 2 ^ 64)%N by reflexivity. assert (2 ^ 26 < 2 ^ 64)%N by reflexivity. lia. }
    rewrite HS in E. change (512 - 0)%N with 512%N in E. rewrite N.min_l in E by lia. change (round128 512) with 512%N in E.
    destruct (N.ltb_spec (gBatchSize g - bSize x) 512); [lia|]. rewrite andb_false_r in E.
    change (0 + 512)%N with 512%N in E. change (512 <=? 512)%N with true in E. cbv iota in E.
    injection E as _ <-. eexists. split; reflexivity. }
  unfold key_room in HR. destruct (gOpen g COt false) as [b|] eqn:Ho.
  - destruct (gi_open Hi Ho) as (x & Hx & _). unfold batch_size in HR. rewrite Hx in HR.
    eapply HC; [exact Hx|exact Ho|exact HR|exact (proj2 Hbs)|exact E].
  - apply (HC (fst (open_batch g COt false)) (snd (open_batch g COt false)) (Batch COt false 0));
      unfold open_batch; rewrite Ho; cbn [fst snd gBatches gOpen gBatchSize bSize].
    + rewrite nth_error_app2 by lia. rewrite Nat.sub_diag. reflexivity.
    + reflexivity.
    + lia.
    + exact (proj2 Hbs).
    + rewrite <- E. cbn [cut]. change (512 <=? 0)%N with false. cbv iota.
      unfold open_batch. rewrite Ho. cbn [gOpen]. unfold set_open at 1. cbn [ct_eqb Bool.eqb andb]. reflexivity.
Qed.

(* ---------------- init ---------------- *)

Lemma size_facts size : (0 < size <= 2 ^ 54)%N ->
  round128 size = up128 size /\ (up128 size mod 128 = 0)%N /\ (0 < up128 size <= 2 ^ 54 + 128)%N /\
  mul64 (up128 size) (N.of_nat MidSize) = (256 * up128 size)%N /\
  mul64 (mul64 (up128 size) (N.of_nat MidSize)) 2 = (512 * up128 size)%N /\
  mul64 (up128 size) (N.of_nat KeySize) = (512 * up128 size)%N.
Proof.
  intros H. assert (T : (two64 = 2 ^ 64)%N) by reflexivity.
  assert (P1 : (2 ^ 54 = 18014398509481984)%N) by reflexivity. 
  assert (P3 : (2 ^ 64 = 18446744073709551616)%N) by reflexivity. rewrite P1 in *. rewrite P3 in T.
  assert (R : round128 size = up128 size) by (apply round128_up; lia).
  assert (U : (up128 size mod 128 = 0)%N) by (unfold up128; apply N.mod_mul; lia).
  assert (Ub : (size <= up128 size <= size + 127)%N).
  { unfold up128. pose proof (N.div_mod (size + 127) 128 ltac:(lia)). pose proof (N.mod_lt (size + 127) 128 ltac:(lia)). lia. }
  change (N.of_nat MidSize) with 256%N. change (N.of_nat KeySize) with 512%N. unfold mul64.
  split; [exact R|split; [exact U|split; [lia|]]].
  rewrite !N.mod_small by lia. lia.
Qed.

Lemma plan_sizes size : (0 < size <= 2 ^ 54)%N ->
  ((256 * up128 size) mod 128 = 0)%N /\ ((512 * up128 size) mod 128 = 0)%N /\
  (256 * up128 size <= 2 ^ 64 - 256)%N /\ (512 * up128 size <= 2 ^ 64 - 256)%N.
Proof.
  intros H. destruct (size_facts H) as (_ & M & B & _).
  destruct (mod_mult128 M) as [k E]. rewrite E in *.
  assert (P2 : (2 ^ 54 = 18014398509481984)%N) by reflexivity.
  assert (P3 : (2 ^ 64 = 18446744073709551616)%N) by reflexivity. rewrite P2 in *. rewrite P3.
  replace (256 * (128 * k))%N with (128 * (256 * k))%N by lia. replace (512 * (128 * k))%N with (128 * (512 * k))%N by lia.
  rewrite !mult128_mod. lia.
Qed.

(* what evaluate finds: requests with any started flags *)
Definition mod2_armed (f4 : bool) (n : N) (s : sender) (r : recver) (segs : list segment) : Prop :=
  exists b1 b2,
    if f4 then sdReqF4 s = Some (CReq segs (256 * n) 0 b1) /\ rvReqF4 r = Some (CReq segs (256 * n) 0 b2) /\ seg_total segs = (256 * n)%N
    else sdReqOle s = Some (CReq segs (512 * n) 0 b1) /\ rvReqOle r = Some (CReq segs (512 * n) 0 b2) /\ seg_total segs = (512 * n)%N.

Definition keys_armed (sd : N -> prng) (a : sargs) (s : sender) (r : recver) (ksegs : list segment) : Prop :=
  match aKey a with
  | None => exists b1 b2 o k o2 k2, sdKR s = KMR o k (Some (CReq ksegs 512 0 b1)) /\ rvKS r = KMS o2 k2 (Some (CReq ksegs 512 0 b2))
  | Some k => sdKR s = KMR (map sd (aRots a)) (Some k) None /\ rvKS r = KMS (map (seed2 sd) (aSots' a)) (aShare a) None /\
      (aI a = IShared -> sdKS s = KMS (map (seed2 sd) (aSots a)) (Some k) None /\ rvKR r = KMR (map sd (aRots' a)) (aShare a) None /\
         exists b1 b2 segs, sdConv s = Some (CReq segs (512 * up128 (aSize a)) 0 b1) /\
           rvConv r = Some (CReq segs (512 * up128 (aSize a)) 0 b2) /\ seg_total segs = (512 * up128 (aSize a))%N /\
           Forall (fun x => (sSize x mod 128 = 0)%N) segs)
  end.

Definition armed (sd : N -> prng) (f4 : bool) (a : sargs) (s : sender) (r : recver) (ksegs msegs : list segment) : Prop :=
  sdSize s = aSize a /\ rvSize r = aSize a /\ sdF4 s = f4 /\ rvF4 r = f4 /\ sdI s = aI a /\ rvI r = aI a /\
  sdK s = aK a /\ rvK r = aK a /\
  mod2_armed f4 (up128 (aSize a)) s r msegs /\ Forall (fun x => (sSize x mod 128 = 0)%N) msegs /\ keys_armed sd a s r ksegs.

Lemma mod2_req_ok dbg f4 party size f o f' o' bs qs g g' : (0 < size <= 2 ^ 54)%N -> gens_at dbg bs qs g g' ->
  exists g1 g1' segs q, mod2_request dbg f4 true party (round128 size) f o g =
      Ok (g1, if f4 then (Some q, o) else (f, Some q)) /\
    mod2_request dbg f4 false (negb party) (round128 size) f' o' g' = Ok (g1', if f4 then (Some q, o') else (f', Some q)) /\
    q = CReq segs (if f4 then 256 * up128 size else 512 * up128 size)%N 0 false /\
    gens_at dbg bs (qs ++ [if f4 then (CF4, true, 256 * up128 size)%N else (COle, party, 512 * up128 size)%N]) g1 g1' /\
    seg_total segs = (if f4 then 256 * up128 size else 512 * up128 size)%N /\ Forall (fun x => (sSize x mod 128 = 0)%N) segs /\
    requests dbg [if f4 then (CF4, true, 256 * up128 size)%N else (COle, party, 512 * up128 size)%N] g = Ok (g1, [segs]).
Proof.
  intros H HG. destruct (size_facts H) as (R & M & B & E1 & E2 & E3). destruct (plan_sizes H) as (M1 & M2 & B1 & B2).
  unfold mod2_request. rewrite R. destruct f4; [rewrite E1|rewrite E2].
  - destruct (@req_step dbg bs qs g g' CF4 true (256 * up128 size) HG M1 B1) as (g1 & g1' & segs & A1 & A2 & A3 & A4 & A5 & A6).
    exists g1, g1', segs, (CReq segs (256 * up128 size) 0 false). rewrite A1. cbn [negb] in A2. rewrite A2. cbn [bind fst snd requests].
    rewrite A3. auto 8.
  - destruct (@req_step dbg bs qs g g' COle party (512 * up128 size) HG M2 B2) as (g1 & g1' & segs & A1 & A2 & A3 & A4 & A5 & A6).
    exists g1, g1', segs, (CReq segs (512 * up128 size) 0 false). rewrite A1, A2. cbn [bind fst snd requests].
    rewrite A3. auto 8.
Qed.

Lemma not_nil_len {A} (l : list A) n : length l = S n -> exists x t, l = x :: t.
Proof. destruct l; [discriminate|eauto]. Qed.

Lemma kms_given dbg sd sh ots g s : length ots = 512 ->
  kms_init dbg sd sh ots g s = Ok (g, KMS (map (seed2 sd) ots) sh (msReq s)).
Proof.
  intros H. unfold kms_init, kms_set. destruct ots as [|x t] eqn:E; [discriminate|]. rewrite H. reflexivity.
Qed.
Lemma kmr_given dbg sd k ots g s : length ots = 512 ->
  kmr_init dbg sd (Some k) ots g s = Ok (g, KMR (map sd ots) (Some k) (mrReq s)).
Proof.
  intros H. unfold kmr_init, kmr_set. destruct ots as [|x t] eqn:E; [discriminate|]. rewrite H. reflexivity.
Qed.

Lemma inits_ok dbg sd party a bs qs g g' s r : gens_at dbg bs qs g g' -> args_ok a -> rvSize r = 0%N -> sdF4 s = rvF4 r -> no_stale a s r ->
  exists g1 g1' s1 r1 ksegss ksegs msegs,
    send_init dbg sd party (aSize a) (aK a) (aI a) (aKey a) (aRots a) (aSots a) g s = Ok (g1, s1) /\
    recv_init dbg sd (negb party) (aSize a) (aK a) (aI a) (aShare a) (aSots' a) (aRots' a) g' r = Ok (g1', r1) /\
    gens_at dbg bs (qs ++ plan (sdF4 s) party a) g1 g1' /\
    requests dbg (plan (sdF4 s) party a) g = Ok (g1, ksegss ++ [msegs]) /\
    (aKey a = None -> ksegss = [ksegs]) /\
    armed sd (sdF4 s) a s1 r1 ksegs msegs.
Proof.
  intros HG (Hsz & Ha) Hr0 Hf Hst. destruct (size_facts Hsz) as (R & M & B & E1 & E2 & E3). destruct (plan_sizes Hsz) as (M1 & M2 & B1 & B2).
  unfold send_init, recv_init, plan. rewrite Hr0. rewrite <- Hf.
  assert (Hz : (aSize a =? 0)%N = false) by (apply N.eqb_neq; lia). rewrite Hz. cbn [N.eqb negb throw_if].
  unfold no_stale in Hst. destruct (aKey a) as [k|] eqn:Ek.
  - destruct Ha as (Hk & Hm & Hi). destruct Hm as (L1 & L2 & Hm). specialize (Hst ltac:(discriminate)).
    destruct Hst as (S1 & S2 & S3). rewrite Hk in L1, L2.
    change KeySize with 512. rewrite L2, L1. cbn [Nat.eqb xorb negb andb throw_if bind].
    rewrite kmr_given by assumption. rewrite kms_given by assumption. cbn [bind fst snd].
    destruct (aI a) eqn:Ei.
    + assert (Hbs : both_shared (aK a) IReceiverOnly = false) by (destruct (aK a); reflexivity). rewrite Hbs. cbn [bind fst snd].
      destruct (@mod2_req_ok dbg (sdF4 s) party (aSize a) (sdReqF4 s) (sdReqOle s) (rvReqF4 r) (rvReqOle r) bs qs g g' Hsz HG)
        as (g1 & g1' & segs & q & A1 & A2 & A3 & A4 & A5 & A6 & A7).
      rewrite A1, A2. cbn [bind fst snd].
      eexists g1, g1', _, _, [], [], segs. split; [reflexivity|]. split; [reflexivity|].
      split. { destruct (aK a); cbn [app]; exact A4. }
      split. { destruct (aK a); cbn [app]; exact A7. }
      split; [discriminate|].
      unfold armed, mod2_armed, keys_armed. cbn [sdSize rvSize sdF4 rvF4 sdI rvI sdK rvK sdReqF4 sdReqOle rvReqF4 rvReqOle sdKR sdKS rvKR rvKS]. rewrite Ek, Ei, S1, S2.
      split; [reflexivity|]. split; [reflexivity|]. split; [reflexivity|]. split; [reflexivity|]. split; [reflexivity|]. split; [reflexivity|].
      split; [reflexivity|]. split; [reflexivity|]. split.
      { exists false, false. rewrite A3. destruct (sdF4 s); cbn [fst snd]; auto. }
      split; [exact A6|]. split; [reflexivity|]. split; [reflexivity|]. discriminate.
    + destruct Hi as (Hk2 & Hi). rewrite Hk2. cbn [both_shared].
      destruct (aShare a) as [k'|] eqn:Es; [|contradiction]. destruct Hi as (Hk' & L3 & L4 & Hm'). rewrite Hk' in L3, L4.
      rewrite kms_given by assumption. rewrite kmr_given by assumption. cbn [bind fst snd].
      rewrite R. change (N.of_nat 512) with (N.of_nat KeySize). rewrite E3.
      destruct (@req_step dbg bs qs g g' CTrit true (512 * up128 (aSize a)) HG M2 B2) as (g2 & g2' & tsegs & T1 & T2 & T3 & T4 & T5 & T6).
      rewrite T1. cbn [negb] in T2. rewrite T2. cbn [bind fst snd].
      destruct (@mod2_req_ok dbg (sdF4 s) party (aSize a) (sdReqF4 s) (sdReqOle s) (rvReqF4 r) (rvReqOle r) bs _ g2 g2' Hsz T4)
        as (g1 & g1' & segs & q & A1 & A2 & A3 & A4 & A5 & A6 & A7).
      rewrite R in A1, A2. rewrite A1, A2. cbn [bind fst snd app].
      eexists g1, g1', _, _, [tsegs], [], segs. split; [reflexivity|]. split; [reflexivity|].
      split. { rewrite <- app_assoc in A4. exact A4. }
      split. { change (requests dbg ([(CTrit, true, 512 * up128 (aSize a))%N] ++ [if sdF4 s then (CF4, true, 256 * up128 (aSize a))%N else (COle, party, 512 * up128 (aSize a))%N]) g = Ok (g1, [tsegs] ++ [segs])).
               rewrite requests_app, (req_single T3). cbn [bind fst snd]. rewrite A7. reflexivity. }
      split; [discriminate|].
      destruct (S3 eq_refl) as (S4 & S5).
      unfold armed, mod2_armed, keys_armed. cbn [sdSize rvSize sdF4 rvF4 sdI rvI sdK rvK sdReqF4 sdReqOle rvReqF4 rvReqOle sdKR sdKS rvKR rvKS sdConv rvConv]. rewrite Ek, Ei, Es, Hk2, S1, S2, S4, S5.
      split; [reflexivity|]. split; [reflexivity|]. split; [reflexivity|]. split; [reflexivity|]. split; [reflexivity|]. split; [reflexivity|].
      split; [reflexivity|]. split; [reflexivity|]. split.
      { exists false, false. rewrite A3. destruct (sdF4 s); cbn [fst snd]; auto. }
      split; [exact A6|]. split; [reflexivity|]. split; [reflexivity|]. intros _. split; [reflexivity|]. split; [reflexivity|].
      exists false, false, tsegs. auto.
  - destruct Ha as (L1 & L2 & L3 & Hi). rewrite L1, L2, L3, Hi.
    change KeySize with 512. cbn [length Nat.eqb xorb negb andb throw_if bind kmr_init kms_init].
    change (N.of_nat KeySize) with 512%N.
    destruct (@req_step dbg bs qs g g' COt false 512 HG eq_refl) as (g2 & g2' & ksegs & T1 & T2 & T3 & T4 & T5 & T6).
    { assert (P3 : (2 ^ 64 = 18446744073709551616)%N) by reflexivity. rewrite P3. lia. }
    rewrite T1. cbn [negb] in T2. rewrite T2. cbn [bind fst snd].
    assert (Hbs : both_shared (aK a) IReceiverOnly = false) by (destruct (aK a); reflexivity). rewrite Hbs. cbn [bind fst snd].
    destruct (@mod2_req_ok dbg (sdF4 s) party (aSize a) (sdReqF4 s) (sdReqOle s) (rvReqF4 r) (rvReqOle r) bs _ g2 g2' Hsz T4)
      as (g1 & g1' & segs & q & A1 & A2 & A3 & A4 & A5 & A6 & A7).
    rewrite A1, A2. cbn [bind fst snd].
    eexists g1, g1', _, _, [ksegs], ksegs, segs. split; [reflexivity|]. split; [reflexivity|].
    split. { rewrite <- app_assoc in A4. destruct (aK a); cbn [app]; exact A4. }
    split. { assert (HH : requests dbg ([(COt, false, 512%N)] ++ [if sdF4 s then (CF4, true, 256 * up128 (aSize a))%N else (COle, party, 512 * up128 (aSize a))%N]) g = Ok (g1, [ksegs] ++ [segs])).
             { rewrite requests_app, (req_single T3). cbn [bind fst snd]. rewrite A7. reflexivity. }
             destruct (aK a); cbn [app]; exact HH. }
    split; [reflexivity|].
    unfold armed, mod2_armed, keys_armed. cbn [sdSize rvSize sdF4 rvF4 sdI rvI sdK rvK sdReqF4 sdReqOle rvReqF4 rvReqOle sdKR sdKS rvKR rvKS]. rewrite Ek, Hi.
    split; [reflexivity|]. split; [reflexivity|]. split; [reflexivity|]. split; [reflexivity|]. split; [reflexivity|]. split; [reflexivity|].
    split; [reflexivity|]. split; [reflexivity|]. split.
    { exists false, false. rewrite A3. destruct (sdF4 s); cbn [fst snd]; auto. }
    split; [exact A6|]. exists false, false. do 4 eexists. split; reflexivity.
Qed.

(* ---------------- preprocess ---------------- *)

Lemma start_if_ok q : exists q', start_if q = Ok q' /\
  (q' = q \/ exists r, q = Some r /\ q' = Some (CReq (cqSegs r) (cqSize r) (cqNext r) true)).
Proof.
  unfold start_if. destruct q as [r|]; cbn [req_size].
  - destruct (cqSize r =? 0)%N; [exists (Some r); auto|]. cbn [req_start]. eexists. split; [reflexivity|]. right. eauto.
  - exists None. auto.
Qed.

Lemma pre_ok sd f4 a s r ksegs msegs : armed sd f4 a s r ksegs msegs ->
  exists s' r', send_pre s = Ok s' /\ recv_pre r = Ok r' /\ armed sd f4 a s' r' ksegs msegs.
Proof.
  intros (A1 & A2 & A3 & A4 & A5 & A6 & A7 & A8 & (b1 & b2 & AM) & AF & AK).
  destruct s as [sz f k i kr ks rf ro cv]. destruct r as [sz' f' k' i' kr' ks' rf' ro' cv'].
  cbn [sdSize rvSize sdF4 rvF4 sdI rvI sdK rvK sdReqF4 sdReqOle rvReqF4 rvReqOle] in *. subst sz sz' f f' i i' k k'.
  unfold send_pre, recv_pre, kmr_pre, kms_pre. cbn [sdF4 sdKR sdKS rvF4 rvKR rvKS sdReqF4 sdReqOle rvReqF4 rvReqOle sdSize rvSize sdK sdI rvK rvI sdConv rvConv].
  destruct (start_if_ok (mrReq kr)) as (q1 & E1 & O1). destruct (start_if_ok (msReq ks)) as (q2 & E2 & O2).
  destruct (start_if_ok (mrReq kr')) as (q3 & E3 & O3). destruct (start_if_ok q3) as (q4 & E4 & O4).
  rewrite E1, E2. cbn [bind].
  assert (HK : forall f o f' o' cv1 cv1', cv1 = cv -> cv1' = cv' -> keys_armed sd a
      (Sender (aSize a) f4 (aK a) (aI a) (KMR (mrOts kr) (mrKey kr) q1) (KMS (msOts ks) (msShare ks) q2) f o cv1)
      (Recver (aSize a) f4 (aK a) (aI a) (KMR (mrOts kr') (mrKey kr') q4) ks' f' o' cv1') ksegs).
  { intros f o f' o' cv1 cv1' -> ->. unfold keys_armed in *. cbn [sdKR sdKS rvKR rvKS sdConv rvConv] in *.
    destruct (aKey a) as [k|].
    - destruct AK as (-> & -> & AK). cbn [mrReq mrOts mrKey msReq] in *.
      assert (q1 = None) as -> by (destruct O1 as [->|(x & Hx & _)]; [reflexivity|discriminate]).
      split; [reflexivity|]. split; [reflexivity|]. intros Hi. destruct (AK Hi) as (-> & -> & AC). cbn [mrReq mrOts mrKey msReq msOts msShare] in *.
      assert (q2 = None) as -> by (destruct O2 as [->|(x & Hx & _)]; [reflexivity|discriminate]).
      assert (q3 = None) as -> by (destruct O3 as [->|(x & Hx & _)]; [reflexivity|discriminate]).
      assert (q4 = None) as -> by (destruct O4 as [->|(x & Hx & _)]; [reflexivity|discriminate]).
      split; [reflexivity|]. split; [reflexivity|]. exact AC.
    - destruct AK as (c1 & c2 & o0 & k & o2 & k2 & -> & ->). cbn [mrReq mrOts mrKey] in *.
      destruct O1 as [->|(x & Hx & ->)].
      + exists c1, c2, o0, k, o2, k2. auto.
      + injection Hx as <-. exists true, c2, o0, k, o2, k2. auto. }
  destruct f4.
  - destruct AM as (-> & -> & AT). cbn [req_start bind cqSegs cqSize cqNext rvKR rvKS rvSize rvF4 rvK rvI rvReqF4 rvReqOle rvConv].
    rewrite E3. cbn [bind mrReq mrOts mrKey]. rewrite E4. cbn [bind].
    eexists _, _. split; [reflexivity|]. split; [reflexivity|].
    unfold armed, mod2_armed. cbn [sdSize rvSize sdF4 rvF4 sdI rvI sdK rvK sdReqF4 sdReqOle rvReqF4 rvReqOle].
    repeat (split; [reflexivity|]). split; [exists true, true; auto|]. split; [exact AF|]. apply HK; reflexivity.
  - destruct AM as (-> & -> & AT). cbn [req_start bind cqSegs cqSize cqNext rvKR rvKS rvSize rvF4 rvK rvI rvReqF4 rvReqOle rvConv].
    rewrite E3. cbn [bind mrReq mrOts mrKey]. rewrite E4. cbn [bind].
    eexists _, _. split; [reflexivity|]. split; [reflexivity|].
    unfold armed, mod2_armed. cbn [sdSize rvSize sdF4 rvF4 sdI rvI sdK rvK sdReqF4 sdReqOle rvReqF4 rvReqOle].
    repeat (split; [reflexivity|]). split; [exists true, true; auto|]. split; [exact AF|]. apply HK; reflexivity.
Qed.

(* ---------------- evaluate ---------------- *)

Lemma up128_blocks size : up128 size = (128 * N.of_nat (blocks128 (N.to_nat size)))%N.
Proof.
  unfold up128, blocks128. rewrite Nat2N.inj_div, Nat2N.inj_add, N2Nat.id.
  change (N.of_nat 127) with 127%N. change (N.of_nat 128) with 128%N. lia.
Qed.

Lemma segs_total {A} (f : segment -> list A) segs : (forall s, length (f s) = N.to_nat (sSize s / 128)) ->
  Forall (fun x => (sSize x mod 128 = 0)%N) segs -> N.of_nat (128 * length (concat (map f segs))) = seg_total segs.
Proof.
  intros Hf. induction 1 as [|s l Hs _ IH]; [reflexivity|]. cbn [map concat seg_total fold_right]. fold (seg_total l).
  rewrite app_length, Hf, <- IH. destruct (mod_mult128 Hs) as [k ->].
  replace (128 * k / 128)%N with k by (rewrite N.mul_comm, N.div_mul; lia). lia.
Qed.

Lemma ots_match_ok sd so ro key : ots_match so ro key -> length key = 512 -> ots_ok (map (seed2 sd) so) (map sd ro) key.
Proof.
  intros (L1 & L2 & H) Hk. split; [rewrite map_length; change KeySize with 512; lia|]. split; [rewrite map_length; change KeySize with 512; lia|].
  change KeySize with 512. intros i Hi. unfold ot_ok.
  rewrite (nth_indep _ d_prng (sd 0%N)) by (rewrite map_length; lia). rewrite map_nth.
  rewrite (nth_indep _ (d_prng, d_prng) (seed2 sd (0, 0)%N)) by (rewrite map_length; lia). rewrite map_nth.
  rewrite (H i 0%N) by lia. unfold seed2. destruct (nth i key false); reflexivity.
Qed.

Lemma mod2_sizes_ok f4 size s r msegs : (0 < size <= 2 ^ 54)%N -> mod2_armed f4 (up128 size) s r msegs ->
  mod2_sizes f4 (sdReqF4 s) (sdReqOle s) size = Ok tt /\ mod2_sizes f4 (rvReqF4 r) (rvReqOle r) size = Ok tt.
Proof.
  intros Hsz (b1 & b2 & H). destruct (size_facts Hsz) as (R & M & B & E1 & E2 & E3). unfold mod2_sizes. rewrite R.
  destruct f4; destruct H as (-> & -> & _); cbn [req_size cqSize]; [rewrite E1|rewrite E2]; rewrite N.eqb_refl; auto.
Qed.

Lemma mod2_cors_ok cs cr sd f4 a s r ksegs msegs : (0 < aSize a <= 2 ^ 54)%N -> cors_ok cs cr -> armed sd f4 a s r ksegs msegs ->
  (f4 = false -> Forall (fun x => (sSize x mod 256 = 0)%N) msegs) ->
  exists c, mod2_cors cs cr s r = Ok c /\ cor_ok c (N.to_nat (aSize a)).
Proof.
  intros Hsz Hc (A1 & A2 & A3 & A4 & A5 & A6 & A7 & A8 & (b1 & b2 & AM) & AF & AK) He.
  unfold mod2_cors. rewrite A3, A4. destruct f4.
  - destruct AM as (-> & -> & AT). cbn [rest skipn cqNext cqSegs]. eexists. split; [reflexivity|]. split.
    + apply Forall2_map_both. intros x. apply Hc.
    + pose proof (@segs_total _ (cF4R cr) msegs (fun x => proj1 (proj1 (proj2 (Hc x)))) AF) as HT.
      rewrite AT, up128_blocks in HT. unfold total. change MidSize with 256. lia.
  - destruct AM as (-> & -> & AT). cbn [rest skipn cqNext cqSegs]. eexists. split; [reflexivity|]. split; [|split].
    + apply Forall2_map_both. intros x. apply Hc.
    + pose proof (@segs_total _ (cOle cr) msegs (fun x => proj1 (proj1 (proj2 (proj2 (Hc x))))) AF) as HT.
      rewrite AT, up128_blocks in HT. unfold total. change MidSize with 256. lia.
    + specialize (He eq_refl). apply Forall_forall. intros l Hl. apply in_map_iff in Hl. destruct Hl as (x & <- & Hx).
      rewrite (proj1 (proj1 (proj2 (proj2 (Hc x))))). rewrite Forall_forall in He. specialize (He x Hx).
      apply Nat.even_spec. exists (N.to_nat (sSize x / 256)).
      pose proof (N.div_mod (sSize x) 256 ltac:(lia)) as D. rewrite He in D.
      assert (E : (sSize x / 128 = 2 * (sSize x / 256))%N).
      { rewrite D at 1. replace (256 * (sSize x / 256) + 0)%N with (2 * (sSize x / 256) * 128)%N by lia. apply N.div_mul. lia. }
      rewrite E. lia.
Qed.

Lemma kms_fetch_given sd c ots sh : length ots = 512 -> kms_fetch sd c (KMS (map (seed2 sd) ots) sh None) = Ok (KMS (map (seed2 sd) ots) sh None).
Proof. intros H. unfold kms_fetch. cbn [msReq bind msOts]. rewrite map_length, H. reflexivity. Qed.
Lemma kmr_fetch_given sd c ots k : length ots = 512 -> kmr_fetch sd c (KMR (map sd ots) k None) = Ok (KMR (map sd ots) k None).
Proof. intros H. unfold kmr_fetch. cbn [mrReq bind mrOts]. rewrite map_length, H. reflexivity. Qed.

Lemma kms_fetch_req sd c o k b sg : length (cOtS c sg) = 512 ->
  kms_fetch sd c (KMS o k (Some (CReq [sg] 512 0 b))) = Ok (KMS (map (seed2 sd) (cOtS c sg)) None None).
Proof.
  intros H. unfold kms_fetch, req_next, req_get, kms_set. cbn [msReq cqSize cqSegs cqNext N.eqb Pos.eqb length Nat.leb throw_if bind get nth_error fst snd].
  rewrite H. change (512 =? KeySize) with true. cbn [negb throw_if bind msOts msShare]. rewrite map_length, H. reflexivity.
Qed.
Lemma kmr_fetch_req sd c o k b sg : length (fst (cOtR c sg)) = 512 -> length (snd (cOtR c sg)) = 512 ->
  kmr_fetch sd c (KMR o k (Some (CReq [sg] 512 0 b))) =
  Ok (KMR (map sd (fst (cOtR c sg))) (Some (snd (cOtR c sg))) (Some (CReq [sg] 512 1 true))).
Proof.
  intros H1 H2. unfold kmr_fetch, req_next, req_get, kmr_set. cbn [mrReq cqSize cqSegs cqNext N.eqb Pos.eqb length Nat.leb throw_if bind get nth_error fst snd].
  rewrite H1, H2. change ((512 + 7) / 8 =? KeySize / 8) with true. change (512 =? KeySize) with true.
  cbn [negb throw_if bind mrOts mrKey mrReq]. rewrite map_length, H1. reflexivity.
Qed.

Lemma bits_eqb_refl l : bits_eqb l l = true.
Proof. induction l as [|b l IH]; [reflexivity|]. cbn. rewrite IH. destruct b; reflexivity. Qed.

(* both parties are ready for the next session with keys passed in *)
Definition idle (a : sargs) (s s' : sender) (r r' : recver) : Prop :=
  rvSize r' = 0%N /\ sdSize s' = 0%N /\ sdF4 s' = sdF4 s /\ rvF4 r' = rvF4 r /\
  (aKey a <> None -> mrReq (sdKR s') = None /\ msReq (rvKS r') = None) /\
  (aKey a <> None -> aI a = IReceiverOnly -> sdKS s' = sdKS s /\ rvKR r' = rvKR r) /\
  (aI a = IShared -> msReq (sdKS s') = None /\ mrReq (rvKR r') = None) /\
  (aKey a = None -> exists sg, mrReq (sdKR s') = Some (CReq [sg] 512 1 true)) /\
  (if sdF4 s then sdReqF4 s' = used (sdReqF4 s) /\ rvReqF4 r' = used (rvReqF4 r)
   else sdReqOle s' = used (sdReqOle s) /\ rvReqOle r' = used (rvReqOle r)).

Lemma eval_ok G B A M p fuel sd cs cr f4 a s r ksegs msegs xs xr : params_ok G A ->
  prf_make G B A = Ok p -> f3_getMatrix 512 256 A = Ok M ->
  args_ok a -> cors_ok cs cr -> armed sd f4 a s r ksegs msegs -> inputs_ok a xs xr ->
  (f4 = false -> Forall (fun x => (sSize x mod 256 = 0)%N) msegs) ->
  (aKey a = None -> exists sg, ksegs = [sg] /\ sSize sg = 512%N) ->
  evaluate2 fuel p sd cs cr s r xs xr (aSize a) (aSize a) = Hang \/
  exists y s' r', evaluate2 fuel p sd cs cr s r xs xr (aSize a) (aSize a) = Ok (y, (s', r')) /\
    outputs_ok G M B (session_key cs a ksegs) a xs xr y /\ idle a s s' r r'.
Proof.
  intros HP HM HA (Hsz & Ha) Hc Harm (Lr & Lx) He Hk.
  destruct (@mod2_cors_ok cs cr sd f4 a s r ksegs msegs Hsz Hc Harm He) as (c & Ec & Hcor).
  destruct Harm as (A1 & A2 & A3 & A4 & A5 & A6 & A7 & A8 & AM & AF & AK).
  destruct (@mod2_sizes_ok f4 (aSize a) s r msegs Hsz AM) as (M1 & M2).
  assert (Hn : 0 < N.to_nat (aSize a)) by lia.
  unfold evaluate2, send_checks, recv_checks. rewrite A1, A2, A3, A4, A5, A6, M1, M2.
  rewrite Lr, N2Nat.id, N.eqb_refl. cbn [negb throw_if bind].
  assert (Hz : (aSize a =? 0)%N = false) by (apply N.eqb_neq; lia). rewrite Hz. cbn [throw_if bind].
  unfold keys_armed in AK. unfold outputs_ok, joint_input, session_key, given_key. destruct (aI a) eqn:Ei.
  - rewrite Lx. cbn [N.of_nat N.eqb negb throw_if bind].
    destruct (aKey a) as [k|] eqn:Ek.
    + destruct Ha as (Hlk & Hm & _). destruct AK as (K1 & K2 & _). rewrite K1, K2.
      pose proof Hm as (L1 & L2 & _). rewrite kms_fetch_given by lia. cbn [bind]. rewrite kmr_fetch_given by lia. cbn [bind key_of mrKey].
      rewrite Ec. cbn [bind msOts msShare mrOts].
      destruct (@run_ro_total G B A M p fuel c (N.to_nat (aSize a)) (map (seed2 sd) (aSots' a)) (aShare a) (map sd (aRots a)) k xr
        HP HM HA Hn Lr Hcor (@ots_match_ok sd _ _ _ Hm Hlk)) as [E|(ys & yr & E & Ly & Lz & Hy)]; rewrite E; [left; reflexivity|right].
      cbn [bind]. eexists (ys, yr), _, _. split; [reflexivity|]. cbn [fst snd]. split; [auto|].
      unfold idle, send_done, recv_done. cbn [rvSize sdSize sdF4 rvF4 sdKR rvKS sdKS rvKR mrReq msReq].
      split; [reflexivity|]. split; [reflexivity|]. split; [reflexivity|]. split; [reflexivity|]. split; [auto|]. split; [auto|].
      split; [intros Hi; rewrite Ei in Hi; discriminate|]. split; [intros Hi; rewrite Ek in Hi; discriminate|].
      cbn [sdReqF4 sdReqOle rvReqF4 rvReqOle]. rewrite A3, A4. destruct f4; auto.
    + destruct (Hk eq_refl) as (sg & -> & Hsg). destruct AK as (c1 & c2 & o & k & o2 & k2 & K1 & K2). rewrite K1, K2.
      destruct (Hc sg) as ((Q1 & Q2) & _). rewrite Hsg in Q1. change (N.to_nat 512) with 512 in Q1. pose proof Q2 as (L1 & L2 & _).
      rewrite kms_fetch_req by lia. cbn [bind]. rewrite kmr_fetch_req by lia. cbn [bind key_of mrKey mrOts msOts msShare].
      rewrite Ec. cbn [bind].
      destruct (@run_ro_total G B A M p fuel c (N.to_nat (aSize a)) (map (seed2 sd) (cOtS cr sg)) None (map sd (fst (cOtR cs sg))) (snd (cOtR cs sg)) xr
        HP HM HA Hn Lr Hcor (@ots_match_ok sd _ _ _ Q2 Q1)) as [E|(ys & yr & E & Ly & Lz & Hy)]; rewrite E; [left; reflexivity|right].
      cbn [bind]. eexists (ys, yr), _, _. split; [reflexivity|]. cbn [fst snd]. split; [auto|].
      unfold idle, send_done, recv_done. cbn [rvSize sdSize sdF4 rvF4].
      split; [reflexivity|]. split; [reflexivity|]. split; [reflexivity|]. split; [reflexivity|].
      rewrite Ek, Ei. split; [congruence|]. split; [congruence|]. split; [discriminate|].
      split; [intros _; exists sg; reflexivity|].
      cbn [sdReqF4 sdReqOle rvReqF4 rvReqOle]. rewrite A3, A4. destruct f4; auto.
  - rewrite Lx, N2Nat.id, N.eqb_refl. cbn [negb throw_if bind].
    destruct (aKey a) as [k|] eqn:Ek; [|destruct Ha as (_ & _ & _ & Hbad); discriminate].
    destruct Ha as (Hlk & Hm & Hk2 & Hs). destruct (aShare a) as [k'|] eqn:Es; [|contradiction]. destruct Hs as (Hlk' & Hm').
    destruct AK as (K1 & K2 & AK). destruct (AK eq_refl) as (K3 & K4 & d1 & d2 & csegs & C1 & C2 & C3 & C4). rewrite K1, K2, K3, K4.
    cbn [msShare throw_if bind key_of mrKey]. unfold key_checks. cbn [pkShare pkKey]. rewrite !bits_eqb_refl. cbn [negb throw_if bind].
    pose proof Hm as (L1 & L2 & _). pose proof Hm' as (L3 & L4 & _).
    rewrite kms_fetch_given by lia. cbn [bind]. rewrite kmr_fetch_given by lia. cbn [bind].
    rewrite kms_fetch_given by lia. cbn [bind]. rewrite kmr_fetch_given by lia. cbn [bind].
    rewrite Ec, C1, C2. cbn [bind rest cqNext cqSegs skipn msShare msOts mrOts].
    pose proof (@segs_total _ (cTrR cr) csegs (fun x => proj1 (proj2 (proj2 (proj2 (Hc x))))) C4) as HT.
    rewrite C3, up128_blocks in HT.
    destruct (@run_shared_total G B A M p fuel c (N.to_nat (aSize a)) (map (cTrS cs) csegs) (map (cTrR cr) csegs)
      (PKeys (Some k) k (map (seed2 sd) (aSots a)) (map sd (aRots a)))
      (PKeys (Some k') k' (map (seed2 sd) (aSots' a)) (map sd (aRots' a))) xs xr HP HM HA Hn Lx Lr Hcor)
      as [E|(ys & yr & E & Ly & Lz & Hy)].
    + apply Forall2_map_both. intros x. apply Hc.
    + unfold total. lia.
    + split; [reflexivity|]. split; [reflexivity|]. cbn [pkSend pkRecv pkKey]. split; apply ots_match_ok; assumption.
    + rewrite E. left. reflexivity.
    + right. rewrite E. cbn [bind]. eexists (ys, yr), _, _. split; [reflexivity|]. cbn [fst snd]. split; [auto|].
      unfold idle, send_done, recv_done. cbn [rvSize sdSize sdF4 rvF4 sdKR rvKS sdKS rvKR mrReq msReq].
      split; [reflexivity|]. split; [reflexivity|]. split; [reflexivity|]. split; [reflexivity|]. split; [auto|]. split; [rewrite Ei; discriminate|].
      split; [auto|]. split; [rewrite Ek; discriminate|].
      cbn [sdReqF4 sdReqOle rvReqF4 rvReqOle]. rewrite A3, A4. destruct f4; auto.
Qed.

(* ---------------- OLE segments ---------------- *)

Definition einv (g : gen) : Prop :=
  (gBatchSize g mod 256 = 0)%N /\ (gBatchSize g <= 2 ^ 26)%N /\
  (forall t r b, gOpen g t r = Some b -> exists x, nth_error (gBatches g) b = Some x /\ bType x = t) /\
  (forall b x, nth_error (gBatches g) b = Some x -> bType x = COle -> (bSize x mod 256 = 0 /\ bSize x <= gBatchSize g)%N).

Lemma mod_mult256 n : (n mod 256 = 0 -> exists k, n = 256 * k)%N.
Proof. intros H. exists (n / 256)%N. pose proof (N.div_mod n 256 ltac:(lia)). lia. Qed.
Lemma mult256_mod k : ((256 * k) mod 256 = 0)%N.
Proof. rewrite N.mul_comm. apply N.mod_mul. lia. Qed.

Lemma open_einv g t r : einv g -> einv (fst (open_batch g t r)) /\ gOpen (fst (open_batch g t r)) t r = Some (snd (open_batch g t r)).
Proof.
  intros (H1 & H2 & H3 & H4). unfold open_batch. destruct (gOpen g t r) as [b|] eqn:E.
  - cbn [fst snd]. unfold einv. auto.
  - cbn [fst snd]. unfold einv. cbn [gBatchSize gBatches gOpen].
    assert (Hl : forall b x, nth_error (gBatches g) b = Some x -> nth_error (gBatches g ++ [Batch t r 0]) b = Some x).
    { intros b x Hx. rewrite nth_error_app1; [exact Hx|]. apply nth_error_Some. congruence. }
    split; [split; [exact H1|split; [exact H2|split]]|].
    + intros t' r' b Hb. unfold set_open in Hb. destruct (ct_eqb t t') eqn:Et; cbn [andb] in Hb; [destruct (Bool.eqb r r')|].
      * injection Hb as <-. apply ct_eqb_eq in Et. exists (Batch t r 0). rewrite nth_error_app2, Nat.sub_diag by lia. auto.
      * destruct (H3 _ _ _ Hb) as (x & Hx & Ht). exists x. auto.
      * destruct (H3 _ _ _ Hb) as (x & Hx & Ht). exists x. auto.
    + intros b x Hx Ht. destruct (Nat.lt_ge_cases b (length (gBatches g))).
      * rewrite nth_error_app1 in Hx by assumption. eauto.
      * rewrite nth_error_app2 in Hx by assumption. destruct (b - length (gBatches g)) as [|m]; cbn in Hx.
        -- injection Hx as <-. cbn [bSize]. split; [reflexivity|lia].
        -- destruct m; discriminate.
    + unfold set_open. rewrite (proj2 (ct_eqb_eq t t)) by reflexivity. rewrite Bool.eqb_reflx. reflexivity.
Qed.

Lemma cut_even dbg fuel : forall t r n j g segs g' segs', einv g ->
  (t = COle -> n mod 256 = 0 /\ j mod 256 = 0 /\ n <= 2 ^ 64 - 256)%N ->
  (t = COle -> Forall (fun x => (sSize x mod 256 = 0)%N) segs) ->
  cut dbg fuel t r n j g segs = Ok (g', segs') ->
  einv g' /\ (t = COle -> Forall (fun x => (sSize x mod 256 = 0)%N) segs').
Proof.
  assert (T : (two64 = 18446744073709551616)%N) by reflexivity.
  assert (P3 : (2 ^ 64 = 18446744073709551616)%N) by reflexivity.
  assert (P2 : (2 ^ 26 = 67108864)%N) by reflexivity.
  induction fuel as [|fuel IH]; intros t r n j g segs g' segs' HI HE HS E; cbn [cut] in E;
    (destruct (N.leb_spec n j) as [|Hlt]; [injection E as <- <-; auto|]); [discriminate|].
  destruct (open_einv t r HI) as (HI1 & Ho). destruct (open_batch g t r) as [g1 b] eqn:Eo. cbn [fst snd] in *.
  destruct HI1 as (H1 & H2 & H3 & H4).
  destruct (get (gBatches g1) b) as [bt| | |] eqn:Eg; cbn [bind] in E; try discriminate.
  assert (Hb : nth_error (gBatches g1) b = Some bt).
  { unfold get in Eg. destruct (nth_error (gBatches g1) b); [congruence|discriminate]. }
  destruct (dbg && _); [discriminate|].
  assert (Hbl : b < length (gBatches g1)) by (apply nth_error_Some; congruence).
  destruct (H3 _ _ _ Ho) as (x & Hx & Ht). rewrite Hb in Hx. injection Hx as <-.
  assert (HZ : t = COle -> let z := round128 (N.min (n - j) (sub64 (gBatchSize g1) (bSize bt))) in
     (z mod 256 = 0)%N /\ (bSize bt + z <= gBatchSize g1)%N /\ ((j + z) mod 256 = 0)%N /\ (bSize bt mod 256 = 0)%N).
  { intros ->. destruct (HE eq_refl) as (E1 & E2 & E3). destruct (H4 _ _ Hb Ht) as (E4 & E5). rewrite P3 in E3.
    rewrite P2 in H2. rewrite (@sub64_le (gBatchSize g1) (bSize bt)) by lia.
    destruct (mod_mult256 E1) as [kn ->]. destruct (mod_mult256 E2) as [kj ->]. destruct (mod_mult256 E4) as [kb Ekb].
    destruct (mod_mult256 H1) as [kg Ekg]. rewrite Ekb, Ekg in *.
    assert (EM : (N.min (256 * kn - 256 * kj) (256 * kg - 256 * kb) = 128 * (2 * N.min (kn - kj) (kg - kb)))%N) by lia.
    rewrite EM. rewrite round128_mult by lia.
    replace (128 * (2 * N.min (kn - kj) (kg - kb)))%N with (256 * N.min (kn - kj) (kg - kb))%N by lia.
    cbv zeta. split; [apply mult256_mod|]. split; [lia|]. split; [|apply mult256_mod].
    replace (256 * kj + 256 * N.min (kn - kj) (kg - kb))%N with (256 * (kj + N.min (kn - kj) (kg - kb)))%N by lia. apply mult256_mod. }
  set (z := round128 (N.min (n - j) (sub64 (gBatchSize g1) (bSize bt)))) in *. cbv zeta in HZ.
  apply IH in E; [exact E| | |].
  - unfold einv. cbn [gBatchSize gBatches gOpen]. split; [exact H1|]. split; [exact H2|]. split.
    + intros t' r' b' Hb'.
      assert (Hop : gOpen g1 t' r' = Some b').
      { destruct (sub64 (gBatchSize g1) (bSize bt) =? z)%N; [|exact Hb']. unfold set_open in Hb'.
        destruct (ct_eqb t t' && Bool.eqb r r'); [discriminate|exact Hb']. }
      destruct (H3 _ _ _ Hop) as (y & Hy & Hyt). destruct (Nat.eq_dec b b') as [<-|Hne].
      * rewrite nth_error_upd_eq by assumption. eexists. split; [reflexivity|]. cbn [bType]. rewrite Hb in Hy. injection Hy as <-. exact Hyt.
      * rewrite nth_error_upd_ne by congruence. eauto.
    + intros b' y Hy Hyt. destruct (Nat.eq_dec b b') as [<-|Hne].
      * rewrite nth_error_upd_eq in Hy by assumption. injection Hy as <-. cbn [bType bSize] in *.
        assert (t = COle) by congruence. destruct (HZ H) as (Z1 & Z2 & Z3 & Z4).
        rewrite P2 in H2. rewrite (N.mod_small _ two64) by lia. split; [|lia].
        destruct (mod_mult256 Z1) as [kz ->]. destruct (mod_mult256 Z4) as [kb ->].
        replace (256 * kb + 256 * kz)%N with (256 * (kb + kz))%N by lia. apply mult256_mod.
      * rewrite nth_error_upd_ne in Hy by congruence. eauto.
  - intros Hc. destruct (HE Hc) as (E1 & E2 & E3). destruct (HZ Hc) as (Z1 & Z2 & Z3 & Z4). auto.
  - intros Hc. apply Forall_app. split; [auto|]. constructor; [|constructor]. cbn [sSize]. apply HZ. exact Hc.
Qed.

Lemma requests_even dbg qs : forall g g' segss, einv g ->
  Forall (fun q => (snd q <= 2 ^ 64 - 256)%N) qs -> Forall (fun q => fst (fst q) = COle -> (snd q mod 256 = 0)%N) qs ->
  requests dbg qs g = Ok (g', segss) ->
  einv g' /\ Forall2 (fun q segs => fst (fst q) = COle -> Forall (fun x => (sSize x mod 256 = 0)%N) segs) qs segss.
Proof.
  assert (T : (two64 = 18446744073709551616)%N) by reflexivity.
  assert (P3 : (2 ^ 64 = 18446744073709551616)%N) by reflexivity.
  induction qs as [|[[t r] n] qs IH]; intros g g' segss HI HB HA E; cbn [requests] in E.
  - injection E as <- <-. auto.
  - inversion HB as [|? ? B1 B2]; inversion HA as [|? ? A1 A2]; subst. cbn [fst snd] in A1, B1.
    unfold request in E. destruct (cut dbg _ t r (round128 n) 0 g []) as [[g1 s1]| | |] eqn:Ec; cbn [bind fst snd] in E; try discriminate.
    destruct (requests dbg qs g1) as [[g2 s2]| | |] eqn:Er; cbn [bind fst snd] in E; try discriminate. injection E as <- <-.
    apply cut_even in Ec; [|exact HI| |constructor].
    + destruct Ec as (I1 & F1). destruct (IH _ _ _ I1 B2 A2 Er) as (I2 & F2). split; [exact I2|]. constructor; [exact F1|exact F2].
    + intros Hc. specialize (A1 Hc). destruct (mod_mult256 A1) as [k ->]. rewrite P3 in *.
      replace (256 * k)%N with (128 * (2 * k))%N by lia. rewrite round128_mult by lia.
      replace (128 * (2 * k))%N with (256 * k)%N by lia. rewrite mult256_mod. split; [reflexivity|]. split; [reflexivity|lia].
Qed.

(* ---------------- what the functions did if they returned ---------------- *)

Lemma send_init_inv dbg sd party size k i key rots sots g s g1 s1 : send_init dbg sd party size k i key rots sots g s = Ok (g1, s1) ->
  sdI s1 = i /\ sdK s1 = k /\
  xorb (match key with Some _ => true | None => false end) (KeySize =? length rots) = false /\
  (exists g2, kmr_init dbg sd key rots g (sdKR s) = Ok (g2, sdKR s1)) /\
  (both_shared k i = false -> sdKS s1 = sdKS s /\ sdConv s1 = sdConv s) /\
  (both_shared k i = true -> exists g2 g3, kms_init dbg sd key sots g2 (sdKS s) = Ok (g3, sdKS s1)).
Proof.
  unfold send_init. intros H. apply bind_ok in H. destruct H as ([] & H0 & H). apply bind_ok in H. destruct H as ([g2 kr] & H1 & H).
  cbn [fst snd] in H. apply bind_ok in H. destruct H as ([g3 [ks cv]] & H2 & H). apply bind_ok in H. destruct H as ([g4 [f o]] & H3 & H).
  cbn [fst snd] in H. injection H as _ <-. cbn [sdI sdK sdKR sdKS sdConv]. split; [reflexivity|]. split; [reflexivity|].
  split. { unfold throw_if in H0. destruct (xorb _ _); [discriminate|reflexivity]. }
  split; [eauto|]. destruct (both_shared k i).
  - split; [discriminate|]. intros _. apply bind_ok in H2. destruct H2 as ([g5 ks5] & H4 & H2). apply bind_ok in H2. destruct H2 as ([g6 q6] & H5 & H2).
    cbn [fst snd] in H2. injection H2 as _ <- _. eauto.
  - split; [|discriminate]. intros _. injection H2 as _ <- <-. auto.
Qed.

Lemma recv_init_inv dbg sd party size k i share sots rots g s g1 s1 : recv_init dbg sd party size k i share sots rots g s = Ok (g1, s1) ->
  size <> 0%N /\ rvSize s = 0%N /\ (exists g2, kms_init dbg sd share sots g (rvKS s) = Ok (g2, rvKS s1)) /\
  (both_shared k i = false -> rvKR s1 = rvKR s /\ rvConv s1 = rvConv s) /\ rvI s1 = i.
Proof.
  unfold recv_init. intros H. apply bind_ok in H. destruct H as ([] & _ & H). apply bind_ok in H. destruct H as ([] & H0 & H).
  apply bind_ok in H. destruct H as ([] & H1 & H). cbv zeta in H. apply bind_ok in H. destruct H as ([g2 ks] & H2 & H).
  cbn [fst snd] in H. apply bind_ok in H. destruct H as ([g3 [kr cv]] & H3 & H). apply bind_ok in H. destruct H as ([g4 [f o]] & H4 & H).
  cbn [fst snd] in H. injection H as _ <-. cbn [rvSize rvKS rvKR rvConv rvI].
  unfold throw_if in H0, H1. destruct (N.eqb_spec size 0); [discriminate|]. destruct (N.eqb_spec (rvSize s) 0); [|discriminate].
  split; [assumption|]. split; [assumption|]. split; [eauto|]. split; [|reflexivity]. intros Hb. rewrite Hb in H3. injection H3 as _ <- <-. auto.
Qed.

Lemma start_if_inv q q' : start_if q = Ok q' -> q' = q \/ exists r, q = Some r /\ q' = Some (CReq (cqSegs r) (cqSize r) (cqNext r) true).
Proof. intros E. destruct (start_if_ok q) as (q0 & E0 & H). rewrite E in E0. injection E0 as <-. exact H. Qed.

Lemma send_pre_inv s s' : send_pre s = Ok s' -> sdI s' = sdI s /\ sdConv s' = sdConv s /\ msShare (sdKS s') = msShare (sdKS s) /\
  (msReq (sdKS s) = None -> msReq (sdKS s') = None) /\
  (exists q, start_if (mrReq (sdKR s)) = Ok q /\ sdKR s' = KMR (mrOts (sdKR s)) (mrKey (sdKR s)) q) /\
  (if sdF4 s then req_start (sdReqF4 s) = Ok (sdReqF4 s') else req_start (sdReqOle s) = Ok (sdReqOle s')).
Proof.
  unfold send_pre, kmr_pre, kms_pre. intros H. apply bind_ok in H. destruct H as (kr & H1 & H). apply bind_ok in H. destruct H as (ks & H2 & H).
  apply bind_ok in H1. destruct H1 as (q1 & H1 & E1). injection E1 as <-. apply bind_ok in H2. destruct H2 as (q2 & H2 & E2). injection E2 as <-.
  assert (HN : msReq (sdKS s) = None -> q2 = None).
  { intros H0. rewrite H0 in H2. apply start_if_inv in H2. destruct H2 as [->|(x & Hx & _)]; [reflexivity|discriminate]. }
  destruct (sdF4 s); apply bind_ok in H; destruct H as (q3 & H3 & H); injection H as <-; cbn [sdI sdConv sdKS sdKR msShare msReq sdReqF4 sdReqOle];
    (split; [reflexivity|]); (split; [reflexivity|]); (split; [reflexivity|]); (split; [exact HN|]); (split; [exists q1; auto|exact H3]).
Qed.

Lemma recv_pre_inv r r' : recv_pre r = Ok r' -> (rvKS r' = rvKS r /\ rvConv r' = rvConv r /\ rvI r' = rvI r /\
  (if rvF4 r then req_start (rvReqF4 r) = Ok (rvReqF4 r') else req_start (rvReqOle r) = Ok (rvReqOle r'))) /\
  (mrReq (rvKR r) = None -> mrReq (rvKR r') = None).
Proof.
  unfold recv_pre, kmr_pre. intros H. apply bind_ok in H. destruct H as (r1 & H1 & H). apply bind_ok in H. destruct H as (k1 & H2 & H).
  apply bind_ok in H. destruct H as (k2 & H3 & H). injection H as <-. cbn [rvKS rvKR rvConv rvI rvReqF4 rvReqOle].
  apply bind_ok in H2. destruct H2 as (q1 & H2 & E1). injection E1 as <-. cbn [mrReq mrOts mrKey] in H3.
  apply bind_ok in H3. destruct H3 as (q2 & H3 & E2). injection E2 as <-. cbn [mrReq].
  assert (HN : mrReq (rvKR r1) = None -> q2 = None).
  { intros H0. rewrite H0 in H2. apply start_if_inv in H2. destruct H2 as [->|(x & Hx & _)]; [|discriminate].
    apply start_if_inv in H3. destruct H3 as [->|(x & Hx & _)]; [reflexivity|discriminate]. }
  destruct (rvF4 r); apply bind_ok in H1; destruct H1 as (q3 & H1 & E); injection E as <-; cbn [rvKS rvKR rvConv rvI rvReqF4 rvReqOle] in *; auto.
Qed.

Lemma evaluate2_inv fuel p sd cs cr s r xs xr ns nr o : evaluate2 fuel p sd cs cr s r xs xr ns nr = Ok o ->
  (exists kr, kmr_fetch sd cs (sdKR s) = Ok kr) /\ (exists ks, kms_fetch sd cr (rvKS r) = Ok ks) /\ (sdI s = IShared -> msShare (sdKS s) <> None).
Proof.
  unfold evaluate2. intros H. apply bind_ok in H. destruct H as ([] & _ & H). apply bind_ok in H. destruct H as ([] & _ & H). cbv zeta in H.
  destruct (sdI s), (rvI r); try discriminate.
  - apply bind_ok in H. destruct H as (ks & H1 & H). apply bind_ok in H. destruct H as (kr & H2 & H).
    split; [eauto|]. split; [eauto|]. discriminate.
  - apply bind_ok in H. destruct H as ([] & H0 & H). apply bind_ok in H. destruct H as ([] & _ & H).
    apply bind_ok in H. destruct H as (k1 & _ & H). apply bind_ok in H. destruct H as (k2 & _ & H).
    apply bind_ok in H. destruct H as ([] & _ & H). apply bind_ok in H. destruct H as ([] & _ & H).
    apply bind_ok in H. destruct H as (ks & H1 & H). apply bind_ok in H. destruct H as (kr & H2 & H).
    split; [eauto|]. split; [eauto|]. intros _ E. rewrite E in H0. discriminate.
Qed.

Lemma session_inv dbg fuel p sd cs cr party pre a xs xr g g' s r o : session dbg fuel p sd cs cr party pre a xs xr ((g, g'), (s, r)) = Ok o ->
  exists g1 g1' s1 r1 s2 r2, send_init dbg sd party (aSize a) (aK a) (aI a) (aKey a) (aRots a) (aSots a) g s = Ok (g1, s1) /\
    recv_init dbg sd (negb party) (aSize a) (aK a) (aI a) (aShare a) (aSots' a) (aRots' a) g' r = Ok (g1', r1) /\
    (if pre then send_pre s1 else Ok s1) = Ok s2 /\ (if pre then recv_pre r1 else Ok r1) = Ok r2 /\
    exists e, evaluate2 fuel p sd cs cr s2 r2 xs xr (aSize a) (aSize a) = Ok e.
Proof.
  unfold session. cbn [fst snd]. intros H. apply bind_ok in H. destruct H as ([g1 s1] & H1 & H). apply bind_ok in H. destruct H as ([g1' r1] & H2 & H).
  cbn [fst snd] in H. apply bind_ok in H. destruct H as (s2 & H3 & H). apply bind_ok in H. destruct H as (r2 & H4 & H).
  apply bind_ok in H. destruct H as (e & H5 & H). exists g1, g1', s1, r1, s2, r2. eauto 8.
Qed.

(* the sender's key request after init and preprocess *)
Lemma session_fetch dbg fuel p sd cs cr party pre a xs xr g g' s r o : session dbg fuel p sd cs cr party pre a xs xr ((g, g'), (s, r)) = Ok o ->
  exists g2 kr b kr', kmr_init dbg sd (aKey a) (aRots a) g (sdKR s) = Ok (g2, kr) /\
    kmr_fetch sd cs (KMR (mrOts kr) (mrKey kr) (match mrReq kr with Some q => Some (CReq (cqSegs q) (cqSize q) (cqNext q) (b || cqStarted q)) | None => None end)) = Ok kr'.
Proof.
  intros H. destruct (session_inv H) as (g1 & g1' & s1 & r1 & s2 & r2 & E1 & E2 & E3 & E4 & e & E5).
  destruct (send_init_inv E1) as (_ & _ & _ & (g2 & K) & _). destruct (evaluate2_inv E5) as ((kr' & F) & _ & _).
  destruct pre.
  - destruct (send_pre_inv E3) as (_ & _ & _ & _ & (q & Q & EQ) & _). rewrite EQ in F. apply start_if_inv in Q. destruct Q as [->|(x & Hx & ->)].
    + exists g2, (sdKR s1), false, kr'. split; [exact K|]. cbn [orb]. destruct (mrReq (sdKR s1)) as [[? ? ? ?]|]; exact F.
    + exists g2, (sdKR s1), true, kr'. split; [exact K|]. cbn [orb]. rewrite Hx. exact F.
  - injection E3 as <-. exists g2, (sdKR s1), false, kr'. split; [exact K|]. cbn [orb].
    destruct (sdKR s1) as [o1 k1 [[? ? ? ?]|]]; exact F.
Qed.

(* an old, used up key request *)
Lemma stale_fails dbg fuel p sd cs cr party pre a xs xr g g' s r q : aKey a <> None ->
  mrReq (sdKR s) = Some q -> cqSize q <> 0%N -> length (cqSegs q) <= cqNext q ->
  forall o, session dbg fuel p sd cs cr party pre a xs xr ((g, g'), (s, r)) <> Ok o.
Proof.
  intros Hk Hq Hz Hn o H. destruct (session_fetch H) as (g2 & kr & b & kr' & K & F).
  destruct (aKey a) as [k|]; [|congruence]. unfold kmr_init in K. destruct (aRots a) as [|x t]; [discriminate|].
  apply bind_ok in K. destruct K as (s' & K & E). injection E as _ <-. unfold kmr_set in K. apply bind_ok in K. destruct K as ([] & _ & K).
  injection K as <-. cbn [mrReq] in F. rewrite Hq in F. unfold kmr_fetch in F. cbn [mrReq cqSize] in F.
  destruct (N.eqb_spec (cqSize q) 0); [contradiction|]. unfold req_next, req_get in F. cbn [cqSegs cqNext] in F.
  rewrite (proj2 (Nat.leb_le _ _) Hn) in F. discriminate.
Qed.

(* a key request whose first segment does not have all of it *)
Lemma straddle_fails dbg fuel p sd cs cr party pre a xs xr bs qs g g' s r : aKey a = None -> gens_at dbg bs qs g g' -> cors_ok cs cr -> ~ key_room g ->
  forall o, session dbg fuel p sd cs cr party pre a xs xr ((g, g'), (s, r)) <> Ok o.
Proof.
  intros Hk HG Hc HR o H. destruct (session_fetch H) as (g2 & kr & b & kr' & K & F). rewrite Hk in K. unfold kmr_init in K.
  destruct (aRots a); [|discriminate]. apply bind_ok in K. destruct K as ([g3 q] & K & E). cbn [fst snd] in E. injection E as _ <-.
  unfold make_req in K. apply bind_ok in K. destruct K as ([g4 segs] & K & E). cbn [fst snd] in E. injection E as _ <-.
  cbn [mrReq mrOts mrKey cqSegs cqSize cqNext] in F. change (N.of_nat KeySize) with 512%N in *. change (round128 512) with 512%N in F.
  assert (HF : exists sg rst, segs = sg :: rst /\ (sSize sg < 512)%N).
  { destruct (gens_twin HG) as ((k & S0 & Hi) & Hp & Hmi). unfold key_room in HR. destruct (gOpen g COt false) as [bb|] eqn:Ho; [|tauto].
    destruct (gi_open Hi Ho) as (x & Hx & _ & _ & Hlt). unfold batch_size in HR. rewrite Hx in HR.
    pose proof (gi_bs Hi) as HB. pose proof (gi_lim Hi) as HL. destruct (@gi_size _ _ _ Hi _ _ Hx) as (_ & Hm). destruct (mod_mult128 Hm) as [m Em].
    assert (P2 : (2 ^ 26 = 67108864)%N) by reflexivity. assert (T : (two64 = 18446744073709551616)%N) by reflexivity.
    unfold request in K. change (round128 512) with 512%N in K. change (N.to_nat (512 / 128)) with 4 in K.
    revert K. generalize 3. intros fu K.
    assert (HC : forall f (g : gen) sg rst n j r0, cut dbg f COt r0 n j g (sg :: rst) = Ok (g4, segs) -> exists rst', segs = sg :: rst').
    { clear. induction f as [|f IH]; intros g sg rst n j r0; cbn [cut]; (destruct (n <=? j)%N; [intros E; injection E as _ <-; eauto|]); [discriminate|].
      destruct (open_batch g COt r0) as [g1 b]. intros E. apply bind_ok in E. destruct E as (bt & _ & E). cbv zeta in E.
      destruct (dbg && _); [discriminate|]. cbn [app] in E. exact (IH _ _ _ _ _ _ E). }
    cbn [cut] in K. change (512 <=? 0)%N with false in K. cbv iota in K. unfold open_batch in K. rewrite Ho in K.
    unfold get in K. rewrite Hx in K. cbn [bind] in K. change (512 - 0)%N with 512%N in K.
    rewrite P2 in HL. rewrite (@sub64_le (gBatchSize g) (bSize x)) in K by lia.
    assert (EM : (N.min 512 (gBatchSize g - bSize x) = 128 * (k - m))%N) by lia. rewrite EM in K. rewrite round128_mult in K by lia.
    destruct (dbg && _); [discriminate|]. cbn [app] in K. destruct (HC _ _ _ _ _ _ _ K) as (rst' & ->).
    eexists _, rst'. split; [reflexivity|]. cbn [sSize]. lia. }
  destruct HF as (sg & rst & -> & Hsg). unfold kmr_fetch in F. cbn [mrReq cqSize] in F. change (512 =? 0)%N with false in F. cbv iota in F.
  apply bind_ok in F. destruct F as (s' & F & _). unfold req_next, req_get in F. cbn [cqSegs cqNext cqSize length Nat.leb throw_if bind get nth_error fst snd] in F.
  apply bind_ok in F. destruct F as ([] & _ & F). unfold kmr_set in F. apply bind_ok in F. destruct F as ([] & F & _).
  destruct (Hc sg) as ((L1 & _ & L2 & _) & _). unfold throw_if in F. change KeySize with 512 in F.
  destruct (Nat.eqb_spec (length (fst (cOtR cs sg))) 512) as [E|]; [|discriminate]. lia.
Qed.

(* shared inputs without shared keys *)
Lemma shared_fails dbg fuel p sd cs cr party pre a xs xr g g' s r : aI a = IShared -> aKey a = None \/ aK a = KSenderOnly ->
  msShare (sdKS s) = None -> forall o, session dbg fuel p sd cs cr party pre a xs xr ((g, g'), (s, r)) <> Ok o.
Proof.
  intros Hi Hk Hs o H. destruct (session_inv H) as (g1 & g1' & s1 & r1 & s2 & r2 & E1 & E2 & E3 & E4 & e & E5).
  destruct (send_init_inv E1) as (V1 & V2 & _ & _ & V3 & V4). destruct (evaluate2_inv E5) as (_ & _ & F).
  assert (HS : msShare (sdKS s1) = None).
  { destruct (both_shared (aK a) (aI a)) eqn:Eb.
    - destruct Hk as [Hk|Hk]; [|rewrite Hk in Eb; discriminate]. destruct (V4 eq_refl) as (g2 & g3 & K). rewrite Hk in K. unfold kms_init in K.
      destruct (aSots a) as [|x t].
      + cbn [throw_if bind] in K. apply bind_ok in K. destruct K as (q & _ & K). injection K as _ <-. exact Hs.
      + apply bind_ok in K. destruct K as (s' & K & E). injection E as _ <-. unfold kms_set in K. apply bind_ok in K. destruct K as ([] & _ & K).
        injection K as <-. reflexivity.
    - destruct (V3 eq_refl) as (-> & _). exact Hs. }
  assert (HS2 : sdI s2 = IShared /\ msShare (sdKS s2) = None).
  { destruct pre.
    - destruct (send_pre_inv E3) as (W1 & _ & W3 & _). rewrite W1, W3, V1. auto.
    - injection E3 as <-. rewrite V1. auto. }
  exact (F (proj1 HS2) (proj2 HS2)).
Qed.

(* ---------------- sessions ---------------- *)

Lemma armed_zero sd f4 a s r ksegs msegs s' r' : (0 < aSize a <= 2 ^ 54)%N -> armed sd f4 a s r ksegs msegs -> idle a s s' r r' ->
  (forall nx ny, send_checks s' nx ny = Throw) /\ (forall nx ny, recv_checks r' nx ny = Throw).
Proof.
  intros Hsz Harm (I1 & I2 & I3 & I4 & _ & _ & _ & _ & I9).
  destruct (size_facts Hsz) as (R & M & B & E1 & E2 & E3).
  destruct Harm as (A1 & A2 & A3 & A4 & A5 & A6 & A7 & A8 & (b1 & b2 & AM) & AF & AK). split; intros nx ny.
  - unfold send_checks, mod2_sizes. rewrite I2, I3, A3. destruct (negb (nx =? _)%N); [reflexivity|]. cbn [throw_if bind].
    destruct (N.eqb_spec ny 0) as [->|]; [|reflexivity]. cbn [negb throw_if bind]. rewrite A3 in I9.
    change (round128 0) with 0%N. change (mul64 0 (N.of_nat MidSize)) with 0%N. change (mul64 0 2) with 0%N.
    destruct f4; destruct I9 as (-> & _); destruct AM as (-> & _); cbn [used req_size cqSize].
    + destruct (N.eqb_spec (256 * up128 (aSize a)) 0); [lia|]. reflexivity.
    + destruct (N.eqb_spec (512 * up128 (aSize a)) 0); [lia|]. reflexivity.
  - unfold recv_checks. rewrite I1. reflexivity.
Qed.

Lemma gens_einv dbg bs qs g g' : gens_at dbg bs qs g g' -> ole_even bs qs -> einv g.
Proof.
  intros (Hb & Hq & c & g0 & segss & E0 & E & E') (H1 & H2). destruct (gen_init_eq E0) as [-> [_ L]].
  assert (I0 : einv (Gen bs [] (fun _ _ => None))).
  { unfold einv; cbn [gBatchSize gBatches gOpen]; split; [exact H1|]; split; [exact L|]; split; [discriminate|]; intros b x Hx; destruct b; discriminate. }
  exact (proj1 (@requests_even dbg qs _ _ _ I0 Hq H2 E)).
Qed.

Lemma plan_even f4 party a : (0 < aSize a <= 2 ^ 54)%N ->
  Forall (fun q => (snd q <= 2 ^ 64 - 256)%N) (plan f4 party a) /\ Forall (fun q => fst (fst q) = COle -> (snd q mod 256 = 0)%N) (plan f4 party a).
Proof.
  intros H. destruct (plan_sizes H) as (M1 & M2 & B1 & B2). destruct (size_facts H) as (_ & Mu & _).
  assert (K : (512 <= 2 ^ 64 - 256)%N). { assert (P3 : (2 ^ 64 = 18446744073709551616)%N) by reflexivity. rewrite P3. lia. }
  assert (E : ((512 * up128 (aSize a)) mod 256 = 0)%N).
  { replace (512 * up128 (aSize a))%N with (256 * (2 * up128 (aSize a)))%N by lia. apply mult256_mod. }
  split; unfold plan; (repeat (apply Forall_app; split)).
  - destruct (aKey a); repeat constructor. exact K.
  - destruct (aK a), (aI a), (aKey a); repeat constructor; assumption.
  - destruct f4; repeat constructor; assumption.
  - destruct (aKey a); repeat constructor; cbn [fst snd]; try discriminate.
  - destruct (aK a), (aI a), (aKey a); repeat constructor; cbn [fst snd]; try discriminate.
  - destruct f4; (constructor; [|constructor]); cbn [fst snd]; [discriminate|]. intros _. exact E.
Qed.

Lemma ole_even_plan bs qs f4 party a : (0 < aSize a <= 2 ^ 54)%N -> ole_even bs qs -> ole_even bs (qs ++ plan f4 party a).
Proof. intros H (H1 & H2). split; [exact H1|]. apply Forall_app. split; [exact H2|]. apply plan_even. exact H. Qed.

Lemma plan_last f4 party a : exists q0, plan f4 party a =
  q0 ++ [if f4 then (CF4, true, 256 * up128 (aSize a))%N else (COle, party, 512 * up128 (aSize a))%N].
Proof. unfold plan. rewrite app_assoc. eexists. reflexivity. Qed.

Lemma session_ok G B A M p fuel dbg sd cs cr party pre a bs qs g g' s r xs xr : params_ok G A ->
  prf_make G B A = Ok p -> f3_getMatrix 512 256 A = Ok M ->
  gens_at dbg bs qs g g' -> args_ok a -> cors_ok cs cr -> inputs_ok a xs xr ->
  rvSize r = 0%N -> sdF4 s = rvF4 r -> no_stale a s r ->
  (aKey a = None -> key_room g) -> (sdF4 s = false -> ole_even bs qs) ->
  exists g1 g1' segss, requests dbg (plan (sdF4 s) party a) g = Ok (g1, segss) /\
    gens_at dbg bs (qs ++ plan (sdF4 s) party a) g1 g1' /\
    (session dbg fuel p sd cs cr party pre a xs xr ((g, g'), (s, r)) = Hang \/
     exists y s' r', session dbg fuel p sd cs cr party pre a xs xr ((g, g'), (s, r)) = Ok (y, ((g1, g1'), (s', r'))) /\
       outputs_ok G M B (session_key cs a (hd [] segss)) a xs xr y /\
       rvSize r' = 0%N /\ sdF4 s' = sdF4 s /\ rvF4 r' = rvF4 r /\
       (forall b, (aKey a = None -> aKey b = None) -> no_stale b s r -> no_stale b s' r') /\
       (aKey a = None -> exists q, mrReq (sdKR s') = Some q /\ cqSize q <> 0%N /\ length (cqSegs q) <= cqNext q) /\
       (forall nx ny, send_checks s' nx ny = Throw) /\ (forall nx ny, recv_checks r' nx ny = Throw)).
Proof.
  intros HP HM HA HG Ha Hc Hin Hr Hf Hst Hroom Hole. pose proof Ha as (Hsz & Ha').
  destruct (@inits_ok dbg sd party a bs qs g g' s r HG Ha Hr Hf Hst) as (g1 & g1' & s1 & r1 & ksegss & ksegs & msegs & E1 & E2 & HG1 & ER & HK & Harm).
  exists g1, g1', (ksegss ++ [msegs]). split; [exact ER|]. split; [exact HG1|].
  unfold session. cbn [fst snd]. rewrite E1. cbn [bind fst snd]. rewrite E2. cbn [bind fst snd].
  assert (HP2 : exists s2 r2, (if pre then send_pre s1 else Ok s1) = Ok s2 /\ (if pre then recv_pre r1 else Ok r1) = Ok r2 /\
     armed sd (sdF4 s) a s2 r2 ksegs msegs).
  { destruct pre; [exact (pre_ok Harm)|]. exists s1, r1. auto. }
  destruct HP2 as (s2 & r2 & Es & Er & Harm2). rewrite Es. cbn [bind]. rewrite Er. cbn [bind].
  assert (He : sdF4 s = false -> Forall (fun x => (sSize x mod 256 = 0)%N) msegs).
  { intros H0. pose proof (gens_einv HG (Hole H0)) as HI. destruct (@plan_even (sdF4 s) party a Hsz) as (P1 & P2).
    destruct (@requests_even dbg _ _ _ _ HI P1 P2 ER) as (_ & F2). destruct (plan_last (sdF4 s) party a) as (q0 & Eq). rewrite Eq in F2.
    apply Forall2_app_inv_l in F2. destruct F2 as (l1 & l2 & _ & F & EL). inversion F as [|? ? ? ? F1 F3]; subst. inversion F3; subst.
    apply app_inj_tail in EL. destruct EL as (_ & ->). rewrite H0 in F1. exact (F1 eq_refl). }
  assert (Hkk : aKey a = None -> exists sg, ksegs = [sg] /\ sSize sg = 512%N).
  { intros H0. pose proof ER as ER'. unfold plan in ER'. rewrite H0 in ER'. cbn [app] in ER'.
    destruct (requests_cons ER') as (g2 & sg2 & rst & Eq & ES). rewrite (HK H0) in ES. injection ES as -> _. exact (key_one HG (Hroom H0) Eq). }
  destruct (@eval_ok G B A M p fuel sd cs cr (sdF4 s) a s2 r2 ksegs msegs xs xr HP HM HA Ha Hc Harm2 Hin He Hkk) as [E|(y & s' & r' & E & HO & HI)].
  - left. rewrite E. reflexivity.
  - right. rewrite E. cbn [bind fst snd]. exists y, s', r'. split; [reflexivity|].
    assert (EK : session_key cs a (hd [] (ksegss ++ [msegs])) = session_key cs a ksegs).
    { unfold session_key. destruct (aKey a) eqn:Ek; [reflexivity|]. rewrite (HK eq_refl). reflexivity. }
    rewrite EK. split; [exact HO|]. pose proof HI as (I1 & I2 & I3 & I4 & I5 & I6 & I7 & I8 & I9).
    pose proof Harm2 as (A1 & A2 & A3 & A4 & _). split; [exact I1|]. split; [congruence|]. split; [congruence|]. split.
    + intros b Hab Hb Hkb. specialize (Hb Hkb). destruct Hb as (S1 & S2 & S3).
      assert (Hka : aKey a <> None) by (intros H; apply Hkb; auto). destruct (I5 Hka) as (-> & ->).
      split; [reflexivity|]. split; [reflexivity|]. intros Hib. specialize (S3 Hib). destruct S3 as (S3 & S4).
      destruct (aI a) eqn:Ei; [|apply I7; reflexivity].
      destruct (I6 Hka eq_refl) as (-> & ->).
      assert (HS : msReq (sdKS s1) = None /\ mrReq (rvKR r1) = None).
      { destruct (send_init_inv E1) as (_ & _ & _ & _ & V1 & _). destruct (recv_init_inv E2) as (_ & _ & _ & V2 & _).
        assert (Hbs : both_shared (aK a) IReceiverOnly = false) by (destruct (aK a); reflexivity).
        try rewrite Ei in V1; try rewrite Ei in V2. destruct (V1 Hbs) as (-> & _). destruct (V2 Hbs) as (-> & _). auto. }
      destruct HS as (HS1 & HS2). destruct pre.
      * destruct (send_pre_inv Es) as (_ & _ & _ & V1 & _). destruct (recv_pre_inv Er) as (_ & V2). rewrite (V1 HS1), (V2 HS2). auto.
      * injection Es as <-. injection Er as <-. auto.
    + split; [|exact (armed_zero Hsz Harm2 HI)].
      intros H0. destruct (I8 H0) as (sg & ->). eexists. split; [reflexivity|]. cbn. split; [discriminate|lia].
Qed.

Lemma sessions_ok G B A M p fuel dbg sd cs cr party f4 bs : params_ok G A ->
  prf_make G B A = Ok p -> f3_getMatrix 512 256 A = Ok M -> cors_ok cs cr ->
  forall l qs g g' s r, gens_at dbg bs qs g g' ->
  Forall (fun x => args_ok (args_of x) /\ inputs_ok (args_of x) (fst (snd x)) (snd (snd x))) l ->
  keygen_last l -> rooms dbg f4 party l g ->
  rvSize r = 0%N -> sdF4 s = f4 -> rvF4 r = f4 -> Forall (fun x => no_stale (args_of x) s r) l -> (f4 = false -> ole_even bs qs) ->
  sessions dbg fuel p sd cs cr party l ((g, g'), (s, r)) = Hang \/
  exists ys g1 g1' s' r', sessions dbg fuel p sd cs cr party l ((g, g'), (s, r)) = Ok (ys, ((g1, g1'), (s', r'))) /\
    all_outputs G M B dbg f4 party cs l g ys /\
    gens_at dbg bs (qs ++ flat_map (fun x => plan f4 party (args_of x)) l) g1 g1'.
Proof.
  intros HP HM HA Hc. induction l as [|[[pre a] [xs xr]] l IH]; intros qs g g' s r HG Hl Hk Hrm Hr Hf Hf' Hst Hole.
  - right. cbn [sessions flat_map]. exists [], g, g', s, r. rewrite app_nil_r. split; [reflexivity|]. split; [exact I|exact HG].
  - inversion Hl as [|? ? (Ha & Hin) Hl']; subst x l0. inversion Hst as [|? ? Hs0 Hst']; subst x l0. cbn [args_of fst snd] in *.
    destruct Hk as (Hk0 & Hk). destruct Hrm as (Hr0 & Hrm). cbn [args_of fst snd] in *.
    destruct (@session_ok G B A M p fuel dbg sd cs cr party pre a bs qs g g' s r xs xr HP HM HA HG Ha Hc Hin Hr ltac:(congruence) Hs0 Hr0 ltac:(rewrite Hf; exact Hole))
      as (g1 & g1' & segss & ER & HG1 & [E|(y & s' & r' & E & HO & J1 & J2 & J3 & J4 & _)]).
    + left. cbn [sessions]. rewrite E. reflexivity.
    + rewrite Hf in ER, HG1.
      destruct (IH (qs ++ plan f4 party a) g1 g1' s' r' HG1 Hl' Hk (Hrm g1 segss ER) J1 ltac:(congruence) ltac:(congruence)) as [E'|(ys & g2 & g2' & s2 & r2 & E' & HO' & HG2)].
      * apply Forall_forall. intros x Hx. apply J4; [|exact (proj1 (Forall_forall _ _) Hst' x Hx)].
        intros H0. exact (proj1 (Forall_forall _ _) (Hk0 H0) x Hx).
      * intros H0. apply ole_even_plan; [exact (proj1 Ha)|exact (Hole H0)].
      * left. cbn [sessions]. rewrite E. cbn [bind snd]. rewrite E'. reflexivity.
      * right. exists (y :: ys), g2, g2', s2, r2. cbn [sessions]. rewrite E. cbn [bind fst snd]. rewrite E'. cbn [bind fst snd]. split; [reflexivity|].
        split; [cbn [all_outputs]; eauto|]. cbn [flat_map args_of fst snd]. rewrite app_assoc. exact HG2.
Qed.

Lemma inits_total dbg sd party a bs qs g g' s r : gens_at dbg bs qs g g' -> args_ok a -> rvSize r = 0%N -> sdF4 s = rvF4 r -> no_stale a s r ->
  exists g1 g1' s1 r1 segss,
    send_init dbg sd party (aSize a) (aK a) (aI a) (aKey a) (aRots a) (aSots a) g s = Ok (g1, s1) /\
    recv_init dbg sd (negb party) (aSize a) (aK a) (aI a) (aShare a) (aSots' a) (aRots' a) g' r = Ok (g1', r1) /\
    requests dbg (plan (sdF4 s) party a) g = Ok (g1, segss) /\
    requests dbg (map mirror_q (plan (sdF4 s) party a)) g' = Ok (g1', segss) /\
    gens_at dbg bs (qs ++ plan (sdF4 s) party a) g1 g1'.
Proof.
  intros HG Ha Hr Hf Hst.
  destruct (@inits_ok dbg sd party a bs qs g g' s r HG Ha Hr Hf Hst) as (g1 & g1' & s1 & r1 & ksegss & ksegs & msegs & E1 & E2 & HG1 & ER & _).
  exists g1, g1', s1, r1, (ksegss ++ [msegs]). split; [exact E1|]. split; [exact E2|]. split; [exact ER|]. split; [|exact HG1].
  destruct HG as (_ & _ & c & g0 & segs & E0 & R0 & R0'). destruct HG1 as (_ & _ & c1 & g01 & segs1 & E01 & R1 & R1').
  destruct (gen_init_eq E0) as [-> _]. destruct (gen_init_eq E01) as [-> _].
  rewrite requests_app, R0 in R1. cbn [bind fst snd] in R1. rewrite ER in R1. cbn [bind fst snd] in R1. injection R1 as <-.
  rewrite map_app, requests_app, R0' in R1'. cbn [bind fst snd] in R1'.
  destruct (requests dbg (map mirror_q (plan (sdF4 s) party a)) g') as [[g2 sg2]| | |]; cbn [bind fst snd] in R1'; try discriminate.
  injection R1' as -> R1'. apply app_inv_head in R1'. subst sg2. reflexivity.
Qed.

Lemma send_pre_starts s s' : send_pre s = Ok s' ->
  (exists q, (if sdF4 s then sdReqF4 s' else sdReqOle s') = Some q /\ cqStarted q = true) /\
  (req_size (mrReq (sdKR s)) <> 0%N -> exists q, mrReq (sdKR s') = Some q /\ cqStarted q = true) /\ sdConv s' = sdConv s.
Proof.
  intros E. destruct (send_pre_inv E) as (_ & C & _ & _ & (q & Q & K) & M). split; [|split; [|exact C]].
  - destruct (sdF4 s); unfold req_start in M; [destruct (sdReqF4 s)|destruct (sdReqOle s)]; try discriminate; injection M as <-; eauto.
  - intros H. rewrite K. cbn [mrReq]. unfold start_if in Q. destruct (N.eqb_spec (req_size (mrReq (sdKR s))) 0); [contradiction|].
    destruct (mrReq (sdKR s)); [|discriminate]. injection Q as <-. eauto.
Qed.

Lemma recv_pre_starts r r' : recv_pre r = Ok r' ->
  (exists q, (if rvF4 r then rvReqF4 r' else rvReqOle r') = Some q /\ cqStarted q = true) /\ rvKS r' = rvKS r /\ rvConv r' = rvConv r.
Proof.
  intros E. destruct (recv_pre_inv E) as ((K & C & _ & M) & _). split; [|auto].
  destruct (rvF4 r); unfold req_start in M; [destruct (rvReqF4 r)|destruct (rvReqOle r)]; try discriminate; injection M as <-; eauto.
Qed.
