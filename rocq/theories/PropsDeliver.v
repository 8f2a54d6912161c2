(* C62: correlations get to those who asked for them.  C63: the two parties compare their requests. *)
From Verif Require Import Base Words SimdModel CompressModel CompressSpec CompressProofs F3CodeModel ConvModel ConvSpec KeyMultModel KeyMultSpec PrfModel PrfSpec PropsPrf
  CorGenModel CorGenSpec CorGenProofs PropsCorGen SessionModel SessionSpec SessionProofs PropsCompress PropsSession DeliverModel DeliverSpec DeliverProofs.

(* two parties make the same requests in mirrored roles, and the batches hold valid correlations:
   whatever the order in which either calls get on its requests, no call fails, each gets its own
   segment of the batch's output, and when both fetch the same segment they hold valid
   correlations *)
Theorem C62_delivery : forall dbg c bs g0 qs g g' segss outs outs' ord ord',
  gen_init c bs = Ok g0 -> (bs mod 128 = 0)%N -> Forall (fun q => (snd q <= 2 ^ 64 - 256)%N) qs ->
  requests dbg qs g0 = Ok (g, segss) -> requests dbg (map mirror_q qs) g0 = Ok (g', segss) ->
  store_ok (gBatches g) outs outs' -> within ord segss -> within ord' segss ->
  exists res st rs res' st' rs',
    get_all dbg ord outs (make_reqs qs segss) = Ok (res, st, rs) /\
    get_all dbg ord' outs' (make_reqs (map mirror_q qs) segss) = Ok (res', st', rs') /\
    (length res = length ord /\ forall k, k < length ord -> exists s o, turn segss ord k = Some s /\
      nth_error outs (sBatch s) = Some o /\ nth_error res k = Some (part o (sBegin s) (sSize s))) /\
    (length res' = length ord' /\ forall k, k < length ord' -> exists s o, turn segss ord' k = Some s /\
      nth_error outs' (sBatch s) = Some o /\ nth_error res' k = Some (part o (sBegin s) (sSize s))) /\
    forall k k' s, turn segss ord k = Some s -> turn segss ord' k' = Some s ->
      exists x y, nth_error res k = Some x /\ nth_error res' k' = Some y /\ pair_ok (sSize s) x y.
Proof. exact delivery. Qed.
Print Assumptions C62_delivery.

(* a request has no more segments than batchCount says, the space its users reserve *)
Theorem C62_batch_count : forall dbg c bs g0 qs g segss,
  gen_init c bs = Ok g0 -> (bs mod 128 = 0)%N -> Forall (fun q => (snd q <= 2 ^ 64 - 256)%N) qs ->
  requests dbg qs g0 = Ok (g, segss) ->
  Forall2 (fun q segs => N.of_nat (length segs) <= batch_count bs (round128 (snd q)))%N qs segss.
Proof.
  intros dbg c bs g0 qs g segss Hg Hm Hq E. destruct (gen_init_inv Hg Hm) as (_ & He & Hi).
  destruct (mod_mult128 Hm) as [k Hk].
  assert (Hd : (bs / 128 = k)%N) by (rewrite Hk, N.mul_comm; apply N.div_mul; discriminate).
  rewrite Hd in Hi.
  assert (H0 : forall b x, nth_error (gBatches g0) b = Some x -> (0 < bSize x)%N).
  { rewrite He. intros b x Hx. destruct b; discriminate. }
  rewrite Hk. exact (@requests_count dbg k qs g0 [] g segss Hi Hq H0 E).
Qed.
Print Assumptions C62_batch_count.

(* in mock mode the batches hold valid correlations *)
Theorem C62_mock : forall dbg aes bs, (forall i, (aes i < 2 ^ 128)%N) ->
  Forall (fun b => (bSize b mod 128 = 0)%N /\ (bSize b < 2 ^ 32)%N) bs ->
  exists outs outs', mock_store dbg aes 0 bs = Ok outs /\ mock_store dbg aes 0 (map mirror_b bs) = Ok outs' /\ store_ok bs outs outs'.
Proof. intros dbg aes bs Ha. exact (@mock_store_ok dbg aes Ha bs 0). Qed.
Print Assumptions C62_mock.

(* from correlated OTs or a VOLE over F4 the tasks of the batches make valid correlations, read as
   the blocks getCor hands out.  The trit OT sender's task may run forever (rejection sampling). *)
Theorem C62_tasks : forall H delta A B n, (n mod 128 = 0)%N -> length A = N.to_nat n ->
  (cot delta A B -> exists o o', ole_task_s H delta B n = Ok o /\ ole_task_r H A n = Ok o' /\
    fits COle true o = true /\ fits COle false o' = true /\ pair_ok n o o') /\
  (f4_vole delta A B -> exists o o', f4_task_s H delta B = Ok o /\ f4_task_r H A = Ok o' /\
    fits CF4 true o = true /\ fits CF4 false o' = true /\ pair_ok n o o') /\
  (cot delta A B -> forall o, trit_task_s H delta B = Ok o -> exists o', trit_task_r H A = Ok o' /\
    fits CTrit true o = true /\ fits CTrit false o' = true /\ pair_ok n o o').
Proof.
  intros H delta A B n Hn HA. split; [intros HC; exact (ole_tasks H Hn HA HC)|]. split; [intros HC; exact (f4_tasks H Hn HA HC)|].
  intros HC o E. exact (trit_tasks Hn HA HC E).
Qed.
Print Assumptions C62_tasks.

(* the check of the OT batches with mDebug finds every mismatch, and only mismatches *)
Theorem C62_ot_debug : forall m m' c, length m = length m' -> length c = length m' ->
  (ot_debug (OutOtS m) (OutOtR m' c) = true <-> ots_match m m' c).
Proof. exact ot_debug_iff. Qed.
Print Assumptions C62_ot_debug.

(* sessions of the PRF on correlations from the batches: C61_sessions_partial with no assumption
   on the correlations but that the batches hold valid ones; each request gets the parts of the
   batches' outputs its segments name *)
Theorem C61_on_batches_partial : forall G B A M p fuel dbg sd outs outs' party f4 bs c g0 gF gF' segss l qs g g' s r,
  params_ok G A -> prf_make G B A = Ok p -> f3_getMatrix 512 256 A = Ok M ->
  gens_at dbg bs qs g g' -> gen_init c bs = Ok g0 ->
  requests dbg (qs ++ flat_map (fun x => plan f4 party (args_of x)) l) g0 = Ok (gF, segss) ->
  requests dbg (map mirror_q (qs ++ flat_map (fun x => plan f4 party (args_of x)) l)) g0 = Ok (gF', segss) ->
  store_ok (gBatches gF) outs outs' ->
  Forall (fun x => args_ok (args_of x) /\ inputs_ok (args_of x) (fst (snd x)) (snd (snd x))) l ->
  keygen_last l -> rooms dbg f4 party l g ->
  rvSize r = 0%N -> sdF4 s = f4 -> rvF4 r = f4 -> Forall (fun x => no_stale (args_of x) s r) l -> (f4 = false -> ole_even bs qs) ->
  let cs := cors_of (gBatches gF) outs in let cr := cors_of (gBatches gF') outs' in
  sessions dbg fuel p sd cs cr party l ((g, g'), (s, r)) = Hang \/
  exists ys s' r', sessions dbg fuel p sd cs cr party l ((g, g'), (s, r)) = Ok (ys, ((gF, gF'), (s', r'))) /\
    all_outputs G M B dbg f4 party cs l g ys /\
    forall u, In u (concat segss) -> cors_part cs outs u /\ cors_part cr outs' u.
Proof. exact sessions_from_store. Qed.
Print Assumptions C61_on_batches_partial.

(* ---------------- examples ---------------- *)

(* 256 OTs, then 1024 that straddle two batches, and 128 OLEs: fetched in different orders *)
Definition ex_qs : list (cortype * bool * N) := [(COt, true, 256%N); (COt, true, 1000%N); (COle, false, 100%N)].
Definition ex_segss : list (list segment) := [[Seg 0 0 256]; [Seg 0 256 768; Seg 1 0 256]; [Seg 2 0 128]].
Definition ex_aes (i : nat) : N := ex_rnd 3 (N.of_nat i).
Definition ex_bs : list batch := [Batch COt true 1024; Batch COt true 256; Batch COle false 128].

Lemma ex_ord : within [1; 0; 2; 1] ex_segss /\ within [2; 1; 1; 0] ex_segss /\
  turn ex_segss [1; 0; 2; 1] 3 = Some (Seg 1 0 256) /\ turn ex_segss [2; 1; 1; 0] 2 = Some (Seg 1 0 256).
Proof.
  split; [|split; [|split; reflexivity]]; intros [|[|[|i]]]; vm_compute; try lia; destruct i; vm_compute; lia.
Qed.

Example C62_delivery_ex :
  (exists g, requests true ex_qs (gen0 1024) = Ok (g, ex_segss) /\ gBatches g = ex_bs) /\
  (exists g', requests true (map mirror_q ex_qs) (gen0 1024) = Ok (g', ex_segss)) /\
  (exists outs outs', mock_store true (fun i => ex_aes i mod 2 ^ 128)%N 0 ex_bs = Ok outs /\ store_ok ex_bs outs outs').
Proof.
  split; [|split].
  - assert (X : exists g segss, requests true ex_qs (gen0 1024) = Ok (g, segss) /\ (segss = ex_segss /\ gBatches g = ex_bs)).
    { apply run_ex. vm_compute. split; reflexivity. }
    destruct X as (g & segss & E & -> & Hb). exists g. auto.
  - assert (X : exists g segss, requests true (map mirror_q ex_qs) (gen0 1024) = Ok (g, segss) /\ segss = ex_segss).
    { apply run_ex. vm_compute. reflexivity. }
    destruct X as (g & segss & E & ->). exists g. exact E.
  - destruct (@C62_mock true (fun i => ex_aes i mod 2 ^ 128)%N ex_bs) as (outs & outs' & E1 & _ & E3).
    + intros i. apply N.mod_lt. discriminate.
    + repeat constructor.
    + exists outs, outs'. auto.
Qed.

Lemma ex_mocked all : Forall (fun q => (snd q <= 2 ^ 64 - 256)%N) all -> exists gF gF' segss outs outs',
  requests true all (gen0 1024) = Ok (gF, segss) /\ requests true (map mirror_q all) (gen0 1024) = Ok (gF', segss) /\
  mock_store true (fun i => ex_aes i mod 2 ^ 128)%N 0 (gBatches gF) = Ok outs /\
  mock_store true (fun i => ex_aes i mod 2 ^ 128)%N 0 (gBatches gF') = Ok outs' /\ store_ok (gBatches gF) outs outs'.
Proof.
  intros Hq. assert (Hg : gen_init 2 1024 = Ok (gen0 1024)) by reflexivity.
  destruct (@C37_requests_partial 2 1024 (gen0 1024) true all Hg eq_refl Hq) as (gF & segss & E & _ & _ & HB).
  pose proof (@C38_mirror 2 1024 (gen0 1024) (gen0 1024) true all Hg Hg) as HM. rewrite E in HM.
  destruct (requests true (map mirror_q all) (gen0 1024)) as [[gF' segss']| | |] eqn:E'; try contradiction.
  destruct HM as [-> HB'].
  destruct (@C62_mock true (fun i => ex_aes i mod 2 ^ 128)%N (gBatches gF)) as (outs & outs' & M1 & M2 & M3).
  { intros i. apply N.mod_lt. discriminate. }
  { eapply Forall_impl; [|exact HB]. intros b [[_ H1] H2]. split; [exact H2|]. eapply N.le_lt_trans; [exact H1|reflexivity]. }
  exists gF, gF', segss, outs, outs'. rewrite HB'. auto 10.
Qed.

(* the sessions of C61_sessions_ex after earlier requests, on mock correlations *)
Example C61_on_batches_ex : forall f4 party, exists gF gF' segss outs outs',
  let qs := [(CF4, true, 300%N); (COle, false, 256%N)] in let all := qs ++ flat_map (fun x => plan f4 party (args_of x)) ex_list in
  ((exists g g', gens_at true 1024 qs g g') /\ gen_init 2 1024 = Ok (gen0 1024)) /\
  requests true all (gen0 1024) = Ok (gF, segss) /\ requests true (map mirror_q all) (gen0 1024) = Ok (gF', segss) /\
  mock_store true (fun i => ex_aes i mod 2 ^ 128)%N 0 (gBatches gF) = Ok outs /\
  mock_store true (fun i => ex_aes i mod 2 ^ 128)%N 0 (gBatches gF') = Ok outs' /\ store_ok (gBatches gF) outs outs'.
Proof.
  intros f4 party.
  destruct (@ex_mocked ([(CF4, true, 300%N); (COle, false, 256%N)] ++ flat_map (fun x => plan f4 party (args_of x)) ex_list)) as (gF & gF' & segss & outs & outs' & H).
  { assert (X : forallb (fun q => snd q <=? 2 ^ 64 - 256)%N ([(CF4, true, 300%N); (COle, false, 256%N)] ++ flat_map (fun x => plan f4 party (args_of x)) ex_list) = true)
      by (destruct f4, party; vm_compute; reflexivity).
    apply Forall_forall. intros q Hi. apply N.leb_le. exact (proj1 (forallb_forall _ _) X q Hi). }
  exists gF, gF', segss, outs, outs'. cbv zeta. split; [|exact H]. split; [|reflexivity].
  apply ex_gens; [reflexivity|split; intros X; discriminate|].
  constructor; [intros X; discriminate|]. constructor; [intros X; discriminate|constructor].
Qed.

Example C62_batch_count_ex : batch_count 1024 (round128 1000) = 2%N /\ length (nth 1 ex_segss []) = 2.
Proof. vm_compute. auto. Qed.

Definition ex4_cs := map (fun i => N.of_nat (i mod 4)) (seq 0 128).
Definition ex4_Bs := map (fun i => 20%N) (seq 0 128).
Lemma ex4_vole : f4_vole 0xB1 (map2 (vole_entry 0xB1) ex4_cs ex4_Bs) ex4_Bs.
Proof.
  apply f4_vole_intro; [reflexivity| |reflexivity|].
  - intros c Hc. apply in_map_iff in Hc. destruct Hc as (i & <- & _). pose proof (Nat.mod_upper_bound i 4 ltac:(lia)). lia.
  - intros b Hb. apply in_map_iff in Hb. destruct Hb as (i & <- & _). reflexivity.
Qed.

Example C62_tasks_ex : (128 mod 128 = 0)%N /\ length PropsCompress.ex_A = N.to_nat 128 /\ cot ex_delta PropsCompress.ex_A ex_B /\
  f4_vole 0xB1 (map2 (vole_entry 0xB1) ex4_cs ex4_Bs) ex4_Bs /\
  exists a m, ole_task_r ex_H PropsCompress.ex_A 128 = Ok (OutOle a m) /\ (nth 0 m 0 mod 2 ^ 8 = 0x92)%N.
Proof.
  split; [reflexivity|]. split; [reflexivity|]. split; [apply C42_ex|]. split; [exact ex4_vole|].
  destruct (ole_task_r ex_H PropsCompress.ex_A 128) as [[| |a m| | | |]| | |] eqn:E; try (exfalso; vm_compute in E; discriminate).
  exists a, m. split; [reflexivity|]. vm_compute in E. injection E as _ <-. vm_compute. reflexivity.
Qed.

Example C62_ot_debug_ex : ot_debug (OutOtS [(1, 2); (3, 4)]%N) (OutOtR [2; 3]%N [true; false]) = true /\
  ot_debug (OutOtS [(1, 2); (3, 4)]%N) (OutOtR [2; 3]%N [true; true]) = false.
Proof. vm_compute. auto. Qed.

(* ---------------- C63 ---------------- *)

(* the exchange of the requests always comes to an end: no party sends forever *)
Theorem C63_ends : forall a b x, dsteps a b (dparty0, dparty0) x -> exists y, dsteps a b x y /\ stuck a b y.
Proof. exact compare_total. Qed.
Print Assumptions C63_ends.

(* when both parties have requests, and their numbers differ by at most one, both leave the loop
   with the other's requests, and both throw unless the requests fit.  Missing from C63: the other
   numbers of requests, see below. *)
Theorem C63_compare_partial : forall a b p q, dsteps a b (dparty0, dparty0) (p, q) -> stuck a b (p, q) ->
  a <> [] -> b <> [] -> length a <= S (length b) -> length b <= S (length a) ->
  dPhase p = DOut /\ dPhase q = DOut /\
  (reqs_match a b -> dcheck a p = Ok tt /\ dcheck b q = Ok tt) /\
  (~ reqs_match a b -> dcheck a p = Throw /\ dcheck b q = Throw).
Proof.
  intros a b p q H HS Ha Hb L1 L2.
  destruct (compare_end H HS) as (C & _). destruct (C Ha Hb L1) as [P1 T1].
  pose proof (dsteps_swap H) as H'. cbn [fst snd] in H'.
  destruct (compare_end H' (conj (proj2 HS) (proj1 HS))) as (C' & _). destruct (C' Hb Ha L2) as [P2 T2].
  destruct (dcheck_iff a T1) as [D1 D2]. destruct (dcheck_iff b T2) as [D1' D2'].
  assert (Hs : reqs_match b a <-> reqs_match a b).
  { unfold reqs_match. split; intros <-; apply mirror_twice. }
  split; [exact P1|]. split; [exact P2|]. split; intros X; split; tauto.
Qed.
Print Assumptions C63_compare_partial.

(* finding: the loop's counter is overwritten by the inner loop.  A party with at least two requests
   more than the other, or with requests when the other has none, waits forever for a second (first)
   message: the mismatch this check is for is not reported *)
Theorem C63_unequal_refuted : forall a b p q, dsteps a b (dparty0, dparty0) (p, q) -> stuck a b (p, q) ->
  S (length b) < length a \/ (a <> [] /\ b = []) -> dPhase p = DWait.
Proof.
  intros a b p q H HS L. destruct (compare_end H HS) as (_ & C1 & C2 & _). destruct L as [L|[L1 L2]].
  - destruct b as [|x b].
    + apply C2; [|reflexivity]. intros ->. cbn in L. lia.
    + apply C1; [discriminate|exact L].
  - exact (C2 L1 L2).
Qed.
Print Assumptions C63_unequal_refuted.

(* finding: a party without requests compares nothing and goes on *)
Theorem C63_none_refuted : forall b p q, dsteps [] b (dparty0, dparty0) (p, q) -> stuck [] b (p, q) ->
  dPhase p = DOut /\ dcheck [] p = Ok tt.
Proof.
  intros b p q H HS. destruct (compare_end H HS) as (_ & _ & _ & C). destruct (C eq_refl) as [P T]. split; [exact P|].
  unfold dcheck. rewrite T. reflexivity.
Qed.
Print Assumptions C63_none_refuted.

(* one, two and three requests against one *)
Definition ex_r1 : req := (COt, true, 256%N).
Definition ex_r2 : req := (COt, false, 256%N).
Example C63_compare_ex : exists p q, dsteps [ex_r1; ex_r1] [ex_r2] (dparty0, dparty0) (p, q) /\ stuck [ex_r1; ex_r1] [ex_r2] (p, q) /\
  dcheck [ex_r1; ex_r1] p = Throw /\ dcheck [ex_r2] q = Throw /\ reqs_match [ex_r1] [ex_r2].
Proof.
  destruct (C63_ends (ds_refl [ex_r1; ex_r1] [ex_r2] (dparty0, dparty0))) as ([p q] & H & HS). exists p, q.
  split; [exact H|]. split; [exact HS|].
  destruct (C63_compare_partial H HS) as (_ & _ & _ & C); [discriminate|discriminate|cbn; lia|cbn; lia|].
  destruct C as [C1 C2]; [discriminate|]. split; [exact C1|]. split; [exact C2|reflexivity].
Qed.

Example C63_unequal_ex : exists p q, dsteps [ex_r1; ex_r1; ex_r1] [ex_r2] (dparty0, dparty0) (p, q) /\
  stuck [ex_r1; ex_r1; ex_r1] [ex_r2] (p, q) /\ dPhase p = DWait /\ dPhase q = DOut.
Proof.
  destruct (C63_ends (ds_refl [ex_r1; ex_r1; ex_r1] [ex_r2] (dparty0, dparty0))) as ([p q] & H & HS). exists p, q.
  split; [exact H|]. split; [exact HS|]. split.
  - apply (C63_unequal_refuted H HS). left. cbn. lia.
  - pose proof (dsteps_swap H) as H'. cbn [fst snd] in H'.
    destruct (compare_end H' (conj (proj2 HS) (proj1 HS))) as (C' & _). apply C'; [discriminate|discriminate|cbn; lia].
Qed.
