(* C37-C41: the correlation generator. *)
From Verif Require Import Base CorGenModel CorGenSpec CorGenProofs CorStartProofs.
From Coq Require Import Permutation.

(* for the examples: evaluate first, then look at the result *)
Lemma run_ex {A B} (o : outcome (A * B)) (P : A -> B -> Prop) :
  match o with Ok (a, b) => P a b | _ => False end -> exists a b, o = Ok (a, b) /\ P a b.
Proof. destruct o as [[a b]| | |]; intros H; try contradiction. eauto. Qed.

Definition gen0 (bs : N) : gen := Gen bs [] (fun _ _ => None).

(* ---------------- C37 ---------------- *)

(* For batch sizes that are multiples of 128: every history of requests succeeds, every request is
   served with segments of its type and role adding up to its size rounded up, all segments of all
   requests together tile the batches, and no batch exceeds the limit or is empty. *)
(* Missing: batch sizes that are no multiple of 128, for which it is false (C37_unaligned_refuted). *)
Theorem C37_requests_partial c bs g dbg qs :
  gen_init c bs = Ok g -> (bs mod 128 = 0)%N -> Forall (fun q => (snd q <= 2 ^ 64 - 256)%N) qs ->
  exists g' segss, requests dbg qs g = Ok (g', segss) /\
    Forall2 (served (gBatches g')) qs segss /\ tiles (concat segss) (gBatches g') /\
    Forall (fun b => (0 < bSize b <= bs)%N /\ (bSize b mod 128 = 0)%N) (gBatches g').
Proof.
  intros Hg Hm Hq. destruct (gen_init_inv Hg Hm) as [Hb [He Hi]].
  destruct (@requests_ok dbg (bs / 128)%N qs g [] Hi Hq) as [g' [segss [E [I [_ [V P]]]]]].
  { rewrite He. intros b x Hx. destruct b; discriminate. }
  exists g', segss. split; [exact E|split; [exact V|split; [exact (gi_tiles I)|]]].
  apply Forall_forall. intros x Hx. apply In_nth_error in Hx. destruct Hx as [i Hx].
  destruct (gi_size I Hx) as [H1 H2]. split; [split; [exact (P _ _ Hx)|]|exact H2].
  destruct (mod_mult128 Hm) as [k Hk]. rewrite Hk in H1. rewrite (N.mul_comm 128 k), N.div_mul in H1 by lia. lia.
Qed.
Print Assumptions C37_requests_partial.

(* In particular two segments of the same batch, of the same or different requests, do not overlap
   and each lies inside its batch. *)
(* Missing: batch sizes that are no multiple of 128. *)
Theorem C37_disjoint_partial c bs g dbg qs g' segss :
  gen_init c bs = Ok g -> (bs mod 128 = 0)%N -> Forall (fun q => (snd q <= 2 ^ 64 - 256)%N) qs ->
  requests dbg qs g = Ok (g', segss) ->
  (forall s, In s (concat segss) -> (sBegin s + sSize s <= batch_size (gBatches g') (sBatch s))%N) /\
  (forall i j s u, nth_error (concat segss) i = Some s -> nth_error (concat segss) j = Some u -> i <> j ->
    sBatch s = sBatch u -> (sBegin s + sSize s <= sBegin u \/ sBegin u + sSize u <= sBegin s)%N).
Proof.
  intros Hg Hm Hq E. destruct (@C37_requests_partial c bs g dbg qs Hg Hm Hq) as [g1 [s1 [E1 [V [T _]]]]].
  rewrite E in E1. injection E1 as <- <-.
  assert (Hp : Forall (fun s => (0 < sSize s)%N) (concat segss)).
  { clear - V. induction V as [|[[t r] n] segs qs segss H _ IH]; cbn; [constructor|].
    apply Forall_app. split; [|assumption]. destruct H as [_ H]. eapply Forall_impl; [|exact H]. intros s [? _]. assumption. }
  split.
  - intros s Hs. apply (tiles_inside T Hs). rewrite Forall_forall in Hp. auto.
  - apply (tiles_disjoint T Hp).
Qed.
Print Assumptions C37_disjoint_partial.

(* Batch size 1024, OT requests of 100 and 1500 interleaved with an OLE request. *)
Example C37_ex : gen_init 4 1024 = Ok (gen0 1024) /\
  exists g' segss, requests true [(COt, true, 100%N); (COle, false, 300%N); (COt, true, 1500%N)] (gen0 1024) = Ok (g', segss) /\
    segss = [[Seg 0 0 128]; [Seg 1 0 384]; [Seg 0 128 896; Seg 2 0 640]] /\
    gBatches g' = [Batch COt true 1024; Batch COle false 384; Batch COt true 640].
Proof. split; [reflexivity|]. apply run_ex. vm_compute. split; reflexivity. Qed.

(* FINDING.  GenState accepts batch sizes that are not multiples of 128 (CorGenerator.h:30-33 only
   checks the range).  Then any request of at least the batch size fails the assert of
   CorGenerator.cpp:113 in a debug build; *)
Theorem C37_unaligned_debug_refuted c bs g t r n :
  gen_init c bs = Ok g -> (bs mod 128 <> 0)%N -> (bs <= n)%N -> (n <= 2 ^ 64 - 256)%N ->
  request true t r n g = UB.
Proof. apply unaligned_debug. Qed.
Print Assumptions C37_unaligned_debug_refuted.

(* and in a release build the subtraction batchSize - mSize wraps: the whole request, however large,
   lands in one batch, which exceeds the limit and stays open. *)
Theorem C37_unaligned_release_refuted c bs g t r n :
  gen_init c bs = Ok g -> (bs mod 128 <> 0)%N -> (bs <= n)%N -> (n <= 2 ^ 63)%N ->
  exists g' segs x, request false t r n g = Ok (g', segs) /\
    nth_error (gBatches g') 0 = Some x /\ length (gBatches g') = 1 /\ (n <= bSize x)%N /\
    gOpen g' t r = Some 0.
Proof. apply unaligned_release. Qed.
Print Assumptions C37_unaligned_release_refuted.

(* the statement of C37 does fail for such a batch size *)
Theorem C37_unaligned_refuted : exists c bs g qs g' segss, gen_init c bs = Ok g /\
  requests false qs g = Ok (g', segss) /\ Exists (fun b => (bs < bSize b)%N) (gBatches g').
Proof.
  exists 1%N, 1025%N, (gen0 1025), [(COt, true, 4000%N)].
  enough (exists g' segss, requests false [(COt, true, 4000%N)] (gen0 1025) = Ok (g', segss) /\
    exists x, nth_error (gBatches g') 0 = Some x /\ bSize x = 4096%N) as [g' [segss [E [x [Hx Hs]]]]].
  { exists g', segss. split; [reflexivity|split; [exact E|]]. apply Exists_exists. exists x.
    split; [eapply nth_error_In; exact Hx|]. rewrite Hs. reflexivity. }
  apply run_ex. vm_compute. eexists. split; reflexivity.
Qed.
Print Assumptions C37_unaligned_refuted.

(* Segments need not be a multiple of 256 correlations even though every request is: this is how
   the odd segments of C20_odd_segment_refuted and C51_ole_odd_segment_refuted arise. *)
Theorem C37_odd_segment_reachable :
  gen_init 1 1024 = Ok (gen0 1024) /\ exists g' segss,
  requests true [(COle, false, 128%N); (COle, false, 1024%N)] (gen0 1024) = Ok (g', segss) /\
  segss = [[Seg 0 0 128]; [Seg 0 128 896; Seg 1 0 128]].
Proof. split; [reflexivity|]. apply run_ex. vm_compute. reflexivity. Qed.
Print Assumptions C37_odd_segment_reachable.

(* ---------------- C38 ---------------- *)

(* Party 1 issues the same requests with the complementary roles (BinOle requests carry the party
   index as their role).  Then the two parties fail alike or get the same segments in the same
   batches, and batch by batch the types and sizes agree and the roles differ. *)
Theorem C38_mirror c bs g0 g1 dbg qs :
  gen_init c bs = Ok g0 -> gen_init c bs = Ok g1 ->
  match requests dbg qs g0, requests dbg (map mirror_q qs) g1 with
  | Ok (g, segss), Ok (g', segss') => segss' = segss /\ gBatches g' = map mirror_b (gBatches g)
  | Throw, Throw | UB, UB | Hang, Hang => True
  | _, _ => False
  end.
Proof.
  intros H0 H1. assert (g1 = g0) by congruence. subst g1.
  assert (Hm : mirrored g0 g0).
  { destruct (gen_init_eq H0) as [-> _]. split; [reflexivity|split; reflexivity]. }
  pose proof (@requests_mirror dbg qs g0 g0 Hm) as H.
  destruct (requests dbg qs g0) as [[g s]| | |]; destruct (requests dbg (map mirror_q qs) g0) as [[g' s']| | |];
    cbn [mirror_out] in H; try contradiction; try exact I.
  destruct H as [[_ [HB _]] ->]. auto.
Qed.
Print Assumptions C38_mirror.

(* The k-th get() of the i-th request: both parties throw, or both receive the same segment, cut
   from batches of the same type with complementary roles. *)
Theorem C38_get c bs g0 g1 dbg qs g segss g' segss' i k segs :
  gen_init c bs = Ok g0 -> gen_init c bs = Ok g1 ->
  requests dbg qs g0 = Ok (g, segss) -> requests dbg (map mirror_q qs) g1 = Ok (g', segss') ->
  nth_error segss i = Some segs ->
  nth_error segss' i = Some segs /\
  (length segs <= k -> req_get segs k = Throw) /\
  forall s k', req_get segs k = Ok (s, k') -> k' = S k /\ nth_error segs k = Some s /\
    forall x, nth_error (gBatches g) (sBatch s) = Some x ->
      exists y, nth_error (gBatches g') (sBatch s) = Some y /\ bType y = bType x /\
        bSender y = negb (bSender x) /\ bSize y = bSize x.
Proof.
  intros H0 H1 E0 E1 Hs. pose proof (@C38_mirror c bs g0 g1 dbg qs H0 H1) as H. rewrite E0, E1 in H.
  destruct H as [-> HB]. split; [assumption|split].
  - intros Hk. unfold req_get, throw_if. replace (length segs <=? k) with true by (symmetry; apply Nat.leb_le; assumption). reflexivity.
  - intros s k' Hg. unfold req_get, throw_if, get in Hg. destruct (length segs <=? k); [discriminate|]. cbn [bind] in Hg.
    destruct (nth_error segs k) as [u|]; cbn [bind] in Hg; [|discriminate]. injection Hg as <- <-.
    split; [reflexivity|split; [reflexivity|]]. intros x Hx. rewrite HB, nth_error_map, Hx. eexists. split; [reflexivity|]. cbn. auto.
Qed.
Print Assumptions C38_get.

Example C38_ex :
  gen_init 2 1024 = Ok (gen0 1024) /\
  (exists g segss, requests true [(COt, true, 1100%N); (COle, false, 10%N); (COt, false, 5%N)] (gen0 1024) = Ok (g, segss) /\
     segss = [[Seg 0 0 1024; Seg 1 0 128]; [Seg 2 0 128]; [Seg 3 0 128]] /\
     gBatches g = [Batch COt true 1024; Batch COt true 128; Batch COle false 128; Batch COt false 128]) /\
  (exists g segss, requests true [(COt, false, 1100%N); (COle, true, 10%N); (COt, true, 5%N)] (gen0 1024) = Ok (g, segss) /\
     segss = [[Seg 0 0 1024; Seg 1 0 128]; [Seg 2 0 128]; [Seg 3 0 128]] /\
     gBatches g = [Batch COt false 1024; Batch COt false 128; Batch COle true 128; Batch COt true 128]) /\
  req_get [Seg 0 0 1024; Seg 1 0 128] 1 = Ok (Seg 1 0 128, 2).
Proof.
  split; [reflexivity|split; [|split; [|reflexivity]]]; apply run_ex; vm_compute; split; reflexivity.
Qed.

(* ---------------- C39 ---------------- *)

(* In every reachable state, under every interleaving of any number of start() and abort() calls:
   no start event is set twice, and only batches up to the largest one asked for are set. *)
Theorem C39_at_most_once n ts s ts' M :
  Forall fresh ts -> Forall (fun t => forall b, target t = Some b -> b < M) ts ->
  steps (shared0 n, ts) (s, ts') ->
  NoDup (set_events s) /\ Forall (fun i => i < M) (set_events s).
Proof.
  intros Hf HM Hs. destruct (steps_nsteps Hs) as [k Hk].
  destruct (@tinv_nsteps k (wants ts) _ _ Hk (tinv_init n Hf)) as [Hi _]. cbn [fst snd] in Hi.
  pose proof (ti_log Hi) as HP.
  assert (HW : Forall (fun b => b < M) (wants ts)).
  { apply Forall_forall. intros b Hb. unfold wants in Hb. apply in_flat_map in Hb. destruct Hb as [t [Ht Hb]].
    rewrite Forall_forall in HM. apply (HM t Ht). destruct (target t); [|contradiction]. destruct Hb as [->|[]]. reflexivity. }
  destruct (ti_bound Hi HW) as [Hle _]. split.
  - assert (Hnd : NoDup (set_events s ++ pending ts')).
    { eapply Permutation_NoDup; [apply Permutation_sym; exact HP|apply seq_NoDup]. }
    clear - Hnd. revert Hnd. generalize (set_events s). induction l as [|x l IH]; cbn; intros H; [constructor|].
    inversion H; subst. constructor; [|auto]. intros Hx. apply H2. apply in_or_app. auto.
  - apply Forall_forall. intros i Hx. assert (Hin : In i (seq 0 (shIdx s))).
    { eapply Permutation_in; [exact HP|]. apply in_or_app. auto. }
    apply in_seq in Hin. lia.
Qed.
Print Assumptions C39_at_most_once.

(* When all calls have returned, exactly the batches up to the largest one asked for have been set,
   each exactly once. *)
Theorem C39_exactly_once n ts s ts' m :
  Forall fresh ts -> (exists t, In t ts /\ target t = Some m) ->
  Forall (fun t => forall b, target t = Some b -> b <= m) ts ->
  steps (shared0 n, ts) (s, ts') -> Forall (fun t => t = TDone) ts' ->
  Permutation (set_events s) (seq 0 (S m)).
Proof.
  intros Hf [t0 [Ht0 Hm0]] HM Hs Hd. destruct (steps_nsteps Hs) as [k Hk].
  destruct (@tinv_nsteps k (wants ts) _ _ Hk (tinv_init n Hf)) as [Hi _]. cbn [fst snd] in Hi.
  pose proof (ti_log Hi) as HP. rewrite (done_pending Hd), app_nil_r in HP. rewrite HP.
  assert (HW : Forall (fun b => b < S m) (wants ts)).
  { apply Forall_forall. intros b Hb. unfold wants in Hb. apply in_flat_map in Hb. destruct Hb as [t [Ht Hb]].
    rewrite Forall_forall in HM. specialize (HM t Ht). destruct (target t); [|contradiction].
    destruct Hb as [->|[]]. specialize (HM b eq_refl). lia. }
  destruct (ti_bound Hi HW) as [Hle _].
  assert (Hin : In m (wants ts)).
  { unfold wants. apply in_flat_map. exists t0. split; [assumption|]. rewrite Hm0. left. reflexivity. }
  destruct (ti_want Hi Hin) as [?|[t [Ht Htm]]].
  - replace (shIdx s) with (S m) by lia. reflexivity.
  - exfalso. rewrite Forall_forall in Hd. rewrite (Hd t Ht) in Htm. discriminate.
Qed.
Print Assumptions C39_exactly_once.

(* Every interleaving gets there: a state in which no step is possible has all calls returned, and
   there is a bound on the number of steps (the compare-exchange loops cannot go on for ever). *)
Theorem C39_terminates n ts M :
  Forall fresh ts -> Forall (fun b => b < M) (wants ts) ->
  (forall k x, nsteps k (shared0 n, ts) x -> k <= length ts * (2 * M + 5)) /\
  (forall x, steps (shared0 n, ts) x -> (forall y, ~ step x y) -> Forall (fun t => t = TDone) (snd x)).
Proof.
  intros Hf HM. split.
  - intros k x Hk. destruct (@tinv_nsteps k (wants ts) _ _ Hk (tinv_init n Hf)) as [_ Ht]. cbn [fst snd] in Ht.
    pose proof (total_fresh Hf HM). lia.
  - intros [s ts'] _ Hno. cbn [snd]. apply Forall_forall. intros t Ht.
    destruct (tstep s t) as [[s1 t1]|] eqn:E.
    + exfalso. apply in_split in Ht. destruct Ht as [l [r ->]]. apply (Hno (s1, l ++ t1 :: r)). constructor. exact E.
    + destruct t as [b|ab b|ab b i|ab b i|b|]; cbn [tstep] in E; try discriminate E; [| |reflexivity].
      * destruct (nth b (shStarted s) false); discriminate E.
      * destruct (b <? i); [discriminate E|]. destruct (shIdx s =? i); discriminate E.
Qed.
Print Assumptions C39_terminates.

(* two threads racing for the same batches *)
Example C39_ex : exists s, steps (shared0 3, [TStart 1; TStart 2]) (s, [TDone; TDone]) /\ set_events s = [0; 1; 2].
Proof.
  exists (Shared 3 [false; true; true] [(0, false); (1, false); (2, false)]). split.
  - apply (run_steps (sch := [0; 0; 1; 1; 0; 1; 1; 0; 1; 0; 0; 0; 1; 1; 1; 1])). vm_compute. reflexivity.
  - reflexivity.
Qed.

(* FINDING.  The assert in Batch::start (Batch.cpp:40) can fail: a thread that starts batch 0 while
   another one, starting batch 1, has won the compare-exchange for index 0 but not yet called
   mStart.set(), leaves startBatch with its own start event unset. *)
Theorem C39_assert_refuted : exists s ts',
  steps (shared0 2, [TStart 1; TStart 0]) (s, ts') /\ nth_error ts' 1 = Some (TAssert 0) /\ ~ In 0 (set_events s).
Proof.
  exists (Shared 1 [true; true] []), [TSet false 1 0; TAssert 0].
  split; [apply (run_steps (sch := [0; 0; 0; 1; 1; 1])); vm_compute; reflexivity|].
  split; [reflexivity|]. cbn. auto.
Qed.
Print Assumptions C39_assert_refuted.

(* The events need not be set in index order. *)
Theorem C39_order_refuted : exists s, steps (shared0 2, [TStart 1; TStart 0]) (s, [TDone; TDone]) /\ set_events s = [1; 0].
Proof.
  exists (Shared 2 [true; true] [(1, false); (0, false)]).
  split; [apply (run_steps (sch := [1; 1; 1; 0; 0; 0; 0; 0; 0; 1; 1; 1])); vm_compute; reflexivity|]. reflexivity.
Qed.

(* abort() racing with start() can abort batch 0 and start batch 1. *)
Theorem C39_abort_gap : exists s, steps (shared0 2, [TStart 1; TLoad true 1]) (s, [TDone; TDone]) /\
  shLog s = [(0, true); (1, false)].
Proof.
  exists (Shared 2 [false; true] [(0, true); (1, false)]).
  split; [apply (run_steps (sch := [1; 1; 0; 0; 0; 1; 0; 0; 0; 1; 1])); vm_compute; reflexivity|]. reflexivity.
Qed.

(* ---------------- C40 ---------------- *)

(* With 1 <= c concurrent slots and any number of batches, any of them aborted: every batch that is
   not aborted is launched exactly once, in order; no launch happens in a slot whose task is still
   running and no running batch is freed; every batch is freed; in the end nothing is running. *)
Theorem C40_schedule c nB ab :
  0 < c -> (N.of_nat c <= 2 ^ 10)%N -> (N.of_nat nB <= 2 ^ 62)%N ->
  exists ev, start_loop c nB ab = Ok ev /\
    launches ev = filter (fun i => negb (ab i)) (seq 0 nB) /\ frees ev = seq 0 nB /\
    exists f, replay false c ev = Some f /\ forall s, f s = None.
Proof. intros. apply start_loop_ok; try assumption; [|discriminate]. eapply N.le_trans; [eassumption|]. discriminate. Qed.
Print Assumptions C40_schedule.

(* At every moment at most c tasks are running. *)
Theorem C40_concurrency c nB ab ev e1 e2 :
  0 < c -> (N.of_nat c <= 2 ^ 10)%N -> (N.of_nat nB <= 2 ^ 62)%N ->
  start_loop c nB ab = Ok ev -> ev = e1 ++ e2 ->
  exists f, replay false c e1 = Some f /\ live c f <= c /\ forall s, c <= s -> f s = None.
Proof.
  intros H1 H2 H3 E Ee. destruct (C40_schedule ab H1 H2 H3) as [ev' [E' [_ [_ [f [Hf _]]]]]].
  rewrite E in E'. injection E' as <-. rewrite Ee in Hf. destruct (replay_prefix Hf) as [f1 Hf1].
  exists f1. split; [assumption|split; [apply live_max|]].
  clear - Hf1. unfold replay in Hf1. revert Hf1.
  assert (HG : forall ev g, (forall s, c <= s -> g s = None) -> fold_left (live_step false c) ev (Some g) = Some f1 ->
     forall s, c <= s -> f1 s = None).
  { induction ev as [|e ev IH]; intros g Hg H; cbn [fold_left] in H.
    - injection H as <-. exact Hg.
    - destruct (live_step false c (Some g) e) as [g'|] eqn:Es; [|rewrite fold_live_none in H; discriminate].
      apply (IH g'); [|assumption]. intros s Hs. destruct e as [i sl|sl|j]; cbn [live_step] in Es.
      + destruct (Nat.ltb_spec sl c); [|discriminate]. destruct (g sl); [discriminate|]. injection Es as <-.
        destruct (Nat.eqb_spec s sl); [lia|auto].
      + destruct (g sl); injection Es as <-; [|auto]. destruct (s =? sl); auto.
      + destruct (existsb _ _); [discriminate|]. injection Es as <-. auto. }
  apply HG. intros; reflexivity.
Qed.
Print Assumptions C40_concurrency.

(* Without aborts every await is of a running task. *)
Theorem C40_awaits_once c nB :
  0 < c -> (N.of_nat c <= 2 ^ 10)%N -> (N.of_nat nB <= 2 ^ 62)%N ->
  exists ev, start_loop c nB (fun _ => false) = Ok ev /\ launches ev = seq 0 nB /\
    exists f, replay true c ev = Some f /\ forall s, f s = None.
Proof.
  intros. destruct (@start_loop_ok true c nB (fun _ => false)) as [ev [E [L [_ R]]]]; try assumption; try reflexivity.
  - eapply N.le_trans; [eassumption|]. discriminate.
  - exists ev. split; [assumption|split; [|assumption]]. rewrite L. cbn [negb].
    generalize (seq 0 nB). induction l as [|x l IH]; cbn; [reflexivity|]. rewrite IH. reflexivity.
Qed.
Print Assumptions C40_awaits_once.

Example C40_ex : start_loop 2 3 (fun _ => false) =
  Ok [ELaunch 0 0; ELaunch 1 1; EAwait 0; EFree 0; ELaunch 2 0; EAwait 1; EFree 1; EAwait 0; EFree 2].
Proof. vm_compute. reflexivity. Qed.
Example C40_few_ex : start_loop 4 1 (fun _ => false) = Ok [ELaunch 0 0; EAwait 0; EFree 0].
Proof. vm_compute. reflexivity. Qed.

(* FINDING.  After an abort a task that has already been awaited is awaited again: the slot of the
   skipped batch still holds the old task (CorGenerator.cpp:325-327 tests the handle only). *)
Theorem C40_double_await : exists ev, start_loop 1 2 (fun i => Nat.eqb i 1) = Ok ev /\
  ev = [ELaunch 0 0; EAwait 0; EFree 0; EAwait 0; EFree 1] /\ replay true 1 ev = None.
Proof. eexists. split; [vm_compute; reflexivity|split; vm_compute; reflexivity]. Qed.

(* ---------------- C41 ---------------- *)

(* The base correlations of the combined request have exactly the sizes that the batches take. *)
Definition base_fits {OT2 OT1 VA VB} (rs : list base_req) (c : base_cor OT2 OT1 VA VB) : Prop :=
  length (bcSend c) = rqSend (base_concat rs) /\ length (bcRecv c) = length (rqChoice (base_concat rs)) /\
  length (bcVoleA c) = length (rqVoleChoice (base_concat rs)) /\ length (bcVoleB c) = rqVoleSend (base_concat rs) /\
  ixSend c = 0 /\ ixRecv c = 0 /\ ixA c = 0 /\ ixB c = 0.

Lemma map_len_Forall2 {A B C} (f : A -> nat) (p : B -> list C) rs gs :
  Forall2 (fun r g => length (p g) = f r) rs gs -> map (@length C) (map p gs) = map f rs.
Proof. induction 1; cbn; congruence. Qed.

Lemma Forall2_weaken {A B} (P Q : A -> B -> Prop) l m : (forall a b, P a b -> Q a b) -> Forall2 P l m -> Forall2 Q l m.
Proof. intros H. induction 1; constructor; auto. Qed.

(* Every batch receives exactly its piece, in order, and nothing is left: asking for more throws.
   The choice bits of the combined request are those of the batches, in the same order. *)
Theorem C41_dealt OT2 OT1 VA VB rs (c : base_cor OT2 OT1 VA VB) :
  base_fits rs c ->
  rqChoice (base_concat rs) = concat (map rqChoice rs) /\
  rqVoleChoice (base_concat rs) = concat (map rqVoleChoice rs) /\
  exists gots c', dispense (map (fun r => (r, false)) rs) c = Ok (map Some gots, c') /\
    dealt (bcSend c) (map rqSend rs) (map (@gotSend _ _ _ _) gots) /\
    dealt (bcRecv c) (map (fun r => length (rqChoice r)) rs) (map (@gotRecv _ _ _ _) gots) /\
    dealt (bcVoleA c) (map (fun r => length (rqVoleChoice r)) rs) (map (@gotA _ _ _ _) gots) /\
    dealt (bcVoleB c) (map rqVoleSend rs) (map (@gotB _ _ _ _) gots) /\
    forall n, 0 < n -> bc_get (bcSend c') (ixSend c') n = Throw /\ bc_get (bcRecv c') (ixRecv c') n = Throw /\
      bc_get (bcVoleA c') (ixA c') n = Throw /\ bc_get (bcVoleB c') (ixB c') n = Throw.
Proof.
  intros [H1 [H2 [H3 [H4 [X1 [X2 [X3 X4]]]]]]].
  unfold base_concat in *. cbn [rqSend rqChoice rqVoleSend rqVoleChoice] in *.
  rewrite sum_send in H1. rewrite concat_choice in *. rewrite concat_vchoice in *. rewrite sum_vsend in H4.
  cbn [app Nat.add] in *.
  split; [reflexivity|split; [reflexivity|]].
  destruct (@dispense_ok OT2 OT1 VA VB rs c) as [gots [c' [E [-> [[P1 [P2 [P3 P4]]] F]]]]]; try lia.
  exists gots. eexists. split; [exact E|].
  cbn [ixSend ixRecv ixA ixB bcSend bcRecv bcVoleA bcVoleB] in *.
  rewrite X1 in *. rewrite X2 in *. rewrite X3 in *. rewrite X4 in *. cbn [skipn Nat.add] in *.
  rewrite <- H1 in P1. rewrite <- H2 in P2. rewrite <- H3 in P3. rewrite <- H4 in P4.
  rewrite skipn_all, app_nil_r in P1. rewrite skipn_all, app_nil_r in P2.
  rewrite skipn_all, app_nil_r in P3. rewrite skipn_all, app_nil_r in P4.
  split; [split; [congruence|]|split; [split; [congruence|]|split; [split; [congruence|]|split; [split; [congruence|]|]]]].
  - apply map_len_Forall2. eapply Forall2_weaken; [|exact F]. cbv beta; tauto.
  - apply map_len_Forall2 with (f := fun r => length (rqChoice r)). eapply Forall2_weaken; [|exact F]. cbv beta; tauto.
  - apply map_len_Forall2 with (f := fun r => length (rqVoleChoice r)). eapply Forall2_weaken; [|exact F]. cbv beta; tauto.
  - apply map_len_Forall2. eapply Forall2_weaken; [|exact F]. cbv beta; tauto.
  - intros n Hn. unfold bc_get, throw_if. cbn [bcSend bcRecv bcVoleA bcVoleB ixSend ixRecv ixA ixB].
    rewrite <- H1, <- H2, <- H3, <- H4.
    repeat match goal with |- context [length ?l <? length ?l + n] =>
      replace (length l <? length l + n) with true by (symmetry; apply Nat.ltb_lt; lia) end.
    auto.
Qed.
Print Assumptions C41_dealt.

(* Both parties: if batch by batch one side asks for as many send OTs (VOLEs) as the other gave
   choices, and the generated base correlations are right position by position, then every batch
   pair receives right base correlations: its own choices with matching messages. *)
Theorem C41_two_party OT2 OT1 VA VB (ROt : bool * OT1 -> OT2 -> Prop) (RVole : N * VA -> VB -> Prop)
  rs0 rs1 (c0 c1 : base_cor OT2 OT1 VA VB) gots0 gots1 c0' c1' :
  base_fits rs0 c0 -> base_fits rs1 c1 ->
  map (fun r => length (rqChoice r)) rs0 = map rqSend rs1 ->
  map (fun r => length (rqVoleChoice r)) rs0 = map rqVoleSend rs1 ->
  Forall2 ROt (combine (rqChoice (base_concat rs0)) (bcRecv c0)) (bcSend c1) ->
  Forall2 RVole (combine (rqVoleChoice (base_concat rs0)) (bcVoleA c0)) (bcVoleB c1) ->
  dispense (map (fun r => (r, false)) rs0) c0 = Ok (map Some gots0, c0') ->
  dispense (map (fun r => (r, false)) rs1) c1 = Ok (map Some gots1, c1') ->
  Forall2 (fun rg g1 => Forall2 ROt (combine (rqChoice (fst rg)) (gotRecv (snd rg))) (gotSend g1) /\
     Forall2 RVole (combine (rqVoleChoice (fst rg)) (gotA (snd rg))) (gotB g1)) (combine rs0 gots0) gots1.
Proof.
  intros F0 F1 M1 M2 R1 R2 E0 E1.
  destruct (C41_dealt F0) as [K1 [K2 [g0 [d0 [D0 [_ [[A1 A2] [[B1 B2] _]]]]]]]].
  destruct (C41_dealt F1) as [_ [_ [g1 [d1 [D1 [[P1 P2] [_ [_ [[Q1 Q2] _]]]]]]]]].
  assert (Hinj : forall (a b : list (base_got OT2 OT1 VA VB)), map Some a = map Some b -> a = b).
  { induction a as [|x a IH]; intros [|y b] H; cbn in H; try discriminate; [reflexivity|]. injection H as -> H. f_equal. auto. }
  rewrite E0 in D0. rewrite E1 in D1.
  assert (g0 = gots0) by (apply Hinj; congruence). assert (g1 = gots1) by (apply Hinj; congruence). subst g0 g1.
  rewrite K1, <- A1 in R1. rewrite K2, <- B1 in R2. rewrite <- P1 in R1. rewrite <- Q1 in R2.
  rewrite combine_concat in R1 by (rewrite A2, map_map; reflexivity).
  rewrite combine_concat in R2 by (rewrite B2, map_map; reflexivity).
  assert (L0 : map (fun r => length (rqChoice r)) rs0 = map (fun g => length (gotRecv g)) gots0)
    by (rewrite <- A2, map_map; reflexivity).
  assert (L1 : map (fun r => length (rqVoleChoice r)) rs0 = map (fun g => length (gotA g)) gots0)
    by (rewrite <- B2, map_map; reflexivity).
  apply Forall2_pieces in R1.
  2:{ rewrite P2, <- M1. clear - L0. revert gots0 L0. induction rs0 as [|r rs IH]; intros [|g gs] H; cbn in *; try discriminate; [reflexivity|].
      injection H as H1 H2. rewrite IH by assumption. rewrite combine_length. f_equal. lia. }
  apply Forall2_pieces in R2.
  2:{ rewrite Q2, <- M2. clear - L1. revert gots0 L1. induction rs0 as [|r rs IH]; intros [|g gs] H; cbn in *; try discriminate; [reflexivity|].
      injection H as H1 H2. rewrite IH by assumption. rewrite combine_length. f_equal. lia. }
  clear - R1 R2. revert gots0 gots1 R1 R2. induction rs0 as [|r rs IH]; intros [|g gs] gots1 R1 R2; cbn in *;
    try (destruct gots1; [constructor|inversion R1]).
  destruct gots1 as [|g1 gots1]; cbn in *; inversion R1; subst; inversion R2; subst. constructor; [auto|].
  apply IH; assumption.
Qed.
Print Assumptions C41_two_party.

Example C41_ex :
  let rs := [BReq [true; false] 0 0 []; BReq [] 3 1 []; BReq [true] 0 0 [2%N]] in
  let c := BCor [11; 12; 13] [21; 22; 23] [31] [41] 0 0 0 0 in
  base_fits rs c /\ exists c', dispense (map (fun r => (r, false)) rs) c =
    Ok (map Some [Got [] [21; 22] [] []; Got [11; 12; 13] [] [] [41]; Got [] [23] [31] []], c').
Proof. cbv zeta. split; [repeat split; reflexivity|]. eexists. vm_compute. reflexivity. Qed.

(* If the aborted batches are the last ones, the others still get their own. *)
Theorem C41_abort_suffix OT2 OT1 VA VB rs ra (c : base_cor OT2 OT1 VA VB) :
  base_fits (rs ++ ra) c ->
  exists gots gall c' call,
    dispense (map (fun r => (r, false)) (rs ++ ra)) c = Ok (map Some gall, call) /\
    dispense (map (fun r => (r, false)) rs ++ map (fun r => (r, true)) ra) c = Ok (map Some gots ++ map (fun _ => None) ra, c') /\
    gots = firstn (length rs) gall.
Proof.
  intros HF. destruct (C41_dealt HF) as [_ [_ [gall [call [E _]]]]].
  destruct HF as [H1 [H2 [H3 [H4 [X1 [X2 [X3 X4]]]]]]].
  unfold base_concat in *. cbn [rqSend rqChoice rqVoleSend rqVoleChoice] in *.
  rewrite sum_send in H1. rewrite concat_choice in *. rewrite concat_vchoice in *. rewrite sum_vsend in H4.
  rewrite !map_app, !concat_app, ?list_sum_app in *. cbn [app Nat.add] in *.
  rewrite app_length in H2, H3.
  destruct (@dispense_ok OT2 OT1 VA VB rs c) as [gots [c' [E1 [Ec [_ F]]]]]; try lia.
  destruct (@dispense_ok OT2 OT1 VA VB ra c') as [gots2 [c2 [E2 _]]]; try (subst c'; cbn; lia).
  pose proof (dispense_app E1 E2) as E3. rewrite E in E3.
  exists gots, gall, c', call. split; [exact E|split].
  - eapply dispense_app; [exact E1|apply dispense_aborted].
  - assert (Hg : map Some gall = map Some gots ++ map Some gots2) by congruence.
    rewrite <- map_app in Hg.
    assert (Hinj : forall (a b : list (base_got OT2 OT1 VA VB)), map Some a = map Some b -> a = b).
    { induction a as [|x a IH]; intros [|y b] H; cbn in H; try discriminate; [reflexivity|]. injection H as -> H. f_equal. auto. }
    apply Hinj in Hg. subst gall.
    assert (HL : length rs = length gots) by (clear - F; induction F; cbn; congruence).
    rewrite HL, firstn_app, Nat.sub_diag, firstn_all, firstn_O, app_nil_r. reflexivity.
Qed.
Print Assumptions C41_abort_suffix.

(* FINDING.  When a batch before a started one is aborted (possible: C39_abort_gap), setBase is not
   called for it, and the next batch receives the aborted batch's base correlations: here batch 1
   uses the base OT generated for batch 0's choice bit. *)
Theorem C41_abort_gap_refuted :
  let rs := [BReq [true] 0 0 []; BReq [false] 0 0 []] in
  let c := BCor (@nil nat) [21; 22] (@nil nat) (@nil nat) 0 0 0 0 in
  base_fits rs c /\
  (exists c', dispense [(BReq [true] 0 0 [], false); (BReq [false] 0 0 [], false)] c =
     Ok ([Some (Got [] [21] [] []); Some (Got [] [22] [] [])], c')) /\
  (exists c', dispense [(BReq [true] 0 0 [], true); (BReq [false] 0 0 [], false)] c =
     Ok ([None; Some (Got [] [21] [] [])], c')).
Proof. cbv zeta. split; [repeat split; reflexivity|]. split; eexists; vm_compute; reflexivity. Qed.

Print Assumptions C39_order_refuted.
Print Assumptions C39_abort_gap.
Print Assumptions C40_double_await.
Print Assumptions C41_abort_gap_refuted.
