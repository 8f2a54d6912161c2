(* C61: sessions of the alternating moduli PRF: init, preprocess, evaluate, clear. *)
From Verif Require Import Base Words F3CodeModel ConvModel ConvSpec ConvProofs KeyMultModel KeyMultSpec PrfModel PrfSpec PropsPrf
  CorGenModel CorGenSpec CorGenProofs PropsCorGen SessionModel SessionSpec SessionProofs.

(* whatever the objects did before, with fitting arguments both init functions succeed and the two
   parties make the same requests in mirrored roles *)
Theorem C61_init : forall dbg sd party a bs qs g g' s r, gens_at dbg bs qs g g' -> args_ok a ->
  rvSize r = 0%N -> sdF4 s = rvF4 r -> no_stale a s r ->
  exists g1 g1' s1 r1 segss,
    send_init dbg sd party (aSize a) (aK a) (aI a) (aKey a) (aRots a) (aSots a) g s = Ok (g1, s1) /\
    recv_init dbg sd (negb party) (aSize a) (aK a) (aI a) (aShare a) (aSots' a) (aRots' a) g' r = Ok (g1', r1) /\
    requests dbg (plan (sdF4 s) party a) g = Ok (g1, segss) /\
    requests dbg (map mirror_q (plan (sdF4 s) party a)) g' = Ok (g1', segss) /\
    gens_at dbg bs (qs ++ plan (sdF4 s) party a) g1 g1'.
Proof. exact inits_total. Qed.
Print Assumptions C61_init.

(* a session, with or without preprocess, with keys passed in or generated, F4 OTs or OLEs: the
   outputs share the PRF of the joint inputs under the session's key, afterwards neither party
   evaluates again without init, and the next session may follow.  Hang: the trit sampler running
   out of fuel (C49-C52).  Missing from C61: old key requests (no_stale), key OTs that straddle two
   batches (key_room), OLE batches of an odd number of blocks (ole_even); all three fail, see
   C61_stale_fails, C61_straddle_fails and C51_ole_odd_segment_hangs. *)
Theorem C61_session_partial : forall G B A M p fuel dbg sd cs cr party pre a bs qs g g' s r xs xr, params_ok G A ->
  prf_make G B A = Ok p -> f3_getMatrix 512 256 A = Ok M ->
  gens_at dbg bs qs g g' -> args_ok a -> cors_ok cs cr -> inputs_ok a xs xr ->
  rvSize r = 0%N -> sdF4 s = rvF4 r -> no_stale a s r ->
  (aKey a = None -> key_room g) -> (sdF4 s = false -> ole_even bs qs) ->
  exists g1 g1' segss, requests dbg (plan (sdF4 s) party a) g = Ok (g1, segss) /\
    gens_at dbg bs (qs ++ plan (sdF4 s) party a) g1 g1' /\
    (session dbg fuel p sd cs cr party pre a xs xr ((g, g'), (s, r)) = Hang \/
     exists y s' r', session dbg fuel p sd cs cr party pre a xs xr ((g, g'), (s, r)) = Ok (y, ((g1, g1'), (s', r'))) /\
       outputs_ok G M B (session_key cs a (hd [] segss)) a xs xr y /\
       rvSize r' = 0%N /\ sdF4 s' = sdF4 s /\ rvF4 r' = rvF4 r /\
       (forall b, (aKey a = None -> aKey b = None) -> no_stale b s r -> no_stale b s' r') /\
       (aKey a = None -> exists q, mrReq (sdKR s') = Some q /\ cqSize q <> 0%N /\ length (cqSegs q) <= cqNext q) /\
       (forall nx ny, send_checks s' nx ny = Throw) /\ (forall nx ny, recv_checks r' nx ny = Throw)).
Proof. exact session_ok. Qed.
Print Assumptions C61_session_partial.

(* any number of sessions on the same objects and generators, under the same conditions *)
Theorem C61_sessions_partial : forall G B A M p fuel dbg sd cs cr party f4 bs, params_ok G A ->
  prf_make G B A = Ok p -> f3_getMatrix 512 256 A = Ok M -> cors_ok cs cr ->
  forall l qs g g' s r, gens_at dbg bs qs g g' ->
  Forall (fun x => args_ok (args_of x) /\ inputs_ok (args_of x) (fst (snd x)) (snd (snd x))) l ->
  keygen_last l -> rooms dbg f4 party l g ->
  rvSize r = 0%N -> sdF4 s = f4 -> rvF4 r = f4 -> Forall (fun x => no_stale (args_of x) s r) l -> (f4 = false -> ole_even bs qs) ->
  sessions dbg fuel p sd cs cr party l ((g, g'), (s, r)) = Hang \/
  exists ys g1 g1' s' r', sessions dbg fuel p sd cs cr party l ((g, g'), (s, r)) = Ok (ys, ((g1, g1'), (s', r'))) /\
    all_outputs G M B dbg f4 party cs l g ys /\
    gens_at dbg bs (qs ++ flat_map (fun x => plan f4 party (args_of x)) l) g1 g1'.
Proof. exact sessions_ok. Qed.
Print Assumptions C61_sessions_partial.

(* after clear on both sides there is nothing stale, for any arguments *)
Theorem C61_clear : forall a s r, no_stale a (send_clear s) (recv_clear r) /\ rvSize (recv_clear r) = 0%N /\
  sdF4 (send_clear s) = sdF4 s /\ rvF4 (recv_clear r) = rvF4 r /\
  (forall nx ny, recv_checks (recv_clear r) nx ny = Throw) /\ (forall nx ny, ny <> 0%N -> send_checks (send_clear s) nx ny = Throw).
Proof.
  intros a s r. split; [intros _; auto|]. split; [reflexivity|]. split; [reflexivity|]. split; [reflexivity|]. split; [reflexivity|].
  intros nx ny H. unfold send_checks, send_clear. cbn [sdI sdSize sdF4 sdReqF4 sdReqOle].
  destruct (negb (nx =? _)%N); [reflexivity|]. cbn [throw_if bind]. destruct (N.eqb_spec ny 0); [contradiction|reflexivity].
Qed.
Print Assumptions C61_clear.

(* finding: without clear, a session that is given its key after one that generated it never
   returns, whatever the arguments: the sender's old key request is still there and used up *)
Theorem C61_stale_fails : forall dbg fuel p sd cs cr party pre a xs xr g g' s r q, aKey a <> None ->
  mrReq (sdKR s) = Some q -> cqSize q <> 0%N -> length (cqSegs q) <= cqNext q ->
  forall o, session dbg fuel p sd cs cr party pre a xs xr ((g, g'), (s, r)) <> Ok o.
Proof. exact stale_fails. Qed.
Print Assumptions C61_stale_fails.

(* finding: key generation never returns when an OT batch is open that has not 512 OTs left *)
Theorem C61_straddle_fails : forall dbg fuel p sd cs cr party pre a xs xr bs qs g g' s r, aKey a = None ->
  gens_at dbg bs qs g g' -> cors_ok cs cr -> ~ key_room g ->
  forall o, session dbg fuel p sd cs cr party pre a xs xr ((g, g'), (s, r)) <> Ok o.
Proof. exact straddle_fails. Qed.
Print Assumptions C61_straddle_fails.

(* finding: for shared inputs keys cannot be generated, nor does the key mode SenderOnly work,
   though init accepts both *)
Theorem C61_shared_fails : forall dbg fuel p sd cs cr party pre a xs xr g g' s r, aI a = IShared ->
  aKey a = None \/ aK a = KSenderOnly -> msShare (sdKS s) = None ->
  forall o, session dbg fuel p sd cs cr party pre a xs xr ((g, g'), (s, r)) <> Ok o.
Proof. exact shared_fails. Qed.
Print Assumptions C61_shared_fails.

(* what preprocess starts *)
Theorem C61_preprocess : (forall s s', send_pre s = Ok s' ->
    (exists q, (if sdF4 s then sdReqF4 s' else sdReqOle s') = Some q /\ cqStarted q = true) /\
    (req_size (mrReq (sdKR s)) <> 0%N -> exists q, mrReq (sdKR s') = Some q /\ cqStarted q = true) /\ sdConv s' = sdConv s) /\
  (forall r r', recv_pre r = Ok r' ->
    (exists q, (if rvF4 r then rvReqF4 r' else rvReqOle r') = Some q /\ cqStarted q = true) /\ rvKS r' = rvKS r /\ rvConv r' = rvConv r).
Proof. split; [exact send_pre_starts|exact recv_pre_starts]. Qed.
Print Assumptions C61_preprocess.

(* the receiver's init: only an idle object, only a positive size.  The sender's has neither test. *)
Theorem C61_receiver_idle : forall dbg sd party size k i sh so ro g r o,
  recv_init dbg sd party size k i sh so ro g r = Ok o -> size <> 0%N /\ rvSize r = 0%N.
Proof. intros dbg sd party size k i sh so ro g r [g1 r1] E. destruct (recv_init_inv E) as (H1 & H2 & _). auto. Qed.
Print Assumptions C61_receiver_idle.

Definition ex_sd (x : N) : prng := Prng (ex_rnd x) 0.
Definition ex_bits (n : nat) : list bool := map (fun i => i mod 3 =? 1) (seq 0 n).
Definition ex_seeds (n : nat) : list (N * N) := map (fun i => (2 * N.of_nat i + 5, 2 * N.of_nat i + 6)%N) (seq 0 n).
Definition ex_chosen (n : nat) : list N := map (fun i => if i mod 3 =? 1 then (2 * N.of_nat i + 6)%N else (2 * N.of_nat i + 5)%N) (seq 0 n).
Definition ex_seg {A} (f : N -> A) (s : segment) : list A :=
  map (fun i => f (sBegin s + N.of_nat i)%N) (seq 0 (N.to_nat (sSize s / 128))).
Definition ex_f4 (i : N) : f4_s := F4S (ex_rnd 21 i) (ex_rnd 22 i) (ex_rnd 23 i) (ex_rnd 24 i).
Definition ex_tr1 (i : N) : trit_s := TritS (N.ones 7) 0 0 (N.ones 9).
Definition ex_cs : cors := Cors (fun _ => []) (fun s => (ex_chosen (N.to_nat (sSize s)), ex_bits (N.to_nat (sSize s))))
  (ex_seg ex_f4) (fun _ => []) (ex_seg (fun i => (ex_rnd 31 i, ex_rnd 32 i))) (ex_seg ex_tr1) (fun _ => []).
Definition ex_cr : cors := Cors (fun s => ex_seeds (N.to_nat (sSize s))) (fun _ => ([], []))
  (fun _ => []) (ex_seg (fun i => mk_f4_r (ex_f4 i) (ex_rnd 25 i) (ex_rnd 26 i)))
  (ex_seg (fun i => mk_ole (ex_rnd 31 i, ex_rnd 32 i) (ex_rnd 33 i))) (fun _ => []) (ex_seg (fun i => mk_trit_r (ex_tr1 i) (ex_rnd 27 i))).

Lemma ex_match n : ots_match (ex_seeds n) (ex_chosen n) (ex_bits n).
Proof.
  unfold ots_match, ex_seeds, ex_chosen, ex_bits. rewrite !map_length, seq_length. split; [reflexivity|]. split; [reflexivity|].
  intros i d Hi.
  assert (HM : forall A (f : nat -> A) x, nth i (map f (seq 0 n)) x = f i).
  { intros A f x. rewrite (nth_indep _ x (f 0)) by (rewrite map_length, seq_length; exact Hi). rewrite map_nth, seq_nth by exact Hi. reflexivity. }
  rewrite !HM. destruct (i mod 3 =? 1); reflexivity.
Qed.

Lemma ex_cors : cors_ok ex_cs ex_cr.
Proof.
  intros s. unfold ex_cs, ex_cr. cbn [cOtS cOtR cF4S cF4R cOle cTrS cTrR fst snd].
  assert (HL : forall A (f : N -> A), length (ex_seg f s) = N.to_nat (sSize s / 128)) by (intros; unfold ex_seg; rewrite map_length, seq_length; reflexivity).
  assert (HF : forall A C (R : A -> C -> Prop) f h, (forall i, R (f i) (h i)) -> Forall2 R (ex_seg f s) (ex_seg h s)).
  { intros A C R f h H. unfold ex_seg. induction (seq 0 _); cbn [map]; constructor; auto. }
  split. { split; [unfold ex_bits; rewrite map_length, seq_length; reflexivity|apply ex_match]. }
  split. { split; [apply HL|]. apply HF. intros i. apply mk_f4_ok. }
  split. { split; [apply HL|]. apply HF. intros i. apply mk_ole_ok. }
  split; [apply HL|]. apply HF. intros i. apply mk_trit_ok; reflexivity.
Qed.

(* generators after earlier requests *)
Lemma ex_gens dbg bs qs : (bs mod 128 = 0)%N -> (1024 <= bs <= 4096)%N -> Forall (fun q => (snd q <= 2 ^ 64 - 256)%N) qs ->
  exists g g', gens_at dbg bs qs g g'.
Proof.
  intros Hb Hr Hq. assert (E : gen_init 2 bs = Ok (Gen bs [] (fun _ _ => None))).
  { unfold gen_init. change (2 ^ 10)%N with 1024%N. change (2 ^ 26)%N with 67108864%N.
    destruct (N.ltb_spec bs 1024); [lia|]. destruct (N.ltb_spec 67108864 bs); [lia|]. reflexivity. }
  destruct (gen_init_inv E Hb) as (_ & _ & Hi).
  destruct (@requests_ok dbg _ qs _ [] Hi Hq) as (g1 & s1 & E1 & _).
  { intros b x Hx. destruct b; discriminate. }
  pose proof (@requests_mirror dbg qs (Gen bs [] (fun _ _ => None)) (Gen bs [] (fun _ _ => None)) ltac:(split; [reflexivity|split; reflexivity])) as HM.
  rewrite E1 in HM. destruct (requests dbg (map mirror_q qs) _) as [[g2 s2]| | |] eqn:E2; cbn [mirror_out] in HM; try contradiction.
  exists g1, g2. split; [exact Hb|]. split; [exact Hq|]. exists 2%N, (Gen bs [] (fun _ _ => None)), s1. split; [exact E|]. split; [exact E1|].
  rewrite E2. destruct HM as (_ & <-). reflexivity.
Qed.

(* the key generated; keys passed in; shared keys and inputs *)
Definition ex_gen_args : sargs := SArgs 3 KSenderOnly IReceiverOnly None [] [] None [] [].
Definition ex_ro_args : sargs := SArgs 3 KShared IReceiverOnly (Some (ex_bits 512)) (ex_chosen 512) [] (Some (ex_key 2 0)) (ex_seeds 512) [].
Definition ex_sh_args : sargs := SArgs 3 KShared IShared (Some (ex_bits 512)) (ex_chosen 512) (ex_seeds 512) (Some (ex_bits 512)) (ex_seeds 512) (ex_chosen 512).

Lemma ex_args : args_ok ex_gen_args /\ args_ok ex_ro_args /\ args_ok ex_sh_args.
Proof.
  assert (H : (0 < 3 <= 2 ^ 54)%N) by (split; [reflexivity|intros X; discriminate]).
  split; [split; [exact H|cbn; auto]|]. split; (split; [exact H|]); (split; [reflexivity|]); (split; [exact (ex_match 512)|]).
  - exact I.
  - split; [reflexivity|]. split; [reflexivity|]. exact (ex_match 512).
Qed.

Example C61_init_ex : exists g g', gens_at true 1024 [(COle, true, 256%N)] g g' /\ args_ok ex_sh_args /\ no_stale ex_sh_args (sender0 true) (recver0 true).
Proof.
  destruct (@ex_gens true 1024 [(COle, true, 256%N)]) as (g & g' & H); [reflexivity|split; intros X; discriminate|constructor; [intros X; discriminate|constructor]|].
  exists g, g'. split; [exact H|]. split; [apply ex_args|]. intros _. auto.
Qed.

Example C61_session_ex : params_ok ex_GG ex_A /\ cors_ok ex_cs ex_cr /\
  inputs_ok ex_gen_args [] [5; 6; 7]%N /\ inputs_ok ex_sh_args [1; 2; 3]%N [5; 6; 7]%N /\ ole_even 1024 [(COle, true, 256%N); (CF4, false, 128%N)] /\
  key_room (Gen 1024 [Batch COt false 512] (fun t r => if ct_eqb t COt && negb r then Some 0 else None)).
Proof.
  split; [exact ex_params|]. split; [exact ex_cors|]. split; [split; reflexivity|]. split; [split; reflexivity|].
  split; [split; [reflexivity|repeat constructor]; discriminate|]. intros X. discriminate.
Qed.

Definition ex_list : list (bool * sargs * (list N * list N)) :=
  [(true, ex_ro_args, ([], [5; 6; 7]%N)); (false, ex_sh_args, ([1; 2; 3], [5; 6; 7])%N); (true, ex_ro_args, ([], [8; 9; 10]%N))].
Example C61_sessions_ex : Forall (fun x => args_ok (args_of x) /\ inputs_ok (args_of x) (fst (snd x)) (snd (snd x))) ex_list /\
  keygen_last ex_list /\ (forall dbg f4 party g, rooms dbg f4 party ex_list g) /\
  Forall (fun x => no_stale (args_of x) (sender0 true) (recver0 true)) ex_list.
Proof.
  destruct ex_args as (_ & H1 & H2).
  split; [repeat constructor; cbn [args_of fst snd]; try apply H1; try apply H2|].
  split; [cbn [keygen_last ex_list]; repeat split; discriminate|].
  split; [cbn [rooms ex_list]; intros; repeat split; try discriminate|].
  repeat constructor; auto.
Qed.

(* key generation followed by a session with a key: throws *)
Definition ex_g0 : gen := Gen 1024 [] (fun _ _ => None).
Definition ex_stale : sender := Sender 0 true KSenderOnly IReceiverOnly
  (KMR [] None (Some (CReq [Seg 0 0 512] 512 1 true))) (KMS [] None None) None None None.
Example C61_stale_ex : forall fuel p, session true fuel p ex_sd ex_cs ex_cr true false ex_ro_args [] [5; 6; 7]%N ((ex_g0, ex_g0), (ex_stale, recver0 true)) = Throw.
Proof. intros. vm_compute. reflexivity. Qed.

(* 384 OTs left in the open batch *)
Definition ex_g1 (r : bool) : gen := Gen 1024 [Batch COt r 640] (fun t r' => if ct_eqb t COt && Bool.eqb r r' then Some 0 else None).
Example C61_straddle_ex : ~ key_room (ex_g1 false) /\
  forall fuel p, session true fuel p ex_sd ex_cs ex_cr true false ex_gen_args [] [5; 6; 7]%N ((ex_g1 false, ex_g1 true), (sender0 true, recver0 true)) = Throw.
Proof. split; [intros X; exact (X eq_refl)|]. intros. vm_compute. reflexivity. Qed.

(* SenderOnly keys with shared inputs: init accepts, evaluate throws *)
Definition ex_so_args : sargs := SArgs 3 KSenderOnly IShared (Some (ex_bits 512)) (ex_chosen 512) [] None (ex_seeds 512) [].
Example C61_shared_ex :
  (forall sd, exists x, send_init true sd true 3 KSenderOnly IShared (Some (ex_bits 512)) (ex_chosen 512) [] ex_g0 (sender0 true) = Ok x) /\
  forall fuel p, session true fuel p ex_sd ex_cs ex_cr true false ex_so_args [1; 2; 3]%N [5; 6; 7]%N ((ex_g0, ex_g0), (sender0 true, recver0 true)) = Throw.
Proof.
  split.
  - intros sd. destruct (send_init true sd true 3 KSenderOnly IShared (Some (ex_bits 512)) (ex_chosen 512) [] ex_g0 (sender0 true)) as [x| | |] eqn:E; [eauto| | |]; exfalso; vm_compute in E; discriminate.
  - intros. vm_compute. reflexivity.
Qed.

(* finding: after init with key generation and preprocess the receiver's key request is not started *)
Definition ex_req : creq := CReq [Seg 0 0 512] 512 0 false.
Theorem C61_receiver_preprocess_refuted : exists r r', msReq (rvKS r) = Some ex_req /\ recv_pre r = Ok r' /\ msReq (rvKS r') = Some ex_req.
Proof.
  exact (ex_intro _ (Recver 3 true KSenderOnly IReceiverOnly (KMR [] None None) (KMS [] None (Some ex_req)) (Some ex_req) None None)
    (ex_intro _ (Recver 3 true KSenderOnly IReceiverOnly (KMR [] None None) (KMS [] None (Some ex_req)) (Some (CReq [Seg 0 0 512] 512 0 true)) None None)
      (conj eq_refl (conj eq_refl eq_refl)))).
Qed.
Print Assumptions C61_receiver_preprocess_refuted.

(* finding: preprocess before init dereferences a null request *)
Theorem C61_preprocess_first : forall f4, send_pre (sender0 f4) = UB /\ recv_pre (recver0 f4) = UB.
Proof. intros []; split; reflexivity. Qed.
Print Assumptions C61_preprocess_first.

(* finding: the sender's init accepts size 0, and a second init before evaluate; what the first
   requested is lost.  The receiver's refuses both (C61_receiver_idle). *)
Theorem C61_sender_init_unguarded : forall sd, exists x y, send_init true sd true 0 KSenderOnly IReceiverOnly None [] [] ex_g0 (sender0 true) = Ok x /\
  send_init true sd true 3 KSenderOnly IReceiverOnly None [] [] (fst x) (snd x) = Ok y.
Proof.
  intros sd. destruct (send_init true sd true 0 KSenderOnly IReceiverOnly None [] [] ex_g0 (sender0 true)) as [x| | |] eqn:E; try (exfalso; vm_compute in E; discriminate).
  destruct (send_init true sd true 3 KSenderOnly IReceiverOnly None [] [] (fst x) (snd x)) as [y| | |] eqn:E2.
  - exists x, y. auto.
  - exfalso. vm_compute in E. injection E as <-. vm_compute in E2. discriminate.
  - exfalso. vm_compute in E. injection E as <-. vm_compute in E2. discriminate.
  - exfalso. vm_compute in E. injection E as <-. vm_compute in E2. discriminate.
Qed.
Print Assumptions C61_sender_init_unguarded.

(* init with key generation, then preprocess, on both sides *)
Example C61_preprocess_ex : forall sd, (exists x s, send_init true sd true 3 KSenderOnly IReceiverOnly None [] [] ex_g0 (sender0 true) = Ok x /\ send_pre (snd x) = Ok s) /\
  (exists x r, recv_init true sd false 3 KSenderOnly IReceiverOnly None [] [] ex_g0 (recver0 true) = Ok x /\ recv_pre (snd x) = Ok r).
Proof.
  intros sd. split.
  - destruct (send_init true sd true 3 KSenderOnly IReceiverOnly None [] [] ex_g0 (sender0 true)) as [x| | |] eqn:E; try (exfalso; vm_compute in E; discriminate).
    exists x. vm_compute in E. injection E as <-. destruct (send_pre _) as [s| | |] eqn:E2; try (exfalso; vm_compute in E2; discriminate). exists s. auto.
  - destruct (recv_init true sd false 3 KSenderOnly IReceiverOnly None [] [] ex_g0 (recver0 true)) as [x| | |] eqn:E; try (exfalso; vm_compute in E; discriminate).
    exists x. vm_compute in E. injection E as <-. destruct (recv_pre _) as [s| | |] eqn:E2; try (exfalso; vm_compute in E2; discriminate). exists s. auto.
Qed.
