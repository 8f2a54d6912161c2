(* C60: the silent F4 VOLE, SilentF4VoleSender.h and SilentF4VoleReceiver.h, and the F4 bit OT
   batch built on it. *)
From Verif Require Import Base Words GF4Model GF4Spec CompressModel CompressSpec CompressProofs
  SilentVoleModel SilentVoleSpec SilentVoleProofs.

(* C60: two fresh parties, any size n, any of the supported codes, any delta: for every encoder
   of the shape the codes have, every PPRF that keeps its promise and every base VOLE, silentSend
   and silentReceive end with n correlations a = b + c * delta in GF(4)^63, and the packed c is
   the code applied to the sparse vector with the drawn values at the points. *)
Theorem C60_silent : forall sdconf otCount enc pprf delta s r n m parts sz noise tmp prog pts rnd genB genA,
  vsState s = SDefault -> vsMal s = false -> vsMult s = m ->
  vrState r = SDefault -> vrMal r = false -> vrMult r = m -> m <> OtherCode ->
  sdconf n m = (parts, sz, noise) -> n <= noise ->
  enc m (code_dim m n) noise = (tmp, prog) -> lin_in (noise + tmp) prog ->
  NoDup pts -> length pts = parts -> (forall p, In p pts -> p < noise) ->
  (forall vs, length vs = parts -> pprf_rel noise pts vs (fst (pprf pts vs)) (snd (pprf pts vs))) ->
  parts <= length (filter (fun v => negb (v =? 0)%N) (map (fun b => b mod 4)%N rnd)) ->
  base_vole delta (drawn parts rnd) (genA (drawn parts rnd)) genB ->
  exists b a, vole_silent sdconf otCount enc pprf s r n pts rnd genB genA = Ok (b, a) /\
   length a = n /\ f4_vole delta a b /\
   forall p, p < n -> gelem (nth p a 0%N) 0 = nth p (glin_run prog (noise_vec noise tmp pts (drawn parts rnd))) g0.
Proof. exact silent_fresh_ok. Qed.
Print Assumptions C60_silent.

(* C60, chosen values: with c given by the receiver, sendChosen and receiveChosen end with
   a = b + c * delta *)
Theorem C60_chosen : forall sdconf otCount enc pprf delta s r n m parts sz noise tmp prog pts rnd genB genA c,
  vsState s = SDefault -> vsMal s = false -> vsMult s = m ->
  vrState r = SDefault -> vrMal r = false -> vrMult r = m -> m <> OtherCode ->
  sdconf n m = (parts, sz, noise) -> n <= noise ->
  enc m (code_dim m n) noise = (tmp, prog) -> lin_in (noise + tmp) prog ->
  NoDup pts -> length pts = parts -> (forall p, In p pts -> p < noise) ->
  (forall vs, length vs = parts -> pprf_rel noise pts vs (fst (pprf pts vs)) (snd (pprf pts vs))) ->
  parts <= length (filter (fun v => negb (v =? 0)%N) (map (fun b => b mod 4)%N rnd)) ->
  base_vole delta (drawn parts rnd) (genA (drawn parts rnd)) genB ->
  length c = n -> (forall x, In x c -> (x < 4)%N) ->
  exists b a, vole_chosen sdconf otCount enc pprf delta s r c n pts rnd genB genA = Ok (b, a) /\ base_vole delta c a b.
Proof. exact chosen_fresh_ok. Qed.
Print Assumptions C60_chosen.

(* C60: what the receiver sends for its chosen values is, entry by entry, the value plus the
   random value of the silent VOLE, packed four to a byte, and nothing else is sent *)
Theorem C60_diff : forall A c n, n <= length A -> n <= length c -> (forall p, p < n -> (nth p c 0 < 4)%N) ->
  exists diff, vr_diff A c n = Ok diff /\ length diff = (n + 3) / 4 /\
   forall p, p < n -> gelem (nth (p / 4) diff 0%N) (N.of_nat (p mod 4)) = gadd (gelem (nth p A 0%N) 0) (gelem (nth p c 0%N) 0).
Proof. exact diff_ok. Qed.
Print Assumptions C60_diff.

(* C60: the sampled values of the noisy positions are the first nonzero ones drawn; none is 0 *)
Theorem C60_sample : forall n rnd,
  n <= length (filter (fun v => negb (v =? 0)%N) (map (fun b => b mod 4)%N rnd)) ->
  (exists rest, sample_vals n rnd = Ok (drawn n rnd, rest)) /\ length (drawn n rnd) = n /\
  forall c, In c (drawn n rnd) -> (1 <= c < 4)%N.
Proof.
  intros n rnd H. split; [apply sample_vals_ok; exact H|]. split; [apply drawn_len; exact H|].
  intros c. apply drawn_range.
Qed.
Print Assumptions C60_sample.

(* C60: an F4 bit OT batch of 16k OTs: for every hash the receiver gets the bit its two choice
   bits select out of the four of the sender, and the choice bits are the encoded noise *)
Theorem C60_batch : forall sdconf otCount enc pprf (H : N -> N) dflt delta k parts sz noise tmp prog pts rnd bS bR,
  sdconf (k * 16) dflt = (parts, sz, noise) -> k * 16 <= noise ->
  enc Tungsten (k * 16) noise = (tmp, prog) -> lin_in (noise + tmp) prog ->
  NoDup pts -> length pts = parts -> (forall p, In p pts -> p < noise) ->
  (forall vs, length vs = parts -> pprf_rel noise pts vs (fst (pprf pts vs)) (snd (pprf pts vs))) ->
  parts <= length (filter (fun v => negb (v =? 0)%N) (map (fun b => b mod 4)%N rnd)) ->
  base_vole delta (drawn parts rnd) (bR (drawn parts rnd)) bS ->
  exists o0 o1 o2 o3 ots ls ms,
   f4_batch sdconf otCount enc pprf H dflt delta (k * 16) (otCount sz parts) pts rnd bS bR = Ok ((o0, o1, o2, o3), (ots, ls, ms)) /\
   length ots = k /\ length ls = 2 * k /\ length ms = 2 * k /\
   length o0 = k /\ length o1 = k /\ length o2 = k /\ length o3 = k /\
   forall p, p < 16 * k ->
    (buf_bit 8 ls p, buf_bit 8 ms p) = nth p (glin_run prog (noise_vec noise tmp pts (drawn parts rnd))) g0 /\
    buf_bit 16 ots p = nth (b2n (buf_bit 8 ls p) + 2 * b2n (buf_bit 8 ms p))
      [buf_bit 16 o0 p; buf_bit 16 o1 p; buf_bit 16 o2 p; buf_bit 16 o3 p] false.
Proof. exact batch_ok. Qed.
Print Assumptions C60_batch.

(* C60: what is rejected.  More correlations than configured; base OTs of the wrong number; a base
   VOLE of the wrong size at the sender; base correlations before configure; the malicious mode;
   an unsupported code. *)
Theorem C60_throws : forall sdconf otCount enc s r n gen pts rnd genA nOts b out,
  (is_configured (vsState s) = true -> vsReq s < n -> vs_pre sdconf otCount s n gen = Throw) /\
  (is_configured (vrState r) = true -> vrReq r < n -> vr_pre sdconf otCount r n pts rnd genA = Throw) /\
  (is_configured (vsState s) = false \/ nOts <> otCount (vsSizePer s) (vsParts s) \/
     length b <> base_vole_count (vsParts s) (vsMal s) -> vs_setBase otCount s nOts b = Throw) /\
  (is_configured (vrState r) = false \/ nOts <> otCount (vrSizePer r) (vrParts r) -> vr_setBase otCount r nOts b = Throw) /\
  (is_configured (vrState r) = false -> vr_sample r pts rnd = Throw) /\
  (vrMal r = true -> sample_vals (vrParts r) rnd <> Hang -> vr_sample r pts rnd = Throw) /\
  (vsMal s = true \/ vsMult s = OtherCode -> vs_post enc s out = Throw).
Proof.
  intros sdconf otCount enc s r n gen pts rnd genA nOts b out.
  split; [|split; [|split; [|split; [|split; [|split]]]]].
  - intros Hc Hn. unfold vs_pre. rewrite Hc. apply Nat.ltb_lt in Hn. rewrite Hn. reflexivity.
  - intros Hc Hn. unfold vr_pre. rewrite Hc. apply Nat.ltb_lt in Hn. rewrite Hn. reflexivity.
  - intros Hc. unfold vs_setBase, vs_otcount. destruct (is_configured (vsState s)); [|reflexivity]. cbn [bind].
    destruct Hc as [Hc|[Hc|Hc]]; [discriminate| |].
    + apply Nat.eqb_neq in Hc. rewrite Hc. reflexivity.
    + apply Nat.eqb_neq in Hc. rewrite Hc. destruct (nOts =? otCount (vsSizePer s) (vsParts s)); reflexivity.
  - intros Hc. unfold vr_setBase, vr_otcount. destruct (is_configured (vrState r)); [|reflexivity]. cbn [negb throw_if bind].
    destruct Hc as [Hc|Hc]; [discriminate|]. apply Nat.eqb_neq in Hc. rewrite Hc. reflexivity.
  - intros Hc. unfold vr_sample. rewrite Hc. reflexivity.
  - intros Hm Hh. unfold vr_sample. destruct (is_configured (vrState r)); [|reflexivity]. cbn [negb throw_if bind].
    assert (T : sample_vals (vrParts r) rnd <> Hang -> exists p, sample_vals (vrParts r) rnd = Ok p).
    { intros _. apply sample_total. exact Hh. }
    destruct (T Hh) as (p & E). rewrite E. cbn [bind]. rewrite Hm. reflexivity.
  - intros [Hm|Hm]; unfold vs_post; rewrite Hm; [reflexivity|]. destruct (vsMal s); reflexivity.
Qed.
Print Assumptions C60_throws.

(* the parameters of the examples *)
Definition ex_sdconf (n : nat) (m : mult) : nat * nat * nat := (2, 4, 8).
Definition ex_prog : list lin :=
  [LPlus 0 1 6; LCopy 8 0; LMul 8 8; LPlus 1 8 2; LZero 2; LPlus 2 6 3; LMul 2 2; LPlus 2 2 1].
Definition ex_enc (m : mult) (k noise : nat) : nat * list lin := (1, ex_prog).
Definition ex_leaves : list N := [4; 8; 0x1234; 16; 20; 0xFF0; 28; 32]%N.
Definition ex_pprf (pts : list nat) (vs : list N) : list N * list N :=
  (ex_leaves, map (fun x => N.lxor (nth x ex_leaves 0%N) (at_point 0%N pts vs x)) (seq 0 8)).
Definition ex_vdelta : N := 0xE5B9.
Definition ex_genB : list N := [0x777; 0x9A5]%N.
Definition ex_genA (c : list N) : list N := map2 (vole_entry ex_vdelta) c ex_genB.
Definition ex_rnd : list N := [8; 7; 4; 2; 0]%N.
Definition ex_s : vsender := VS SDefault 0 0 0 0 false Tungsten false [] [].
Definition ex_r : vreceiver := VR SDefault 0 0 0 0 false Tungsten false [] [] [] [].

Lemma ex_pprf_ok : forall vs, length vs = 2 -> pprf_rel 8 [1; 6] vs (fst (ex_pprf [1; 6] vs)) (snd (ex_pprf [1; 6] vs)).
Proof.
  intros vs _. split; [reflexivity|]. split; [reflexivity|]. split.
  - intros x Hx. cbn [ex_pprf fst ex_leaves In] in Hx.
    repeat (destruct Hx as [<-|Hx]; [reflexivity|]). destruct Hx.
  - intros x Hx. unfold ex_pprf. cbn [fst snd].
    rewrite (nth_indep _ _ (N.lxor (nth 0 ex_leaves 0%N) (at_point 0%N [1; 6] vs 0))) by (rewrite map_length, seq_length; exact Hx).
    rewrite (map_nth (fun x => N.lxor (nth x ex_leaves 0%N) (at_point 0%N [1; 6] vs x))). rewrite seq_nth by exact Hx. reflexivity.
Qed.

Lemma ex_base_ok : base_vole ex_vdelta (drawn 2 ex_rnd) (ex_genA (drawn 2 ex_rnd)) ex_genB.
Proof.
  split; [reflexivity|]. split; [reflexivity|]. intros i t Hi Ht. change (drawn 2 ex_rnd) with [3; 2]%N in *. cbn [length] in Hi.
  destruct i as [|[|i]]; [| |lia]; unfold ex_genA, ex_genB; cbn [map2 nth]; unfold vole_entry.
  - destruct (@GF4Proofs.f4_mul_block_total ex_vdelta 3 eq_refl) as (d & Ed & Gd). rewrite Ed.
    rewrite GF4Proofs.f4_plus_spec, Gd by lia. f_equal. apply gmul_comm.
  - destruct (@GF4Proofs.f4_mul_block_total ex_vdelta 2 eq_refl) as (d & Ed & Gd). rewrite Ed.
    rewrite GF4Proofs.f4_plus_spec, Gd by lia. f_equal. apply gmul_comm.
Qed.

Lemma ex_lin_ok : lin_in 9 ex_prog.
Proof. intros i Hi. cbn [ex_prog In] in Hi. repeat (destruct Hi as [<-|Hi]; [lia|]). destruct Hi. Qed.

Example C60_ex : drawn 2 ex_rnd = [3; 2]%N /\ NoDup [1; 6] /\ (forall p, In p [1; 6] -> p < 8) /\
  (forall vs, length vs = 2 -> pprf_rel 8 [1; 6] vs (fst (ex_pprf [1; 6] vs)) (snd (ex_pprf [1; 6] vs))) /\
  lin_in 9 ex_prog /\ base_vole ex_vdelta (drawn 2 ex_rnd) (ex_genA (drawn 2 ex_rnd)) ex_genB /\
  (exists b a, vole_silent ex_sdconf (fun _ _ => 5) ex_enc ex_pprf ex_s ex_r 3 [1; 6] ex_rnd ex_genB ex_genA = Ok (b, a) /\
     map (fun x => N.land x 3) a = [1; 3; 2]%N /\ b <> a) /\
  (exists b a, vole_chosen ex_sdconf (fun _ _ => 5) ex_enc ex_pprf ex_vdelta ex_s ex_r [2; 0; 3]%N 3 [1; 6] ex_rnd ex_genB ex_genA = Ok (b, a) /\
     base_vole ex_vdelta [2; 0; 3]%N a b).
Proof.
  split; [reflexivity|]. split; [repeat constructor; cbn; intuition lia|].
  assert (HB : forall p, In p [1; 6] -> p < 8) by (intros p [<-|[<-|[]]]; lia).
  split; [exact HB|]. split; [exact ex_pprf_ok|]. split; [exact ex_lin_ok|]. split; [exact ex_base_ok|]. split.
  - destruct (vole_silent ex_sdconf (fun _ _ => 5) ex_enc ex_pprf ex_s ex_r 3 [1; 6] ex_rnd ex_genB ex_genA) as [[b a]| | |] eqn:E;
      vm_compute in E; try discriminate E. injection E as <- <-. do 2 eexists. split; [reflexivity|].
    split; [vm_compute; reflexivity|discriminate].
  - apply (@C60_chosen ex_sdconf (fun _ _ => 5) ex_enc ex_pprf ex_vdelta ex_s ex_r 3 Tungsten 2 4 8 1 ex_prog [1; 6] ex_rnd ex_genB ex_genA [2; 0; 3]%N);
      try reflexivity; try discriminate; try exact HB; try exact ex_pprf_ok; try exact ex_lin_ok; try exact ex_base_ok.
    + lia.
    + repeat constructor; cbn; intuition lia.
    + intros x [<-|[<-|[<-|[]]]]; lia.
Qed.

(* a batch of 16 *)
Definition ex_sdconf16 (n : nat) (m : mult) : nat * nat * nat := (2, 8, 16).
Definition ex_enc16 (m : mult) (k noise : nat) : nat * list lin :=
  (0, LMul 0 1 :: LPlus 15 1 14 :: map (fun i => LPlus i (i - 1) i) (seq 1 15)).
Definition ex_leaves16 : list N := map (fun i => N.of_nat (i * i * 4 + 40)) (seq 0 16).
Definition ex_pprf16 (pts : list nat) (vs : list N) : list N * list N :=
  (ex_leaves16, map (fun x => N.lxor (nth x ex_leaves16 0%N) (at_point 0%N pts vs x)) (seq 0 16)).
Example C60_batch_ex : exists o ots ls ms,
  f4_batch ex_sdconf16 (fun _ _ => 5) ex_enc16 ex_pprf16 (fun x => N.lxor (N.shiftr x 4) (N.shiftr x 5)) ExConv7x24 ex_vdelta 16 5 [1; 14] ex_rnd ex_genB ex_genA
   = Ok (o, (ots, ls, ms)) /\ length ots = 1 /\ ls = [254; 127]%N /\ ms = [1; 192]%N.
Proof.
  destruct (f4_batch ex_sdconf16 (fun _ _ => 5) ex_enc16 ex_pprf16 (fun x => N.lxor (N.shiftr x 4) (N.shiftr x 5)) ExConv7x24 ex_vdelta 16 5 [1; 14] ex_rnd ex_genB ex_genA)
    as [[o [[ots ls] ms]]| | |] eqn:E; vm_compute in E; try discriminate E.
  injection E as <- <- <- <-. do 4 eexists. split; [reflexivity|]. split; [reflexivity|]. split; reflexivity.
Qed.

(* C60, refuted: the receiver does not check the size of the base VOLE (the sender does): with one
   value too few setSilentBaseOts succeeds and the run reads past its end *)
Theorem C60_base_size_refuted : exists r a, is_configured (vrState r) = true /\
  length a <> base_vole_count (vrParts r) (vrMal r) /\
  exists r', vr_setBase (fun _ _ => 5) r 5 a = Ok r' /\ vr_post ex_enc r' ex_leaves = UB.
Proof.
  exists (VR SConfigured 3 8 2 4 false Tungsten false [1; 6] [] [3; 2]%N []), [8%N].
  split; [reflexivity|]. split; [discriminate|].
  exists (VR SHasBase 3 8 2 4 false Tungsten true [1; 6] [8%N] [3; 2]%N []).
  split; vm_compute; reflexivity.
Qed.
Print Assumptions C60_base_size_refuted.

(* C60, refuted: receiveChosen does not check that there are as many chosen values as entries *)
Theorem C60_choice_size_refuted : exists A c n, n = length A /\ length c < n /\ vr_diff A c n = UB.
Proof. exists [4; 8]%N, [1%N], 2. split; [reflexivity|]. split; [cbn; lia|]. vm_compute. reflexivity. Qed.
Print Assumptions C60_choice_size_refuted.

(* C60, refuted: after a chosen run the low bits packed into a are still the random values, not
   the chosen ones: the packed correlation that holds after a silent run does not hold any more *)
Theorem C60_chosen_packed_refuted : exists delta A B c diff b, f4_vole delta A B /\ length c = length A /\
  (forall x, In x c -> (x < 4)%N) /\
  vr_diff A c (length A) = Ok diff /\ vs_derand delta B (length A) diff = Ok b /\ ~ f4_vole delta A b.
Proof.
  exists 0xB1%N, [0xB5]%N, [4]%N, [0%N], [1%N], [0xB5]%N.
  split.
  { split; [reflexivity|]. intros p t Hp Ht. cbn [length] in Hp. destruct p; [|lia]. cbn [nth].
    change 0xB5%N with (f4_plus 4 0xB1) at 1. rewrite GF4Proofs.f4_plus_spec. f_equal.
    change (gelem 0xB5 0) with g1. destruct (gelem 0xB1 t) as [[] []]; reflexivity. }
  split; [reflexivity|]. split; [intros x [<-|[]]; lia|]. split; [vm_compute; reflexivity|]. split; [vm_compute; reflexivity|].
  intros [_ H]. specialize (H 0 2%N ltac:(cbn; lia) ltac:(lia)). vm_compute in H. discriminate H.
Qed.
Print Assumptions C60_chosen_packed_refuted.
