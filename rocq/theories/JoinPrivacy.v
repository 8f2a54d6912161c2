(* Proofs about what the parties see in a join. *)
From Verif Require Import Base Words PermModel PermSpec PermProofs PermCorModel PermCorSpec PermCorProofs CompPermProofs ShuffleModel ShuffleSpec ExtractSpec ExtractPrivacy PrivSpec PermViewModel PermPrivSpec PermPrivacy CompPrivacy.
From Verif Require Import KeyMultModel BitInjModel RadixModel RadixSpec BitInjProofs RadixProofs RadixSortProofs SortViewModel SortPrivSpec OtPrivacy RoundPrivacy RoundHides GenPermViewModel GenPermPrivSpec GenPermPrivacy.
From Verif Require Import GmwModel GmwSpec AggModel AggSpec AggTreeProofs AggProofs TableModel TableSpec TrimProofs TableProofs TableOpsSpec TableIOModel BinFileProofs OmJoinModel OmJoinSpec CtrlProofs BlockProofs PackProofs OmJoinProofs OmJoinTop JoinViewModel JoinPrivSpec.

(* rows of the right length *)
Definition lens (n w : nat) (m : list (list N)) : Prop := length m = n /\ Forall (fun r => length r = w) m.
Lemma rows_lens n w m : TableSpec.rows_ok n w m -> lens n w m.
Proof. intros [L F]. split; [exact L|]. eapply Forall_impl; [|exact F]. intros a [H _]. exact H. Qed.
Lemma lens_nth n w m i : lens n w m -> i < n -> length (nth i m []) = w.
Proof. intros [L F] Hi. rewrite Forall_forall in F. apply F, nth_In. lia. Qed.
Lemma chunks_lens n w l : length l = n * w -> lens n w (TableIOModel.chunks w n l).
Proof.
  intros HL. unfold TableIOModel.chunks. split; [rewrite map_length; apply seq_length|]. apply Forall_forall. intros r Hr. apply in_map_iff in Hr. destruct Hr as (i & <- & Hi).
  apply in_seq in Hi. apply slice_length. nia.
Qed.
Lemma chunks_nth n w l i j : length l = n * w -> i < n -> j < w -> nth j (nth i (TableIOModel.chunks w n l) []) 0%N = cel w l i j.
Proof.
  intros HL Hi Hj. unfold TableIOModel.chunks. rewrite nth_map_seq' by exact Hi. cbn [Nat.add]. unfold slice, cel. rewrite CompressProofs.nth_firstn by exact Hj.
  rewrite CompressProofs.nth_skipn. reflexivity.
Qed.
Lemma lens_ext n w a b : lens n w a -> lens n w b -> (forall i j, i < n -> j < w -> nth j (nth i a []) 0%N = nth j (nth i b []) 0%N) -> a = b.
Proof.
  intros HA HB H. apply nth_ext with [] []; [rewrite (proj1 HA), (proj1 HB); reflexivity|]. rewrite (proj1 HA). intros i Hi.
  apply nth_ext with 0%N 0%N; [rewrite (lens_nth HA Hi), (lens_nth HB Hi); reflexivity|]. rewrite (lens_nth HA Hi). intros j Hj. apply H; assumption.
Qed.
Lemma rows_cel n w m i j : TableSpec.rows_ok n w m -> i < n -> j < w -> cel w (concat m) i j = nth j (nth i m []) 0%N.
Proof. intros H Hi Hj. rewrite <- (chunks_ok H) at 2. rewrite chunks_nth; [reflexivity|apply (rows_concat_length H)|exact Hi|exact Hj]. Qed.
Lemma xor_rows_lens n w a b : lens n w a -> lens n w b -> lens n w (xor_rows a b).
Proof.
  intros HA HB. split; [unfold xor_rows; rewrite map2_length, (proj1 HA), (proj1 HB); apply Nat.min_id|].
  apply Forall_forall. intros r Hr. apply (In_nth _ _ []) in Hr. destruct Hr as (i & Hi & <-). unfold xor_rows in Hi. rewrite map2_length, (proj1 HA), (proj1 HB), Nat.min_id in Hi.
  rewrite (@nth_xor_rows n) by (try apply HA; try apply HB; exact Hi). rewrite map2_length, (lens_nth HA Hi), (lens_nth HB Hi). apply Nat.min_id.
Qed.
Lemma xor_rows_cell n w a b i j : lens n w a -> lens n w b -> i < n -> j < w -> nth j (nth i (xor_rows a b) []) 0%N = N.lxor (nth j (nth i a []) 0%N) (nth j (nth i b []) 0%N).
Proof.
  intros HA HB Hi Hj. rewrite (@nth_xor_rows n) by (try apply HA; try apply HB; exact Hi). rewrite map2_nth with (da := 0%N) (db := 0%N) by (rewrite ?(lens_nth HA Hi), ?(lens_nth HB Hi); exact Hj). reflexivity.
Qed.

Lemma skeys_lens n c off size d : lens n c d -> off + size <= c -> skeys off size d = Ok (repeat 0%N size :: map (fun r => slice r off size) d).
Proof.
  intros [L H] Ho. unfold skeys. rewrite (@mapM_ok _ _ _ (fun r => slice r off size)); [reflexivity|].
  intros r Hr. rewrite Forall_forall in H. apply readN_ok. rewrite (H r Hr). lia.
Qed.

Definition dcirc : circuit := Circuit 0 [] [] [].

Section Chain.
Variables (n w bits flag cap : nat).
Hypothesis Hn : 2 <= n.
Hypothesis Hn32 : (N.of_nat n <= 2 ^ 32)%N.
Hypothesis Hb : 0 < bits.
Hypothesis Hw : flag + 1 + div_ceil bits 8 <= w.
Hypothesis Hcap : 4 + w + (flag + 1) <= cap.
Hypothesis Hcap' : (N.of_nat cap < 2 ^ 64)%N.

(* what is shared, as functions of the sorted rows *)
Definition kvv (V : list (list N)) : list (list N) := map2 N.lxor (repeat 0%N (div_ceil bits 8)) (repeat 0%N (div_ceil bits 8)) :: map (fun r => slice r (flag + 1) (div_ceil bits 8)) V.
Definition outv (V : list (list N)) : list bool :=
  map2 (fun a b => eval (cGates (okd dcirc (control_circuit bits))) (row_env bits a b) (2 * bits)) (firstn n (kvv V)) (skipn 1 (kvv V)).
Definition cbv (V : list (list N)) : list bool := upd (outv V) 0 false.
Definition duv (V : list (list N)) : list (list N) := okd [] (agg_apply Prefix (fun a _ => a) (repeat 0%N w) V (cbv V)).
Definition flv (V : list (list N)) : list bool := map2 andb (cbv V) (map (fun r => N.odd (nth flag r 0%N)) (duv V)).
Definition flr (d : list (list N)) (f : list bool) : list (list N) := map (fun i => firstn flag (nth i d []) ++ [N.b2n (nth i f false)]) (seq 0 n).
Definition fl0 (m : join_masks) := flr (jmDup m) (jmFlag m).
Definition fl1 (m : join_masks) (V : list (list N)) := flr (xor_rows (jmDup m) (duv V)) (map2 xorb (jmFlag m) (flv V)).

Lemma outv_len V : length V = n -> length (outv V) = n.
Proof. intros H. unfold outv, kvv. rewrite map2_length, firstn_length, skipn_length. cbn [length]. rewrite map_length, H. lia. Qed.
Lemma cbv_len V : length V = n -> length (cbv V) = n.
Proof. intros H. unfold cbv. rewrite upd_length. apply outv_len, H. Qed.
Lemma xbit_map : forall a b : list bool, map2 xbit (map N.b2n a) (map N.b2n b) = map2 xorb a b.
Proof. induction a as [|x a IH]; intros [|y b]; try reflexivity. cbn [map map2]. rewrite IH, xbit_b2n. reflexivity. Qed.
Lemma xorb_cancel : forall m v : list bool, length m = length v -> map2 xorb m (map2 xorb m v) = v.
Proof. induction m as [|x m IH]; intros [|y v] H; try discriminate H; [reflexivity|]. cbn [map2]. rewrite IH by (injection H as H; exact H). destruct x, y; reflexivity. Qed.

Lemma control_v_ok Z0 Z1 m : lens n w Z0 -> lens n w Z1 -> length (jmCtrl m) = n -> let V := xor_rows Z0 Z1 in
  om_control_v bits (flag + 1) (jmCtrl m) (Z0, Z1) = Ok (jmCtrl m, map2 xorb (jmCtrl m) (outv V)).
Proof.
  intros H0 H1 Lm V. unfold om_control_v. destruct (control_circuit_ok Hb) as (gs & k & Ec & _ & _). unfold outv, V. rewrite Ec. cbn [bind cGates okd fst snd].
  rewrite (@skeys_lens n w), (@skeys_lens n w) by assumption. cbn [bind]. rewrite (proj1 H0). do 3 f_equal.
  assert (EK : xor_rows (repeat 0%N (div_ceil bits 8) :: map (fun r => slice r (flag + 1) (div_ceil bits 8)) Z0) (repeat 0%N (div_ceil bits 8) :: map (fun r => slice r (flag + 1) (div_ceil bits 8)) Z1) = kvv (xor_rows Z0 Z1)).
  { unfold kvv, xor_rows at 1. cbn [map2]. f_equal. destruct H0 as [L0 F0], H1 as [L1 F1]. revert F0 F1 L0 L1. clear. intros F0 F1 L0 L1. rewrite <- L0 in L1. clear L0. revert Z1 F1 L1.
    induction F0 as [|x Z0 Hx F0 IH]; intros [|y Z1] F1 L1; try discriminate L1; [reflexivity|]. apply Forall_cons_iff in F1. destruct F1 as [Hy F1]. cbn [map map2 xor_rows]. rewrite IH; [|exact F1|injection L1 as L1; exact L1].
    rewrite map2_slice by congruence. reflexivity. }
  rewrite EK. reflexivity.
Qed.
Lemma set_ok_len o : length o = n -> om_control_set o = Ok (upd (map N.b2n o) 0 0%N).
Proof. intros H. unfold om_control_set, set. rewrite map_length, H, (proj2 (Nat.ltb_lt _ _)) by lia. reflexivity. Qed.
Lemma set_xbit m V : length m = n -> length V = n -> map2 xbit (upd (map N.b2n m) 0 0%N) (upd (map N.b2n (map2 xorb m (outv V))) 0 0%N) = cbv V.
Proof.
  intros Lm LV. unfold cbv. assert (Lo := outv_len LV). set (o := outv V) in *. clearbody o. rewrite <- Lo in Lm. destruct m as [|x m], o as [|y o]; try discriminate Lm; [reflexivity|].
  cbn [map map2 upd]. f_equal. rewrite xbit_map. apply xorb_cancel. injection Lm as Lm. exact Lm.
Qed.
Lemma duv_ok V : TableSpec.rows_ok n w V -> agg_apply Prefix (fun a _ => a) (repeat 0%N w) V (cbv V) = Ok (duv V) /\ TableSpec.rows_ok n w (duv V).
Proof.
  intros HV. unfold duv. assert (LV : length V = n) by apply HV. assert (Lc := cbv_len LV).
  assert (H0 : nth_error (cbv V) 0 = Some false). { unfold cbv. assert (Lo := outv_len (proj1 HV)). destruct (outv V) as [|x o]; [cbn [length] in Lo; lia|reflexivity]. }
  assert (LL : 2 <= length V) by lia. assert (LE : length V = length (cbv V)) by lia.
  rewrite agg_prefix_ok by (exact H0 || exact LL || exact LE || (intros ? ? ?; reflexivity)). cbn [okd]. split; [reflexivity|].
  rewrite LV. apply rows_map. intros i Hi. pose proof (blk_start_le (cbv V) i). rewrite agg_range_first by lia.
  rewrite (nth_indep _ _ []) by lia. apply (rows_nth HV). lia.
Qed.
Lemma flv_len V : TableSpec.rows_ok n w V -> length (flv V) = n.
Proof. intros HV. unfold flv. rewrite map2_length, map_length, (cbv_len (proj1 HV)), (proj1 (proj2 (duv_ok HV))). apply Nat.min_id. Qed.

Lemma flr_ok d f : TableSpec.rows_ok n w d -> TableSpec.rows_ok n (flag + 1) (flr d f).
Proof.
  intros Hr. apply rows_map. intros i Hi. destruct (rows_nth Hr Hi) as [Lr Br]. split; [rewrite app_length, firstn_length, Lr; cbn [length]; lia|].
  apply bytes_app; [apply ShuffleSpanProofs.firstn_bytes, Br|repeat constructor; apply lxor_byte_b2n_lt].
Qed.
Lemma flags_v_ok m V o0 o1 : masks_ok n w m -> TableSpec.rows_ok n w V -> length o0 = n -> length o1 = n -> map2 xbit o0 o1 = cbv V ->
  om_flags flag (jmFlag m) (o0, o1) (jmDup m, xor_rows (jmDup m) (duv V)) = Ok (fl0 m, fl1 m V).
Proof.
  intros (_ & HD & LF) HV L0 L1 EX. destruct (duv_ok HV) as [_ HU]. assert (HX : TableSpec.rows_ok n w (xor_rows (jmDup m) (duv V))) by (apply xor_rows_ok; assumption).
  unfold om_flags. cbn [fst snd]. rewrite EX.
  assert (HG : forall d0, TableSpec.rows_ok n w d0 -> mapM (fun r => get r flag) d0 = Ok (map (fun r => nth flag r 0%N) d0)).
  { intros d0 [_ HF]. apply mapM_ok. intros r Hr. rewrite Forall_forall in HF. apply get_ok. rewrite (proj1 (HF r Hr)). lia. }
  rewrite (HG _ HD), (HG _ HX). cbn [bind].
  assert (EV : map2 andb (cbv V) (map2 xbit (map (fun r => nth flag r 0%N) (jmDup m)) (map (fun r => nth flag r 0%N) (xor_rows (jmDup m) (duv V)))) = flv V).
  { unfold flv. f_equal. apply nth_ext with false false; [rewrite map2_length, !map_length, (proj1 HD), (proj1 HX), (proj1 HU); lia|].
    intros t Ht. rewrite map2_length, !map_length, (proj1 HD), (proj1 HX), Nat.min_id in Ht.
    rewrite map2_nth with (da := 0%N) (db := 0%N) by (rewrite map_length, ?(proj1 HD), ?(proj1 HX); exact Ht).
    rewrite !(@nth_map_d _ _ _ _ t []) by (rewrite ?(proj1 HD), ?(proj1 HX), ?(proj1 HU); exact Ht).
    rewrite (@xor_rows_cell n w) by (try apply rows_lens; try assumption; lia). unfold xbit. f_equal. xors. }
  rewrite EV. rewrite (@put_flags_ok n w) by (try assumption; lia). rewrite (@put_flags_ok n w) by (try assumption; try lia; rewrite map2_length, LF, (flv_len HV); lia). reflexivity.
Qed.

(* the sorted rows *)
Definition Zv (y0 y1 : list N) (D0 D1 : list (list N)) : list (list N) := map (fun j => nth (pos (map N.to_nat (xors y0 y1)) j) (xor_rows D0 D1) []) (seq 0 n).
Lemma Zv_ok y0 y1 D0 D1 : psh n y0 y1 -> TableSpec.rows_ok n w D0 -> TableSpec.rows_ok n w D1 -> TableSpec.rows_ok n w (Zv y0 y1 D0 D1).
Proof. intros (_ & _ & HP) H0 H1. apply rows_map. intros i Hi. apply (rows_nth (xor_rows_ok H0 H1)). apply (pos_perm HP Hi). Qed.

Definition histJ (y0 y1 : list N) (D0 D1 : list (list N)) (m : join_masks) : list mop :=
  [MDerand y0 y1; MApply Inverse w (concat D0) (concat D1); MApply Regular (flag + 1) (concat (fl0 m)) (concat (fl1 m (Zv y0 y1 D0 D1)))].

Lemma fl_ok m V : masks_ok n w m -> TableSpec.rows_ok n w V -> TableSpec.rows_ok n (flag + 1) (fl0 m) /\ TableSpec.rows_ok n (flag + 1) (fl1 m V).
Proof. intros (_ & HD & _) HV. split; apply flr_ok; [exact HD|]. apply xor_rows_ok; [exact HD|apply (duv_ok HV)]. Qed.

Lemma histJ_ok y0 y1 D0 D1 m : psh n y0 y1 -> TableSpec.rows_ok n w D0 -> TableSpec.rows_ok n w D1 -> masks_ok n w m -> Forall (mop_ok n) (histJ y0 y1 D0 D1 m).
Proof.
  intros HD H0 H1 Hm. pose proof HD as (L0 & L1 & HP). destruct (fl_ok Hm (Zv_ok HD H0 H1)) as [F0 F1]. unfold histJ.
  apply Forall_cons; [|apply Forall_cons; [|apply Forall_cons; [|apply Forall_nil]]]; cbn [mop_ok].
  - split; [exact L0|]. split; [exact L1|]. split; [|exact HP]. intros i Hi. apply (psh_bound Hn32 HD Hi).
  - split; [apply (rows_concat_length H0)|]. split; [apply (rows_concat_length H1)|]. split; [apply (rows_concat_bytes H0)|apply (rows_concat_bytes H1)].
  - split; [apply (rows_concat_length F0)|]. split; [apply (rows_concat_length F1)|]. split; [apply (rows_concat_bytes F0)|apply (rows_concat_bytes F1)].
Qed.

Lemma chain_ok y0 y1 D0 D1 c0 c1 m : comps_ok n cap (c0, c1) -> psh n y0 y1 -> TableSpec.rows_ok n w D0 -> TableSpec.rows_ok n w D1 -> masks_ok n w m ->
  let V := Zv y0 y1 D0 D1 in
  exists m1 m2 z0 z1 m3 b0 b1,
    length z0 = n * w /\ length z1 = n * w /\ length b0 = n * (flag + 1) /\ length b1 = n * (flag + 1) /\
    xor_rows (TableIOModel.chunks w n z0) (TableIOModel.chunks w n z1) = V /\
    permuted Regular (flag + 1) (map N.to_nat (xors y0 y1)) (concat (xor_rows (fl0 m) (fl1 m V))) (xors b0 b1) /\
    join_chain n w bits flag y0 y1 D0 D1 (c0, c1) m = Ok (CTr m1 m2 (TableIOModel.chunks w n z0, TableIOModel.chunks w n z1) (jmCtrl m, map2 xorb (jmCtrl m) (outv V))
      (jmDup m, xor_rows (jmDup m) (duv V)) (fl0 m, fl1 m V) m3 (TableIOModel.chunks (flag + 1) n b0, TableIOModel.chunks (flag + 1) n b1)) /\
    comp_trace (c0, c1) (histJ y0 y1 D0 D1 m) = Ok [dmsgs m1; amsgs m2 (z0, z1); amsgs m3 (b0, b1)].
Proof.
  intros (HC & O0 & O1) HD H0 H1 Hm V. cbn [fst snd] in *. pose proof HD as (Ld0 & Ld1 & HP). assert (Hn0 : 0 < n) by lia. pose proof (Zv_ok HD H0 H1) as HV. fold V in HV.
  destruct (fl_ok Hm HV) as [F0 F1].
  assert (RD : forall a b, comp_rel n cap a b -> rows (csDelta (cpS a)) = n /\ rows (csDelta (cpS b)) = n).
  { intros a b (_ & _ & (_ & A & _) & (_ & B & _)). split; assumption. }
  destruct (@comp_derand_ok n cap c0 c1 y0 y1 Hn0 Hcap' HC ltac:(lia) Ld0 Ld1 (fun i => psh_bound Hn32 HD (i := i)) HP) as (e0 & e1 & E1 & HC1 & HP1 & Oe0 & Oe1).
  destruct (derand_msgs_ok E1) as [m1 M1].
  destruct (@comp_apply_ok n cap e0 e1 Inverse w (concat D0) (concat D1) (zmat n w) (zmat n w) Hn0 Hcap' HC1 ltac:(lia) ltac:(lia) (rows_concat_length H0) (rows_concat_length H1) eq_refl eq_refl eq_refl eq_refl)
    as (z0 & z1 & g0 & g1 & E2 & Lz0 & Lz1 & HPm & HC2 & HP2 & Og0 & Og1).
  destruct (apply_msgs_ok (proj1 HC1) (proj1 (proj2 HC1)) E2) as [m2 M2].
  set (Z0 := TableIOModel.chunks w n z0). set (Z1 := TableIOModel.chunks w n z1). assert (LZ0 : lens n w Z0) by (apply chunks_lens, Lz0). assert (LZ1 : lens n w Z1) by (apply chunks_lens, Lz1).
  assert (EZ : xor_rows Z0 Z1 = V).
  { apply (@lens_ext n w); [apply xor_rows_lens; assumption|apply rows_lens, HV|]. intros i j Hi Hj. rewrite (xor_rows_cell LZ0 LZ1 Hi Hj). unfold Z0, Z1. rewrite !(chunks_nth (n := n)) by assumption.
    rewrite HP1 in HPm. cbn [permuted] in HPm. apply (scattered_cel (n := n)) in HPm; [|exact HP|apply xors_len; apply rows_concat_length; assumption]. destruct HPm as [_ HPm].
    destruct (pos_perm HP Hi) as [Ek Lk]. specialize (HPm _ j Lk Hj). rewrite Ek in HPm. rewrite !(PermCorProofs.cel_xors (n := n * w)) in HPm by (assumption || (apply rows_concat_length; assumption)).
    rewrite HPm, (rows_cel H0 Lk Hj), (rows_cel H1 Lk Hj). unfold V, Zv. rewrite nth_map_seq' by exact Hi. cbn [Nat.add]. rewrite (@xor_rows_cell n w) by (try apply rows_lens; assumption). reflexivity. }
  assert (LV : length V = n) by apply HV.
  set (o0 := upd (map N.b2n (jmCtrl m)) 0 0%N). set (o1 := upd (map N.b2n (map2 xorb (jmCtrl m) (outv V))) 0 0%N). pose proof Hm as (LC & HDp & LF).
  assert (LXo : length (map2 xorb (jmCtrl m) (outv V)) = n) by (rewrite map2_length, LC, (outv_len LV); apply Nat.min_id).
  assert (EXo : map2 xbit o0 o1 = cbv V) by (apply set_xbit; assumption).
  assert (Lo0 : length o0 = n) by (unfold o0; rewrite upd_length, map_length; exact LC). assert (Lo1 : length o1 = n) by (unfold o1; rewrite upd_length, map_length; exact LXo).
  destruct (@comp_apply_ok n cap g0 g1 Regular (flag + 1) (concat (fl0 m)) (concat (fl1 m V)) (zmat n (flag + 1)) (zmat n (flag + 1)) Hn0 Hcap' HC2 ltac:(lia) ltac:(lia) (rows_concat_length F0) (rows_concat_length F1) eq_refl eq_refl eq_refl eq_refl)
    as (b0 & b1 & h0 & h1 & E3 & Lb0 & Lb1 & HPb & _).
  destruct (apply_msgs_ok (proj1 HC2) (proj1 (proj2 HC2)) E3) as [m3 M3].
  exists m1, m2, z0, z1, m3, b0, b1. split; [exact Lz0|]. split; [exact Lz1|]. split; [exact Lb0|]. split; [exact Lb1|]. split; [exact EZ|].
  split; [rewrite HP2, HP1 in HPb; unfold xors in HPb at 1; rewrite concat_map2 in HPb by (eapply rows_same_len; eassumption); exact HPb|]. split.
  - unfold join_chain. cbn [fst snd]. rewrite M1. cbn [bind]. rewrite E1. cbn [bind fst snd]. rewrite M2. cbn [bind]. rewrite E2. cbn [bind dat]. fold Z0. fold Z1.
    rewrite (control_v_ok LZ0 LZ1 LC). rewrite EZ. cbn [bind fst snd]. rewrite (set_ok_len LC), (set_ok_len LXo). cbn [bind]. fold o0. fold o1.
    unfold om_dup. cbn [fst snd]. rewrite EZ, EXo, (proj1 (duv_ok HV)). cbn [bind]. unfold reshare. rewrite (flags_v_ok Hm HV Lo0 Lo1 EXo). cbn [bind fst snd].
    rewrite M3. cbn [bind]. rewrite E3. reflexivity.
  - unfold histJ. fold V. cbn [comp_trace comp_step]. rewrite M1, E1. cbn [bind fst snd comp_trace comp_step]. destruct (RD _ _ HC1) as [-> ->]. rewrite M2, E2.
    cbn [bind fst snd comp_trace comp_step dat]. destruct (RD _ _ HC2) as [-> ->]. rewrite M3, E3. reflexivity.
Qed.

(* ---------- party 0 with other rows ---------- *)
Lemma xorb_turn : forall m a b : list bool, length a = length m -> length b = length m -> map2 xorb (map2 xorb m (map2 xorb a b)) b = map2 xorb m a.
Proof.
  induction m as [|x m IH]; intros [|y a] [|z b] H1 H2; try discriminate H1; try discriminate H2; [reflexivity|]. cbn [map2]. rewrite IH by (injection H1 as H1; injection H2 as H2; assumption).
  destruct x, y, z; reflexivity.
Qed.
Lemma xorb_back : forall m a b : list bool, length a = length m -> length b = length m -> map2 xorb (map2 xorb m (map2 xorb a b)) (map2 xorb b a) = m.
Proof.
  induction m as [|x m IH]; intros [|y a] [|z b] H1 H2; try discriminate H1; try discriminate H2; [reflexivity|]. cbn [map2]. rewrite IH by (injection H1 as H1; injection H2 as H2; assumption).
  destruct x, y, z; reflexivity.
Qed.
Lemma rows_turn m a b : TableSpec.rows_ok n w m -> TableSpec.rows_ok n w a -> TableSpec.rows_ok n w b -> xor_rows (xor_rows m (xor_rows a b)) b = xor_rows m a.
Proof.
  intros Hm Ha Hb'. assert (lm := rows_lens Hm). assert (la := rows_lens Ha). assert (lb := rows_lens Hb').
  apply (@lens_ext n w); [repeat apply xor_rows_lens; assumption|repeat apply xor_rows_lens; assumption|]. intros i j Hi Hj.
  rewrite !(@xor_rows_cell n w) by (repeat apply xor_rows_lens; assumption). xors.
Qed.
Lemma rows_back m a b : TableSpec.rows_ok n w m -> TableSpec.rows_ok n w a -> TableSpec.rows_ok n w b -> xor_rows (xor_rows m (xor_rows a b)) (xor_rows b a) = m.
Proof.
  intros Hm Ha Hb'. assert (lm := rows_lens Hm). assert (la := rows_lens Ha). assert (lb := rows_lens Hb').
  apply (@lens_ext n w); [repeat apply xor_rows_lens; assumption|assumption|]. intros i j Hi Hj.
  rewrite !(@xor_rows_cell n w) by (repeat apply xor_rows_lens; assumption). xors.
Qed.

Definition mvm (V V' : list (list N)) (m : join_masks) : join_masks :=
  JM (map2 xorb (jmCtrl m) (map2 xorb (outv V) (outv V'))) (xor_rows (jmDup m) (xor_rows (duv V) (duv V'))) (map2 xorb (jmFlag m) (map2 xorb (flv V) (flv V'))).
Lemma mvm_ok V V' m : TableSpec.rows_ok n w V -> TableSpec.rows_ok n w V' -> masks_ok n w m ->
  masks_ok n w (mvm V V' m) /\ mvm V' V (mvm V V' m) = m /\ map2 xorb (jmCtrl (mvm V V' m)) (outv V') = map2 xorb (jmCtrl m) (outv V) /\
  xor_rows (jmDup (mvm V V' m)) (duv V') = xor_rows (jmDup m) (duv V) /\ map2 xorb (jmFlag (mvm V V' m)) (flv V') = map2 xorb (jmFlag m) (flv V).
Proof.
  intros HV HV' (L1 & HD & L2). destruct (duv_ok HV) as [_ HU]. destruct (duv_ok HV') as [_ HU']. assert (Lf := flv_len HV). assert (Lf' := flv_len HV').
  assert (Lo : length (outv V) = n) by (apply outv_len, HV). assert (Lo' : length (outv V') = n) by (apply outv_len, HV').
  unfold mvm, masks_ok. cbn [jmCtrl jmDup jmFlag]. split; [|split; [|split; [|split]]].
  - rewrite !map2_length, L1, L2, Lo, Lo', Lf, Lf', !Nat.min_id. split; [reflexivity|]. split; [|reflexivity]. repeat apply xor_rows_ok; assumption.
  - rewrite (rows_back HD HU HU'). rewrite !xorb_back by congruence. destruct m; reflexivity.
  - apply xorb_turn; congruence.
  - apply rows_turn; assumption.
  - apply xorb_turn; congruence.
Qed.

Lemma chain1 y0 y0' y1 D0 D0' D1 c0 c1 m : comps_ok n cap (c0, c1) -> comp_bytes c0 -> comp_bytes c1 -> psh n y0 y1 -> psh n y0' y1 ->
  TableSpec.rows_ok n w D0 -> TableSpec.rows_ok n w D0' -> TableSpec.rows_ok n w D1 -> masks_ok n w m ->
  let V := Zv y0 y1 D0 D1 in
  let V' := Zv y0' y1 D0' D1 in
  let m' := mvm V V' m in
  let h := histJ y0 y1 D0 D1 m in
  let h' := histJ y0' y1 D0' D1 m' in
  let c0' := mv0 n cap c1 h h' c0 in
  exists t t', join_chain n w bits flag y0 y1 D0 D1 (c0, c1) m = Ok t /\ join_chain n w bits flag y0' y1 D0' D1 (c0', c1) m' = Ok t' /\ chain_see1 t' = chain_see1 t /\
    lens n (flag + 1) (fst (ctW t)) /\ lens n (flag + 1) (snd (ctW t)) /\ lens n (flag + 1) (fst (ctW t')) /\ lens n (flag + 1) (snd (ctW t')) /\
    comps_ok n cap (c0', c1) /\ comp_bytes c0' /\ masks_ok n w m' /\ mvm V' V m' = m /\ mv0 n cap c1 h' h c0' = c0.
Proof.
  intros CO B0 B1 HD HD' R0 R0' R1 Hm V V' m' h h' c0'. pose proof CO as (HC & O0 & O1). cbn [fst snd] in HC, O0, O1. destruct (rel_off HC) as [Q0 Q1].
  destruct (mvm_ok (Zv_ok HD R0 R1) (Zv_ok HD' R0' R1) Hm) as (Hm' & MB & MC & MD & MF). fold V in MB, MC, MD, MF. fold V' in MB, MC, MD, MF. fold m' in Hm', MB, MC, MD, MF. fold V V' in Hm'. fold m' in Hm'.
  assert (EF : fl1 m' V' = fl1 m V) by (unfold fl1; rewrite MD, MF; reflexivity).
  assert (F : Forall2 same_for1 h h') by (unfold h, h', histJ; fold V; fold V'; rewrite EF; repeat constructor).
  assert (K : Forall (mop_ok n) h) by (apply histJ_ok; assumption). assert (K' : Forall (mop_ok n) h') by (apply histJ_ok; assumption).
  destruct (mv0_ok B1 F K K' (conj HC B0)) as [[HC' B0'] _].
  assert (VW : comp_view1 c0' c1 h' = comp_view1 c0 c1 h).
  { apply mv0_view; try assumption; [lia|rewrite <- Q0, O0|rewrite O1|]; cbn [h histJ mwidth0 mwidth1 fold_right mderands filter length]; lia. }
  assert (INV := @mv0_inv n cap c1 h h' c0 B1 F K K' (conj HC B0)). fold c0' in HC', B0', INV.
  assert (CO' : comps_ok n cap (c0', c1)) by (destruct (rel_off HC') as [A _]; split; [exact HC'|split; [cbn [fst]; congruence|exact O1]]).
  destruct (chain_ok CO HD R0 R1 Hm) as (m1 & m2 & z0 & z1 & m3 & b0 & b1 & Lz0 & Lz1 & Lb0 & Lb1 & _ & _ & E & T).
  destruct (chain_ok CO' HD' R0' R1 Hm') as (n1 & n2 & w0 & w1 & n3 & e0 & e1 & Lw0 & Lw1 & Le0 & Le1 & _ & _ & E' & T').
  fold V in E. fold V' in E'. fold h in T. fold h' in T'. unfold comp_view1 in VW. rewrite T, T' in VW. cbn [bind map dmsgs amsgs fst snd] in VW. apply Ok_inj' in VW.
  injection VW as V1 V2 V3 V4 V5 V6.
  eexists _, _. split; [exact E|]. split; [exact E'|]. split.
  { unfold chain_see1. cbn [ctD ctA ctZ ctC ctU ctF ctB ctW fst snd]. rewrite MC, MD, EF, V4, V6. destruct n1 as [? [? ?]], m1 as [? [? ?]], n2, m2, n3, m3. cbn [fst snd] in *. congruence. }
  cbn [ctW fst snd]. split; [apply chunks_lens, Lb0|]. split; [apply chunks_lens, Lb1|]. split; [apply chunks_lens, Le0|]. split; [apply chunks_lens, Le1|].
  split; [exact CO'|]. split; [exact B0'|]. split; [exact Hm'|]. split; [exact MB|exact INV].
Qed.

(* ---------- party 1 with other rows ---------- *)
Lemma chain0 y0 y1 y1' D0 D1 D1' c0 c1 m : comps_ok n cap (c0, c1) -> comp_bytes c0 -> comp_bytes c1 -> psh n y0 y1 -> psh n y0 y1' ->
  TableSpec.rows_ok n w D0 -> TableSpec.rows_ok n w D1 -> TableSpec.rows_ok n w D1' -> masks_ok n w m ->
  let h := histJ y0 y1 D0 D1 m in
  let h' := histJ y0 y1' D0 D1' m in
  let c1' := mv1 n cap c0 h h' c1 in
  exists t t', join_chain n w bits flag y0 y1 D0 D1 (c0, c1) m = Ok t /\ join_chain n w bits flag y0 y1' D0 D1' (c0, c1') m = Ok t' /\ chain_see0 t' = chain_see0 t /\
    lens n (flag + 1) (fst (ctW t)) /\ lens n (flag + 1) (snd (ctW t)) /\ lens n (flag + 1) (fst (ctW t')) /\ lens n (flag + 1) (snd (ctW t')) /\
    comps_ok n cap (c0, c1') /\ comp_bytes c1' /\ mv1 n cap c0 h' h c1' = c1.
Proof.
  intros CO B0 B1 HD HD' R0 R1 R1' Hm h h' c1'. pose proof CO as (HC & O0 & O1). cbn [fst snd] in HC, O0, O1. destruct (rel_off HC) as [Q0 Q1].
  assert (F : Forall2 same_for0 h h') by (unfold h, h', histJ; repeat constructor).
  assert (K : Forall (mop_ok n) h) by (apply histJ_ok; assumption). assert (K' : Forall (mop_ok n) h') by (apply histJ_ok; assumption).
  destruct (mv1_ok B0 F K K' (conj HC B1)) as [[HC' B1'] _].
  assert (DD : mderands h <= 1) by (cbn [h histJ mderands filter length]; lia).
  assert (VW : comp_view0 c0 c1' h' = comp_view0 c0 c1 h).
  { apply mv1_view; try assumption; [lia|rewrite O0|rewrite <- Q1, O1]; cbn [h histJ mwidth0 mwidth1 fold_right]; lia. }
  assert (INV := @mv1_inv n cap c0 h h' c1 B0 F K K' DD (conj HC B1)). fold c1' in HC', B1', INV.
  assert (CO' : comps_ok n cap (c0, c1')) by (destruct (rel_off HC') as [_ A]; split; [exact HC'|split; [exact O0|cbn [snd]; congruence]]).
  destruct (chain_ok CO HD R0 R1 Hm) as (m1 & m2 & z0 & z1 & m3 & b0 & b1 & Lz0 & Lz1 & Lb0 & Lb1 & _ & _ & E & T).
  destruct (chain_ok CO' HD' R0 R1' Hm) as (n1 & n2 & w0 & w1 & n3 & e0 & e1 & Lw0 & Lw1 & Le0 & Le1 & _ & _ & E' & T').
  fold h in T. fold h' in T'. unfold comp_view0 in VW. rewrite T, T' in VW. cbn [bind map dmsgs amsgs fst snd] in VW. apply Ok_inj' in VW.
  injection VW as V1 V2 V3 V4 V5.
  eexists _, _. split; [exact E|]. split; [exact E'|]. split.
  { unfold chain_see0. cbn [ctD ctA ctZ ctC ctU ctF ctB ctW fst snd]. destruct n1 as [? [? ?]], m1 as [? [? ?]], n2, m2, n3, m3. cbn [fst snd] in *. congruence. }
  cbn [ctW fst snd]. split; [apply chunks_lens, Lb0|]. split; [apply chunks_lens, Lb1|]. split; [apply chunks_lens, Le0|]. split; [apply chunks_lens, Le1|].
  split; [exact CO'|]. split; [exact B1'|exact INV].
Qed.
End Chain.
