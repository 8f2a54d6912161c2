(* Proofs that the messages of ComposedPerm::validate open the rows of a join, and that the join with messages is the
   join of OmJoinModel. *)
From Verif Require Import Base Words PermModel PermSpec PermProofs PermCorModel PermCorSpec PermCorProofs CompPermProofs ShuffleModel ShuffleSpec ExtractSpec PrivSpec PermViewModel PermPrivSpec PermPrivacy CompPrivacy.
From Verif Require Import AggModel KeyMultModel BitInjModel RadixModel RadixSpec BitInjProofs RadixProofs RadixSortProofs RadixRankProofs SortViewModel SortPrivSpec OtPrivacy RoundPrivacy RoundHides GenPermViewModel GenPermPrivSpec GenPermPrivacy.
From Verif Require Import TableModel TableSpec TrimProofs TableProofs TableSortProofs AverageProofs TableOpsSpec TableIOModel BinFileProofs OmJoinModel OmJoinSpec BlockProofs PackProofs OmJoinProofs OmJoinTop JoinViewModel JoinPrivSpec JoinPrivacy JoinHides.

Lemma unmask_lens n w c off m msg : lens n w (unmask n w c off m msg).
Proof. unfold unmask. split; [rewrite map_length; apply seq_length|]. apply Forall_forall. intros r Hr. apply in_map_iff in Hr. destruct Hr as (i & <- & _). rewrite map_length. apply seq_length. Qed.
Lemma unmask_cell n w c off m msg i j : i < n -> j < w -> nth j (nth i (unmask n w c off m msg) []) 0%N = N.lxor (cel w msg i j) (cel c m i (off + j)).
Proof. intros Hi Hj. unfold unmask. rewrite nth_map_seq' by exact Hi. rewrite nth_map_seq' by exact Hj. reflexivity. Qed.
Lemma window_lens n w c off m : lens n w (window n w c off m).
Proof. unfold window. split; [rewrite map_length; apply seq_length|]. apply Forall_forall. intros r Hr. apply in_map_iff in Hr. destruct Hr as (i & <- & _). rewrite map_length. apply seq_length. Qed.
Lemma window_cell n w c off m i j : i < n -> j < w -> nth j (nth i (window n w c off m) []) 0%N = cel c m i (off + j).
Proof. intros Hi Hj. unfold window. rewrite nth_map_seq' by exact Hi. rewrite nth_map_seq' by exact Hj. reflexivity. Qed.

Section Chain.
Variables (n w bits flag cap : nat).
Hypothesis Hn : 2 <= n.
Hypothesis Hn32 : (N.of_nat n <= 2 ^ 32)%N.
Hypothesis Hb : 0 < bits.
Hypothesis Hw : flag + 1 + div_ceil bits 8 <= w.
Hypothesis Hcap : 4 + w + (flag + 1) <= cap.
Hypothesis Hcap' : (N.of_nat cap < 2 ^ 64)%N.

(* the messages of the first permutation, unmasked *)
Lemma chain_reads y0 y1 D0 D1 c0 c1 m t : comps_ok n cap (c0, c1) -> psh n y0 y1 -> TableSpec.rows_ok n w D0 -> TableSpec.rows_ok n w D1 ->
  join_chain n w bits flag y0 y1 D0 D1 (c0, c1) m = Ok t ->
  unmask n w cap 4 (dat (crB (cpR c0))) (snd (ctA t)) = D0 /\
  xor_rows (unmask n w cap 0 (dat (crB (cpR c1))) (fst (ctA t))) (window n w cap 4 (dat (crA (cpR c0)))) = map (fun j => nth (pos (csPerm (cpS c1)) j) (xor_rows D0 D1) []) (seq 0 n).
Proof.
  intros (HC & O0 & O1) HD R0 R1 E. cbn [fst snd] in *. pose proof HD as (Ld0 & Ld1 & HP). assert (Hn0 : 0 < n) by lia.
  destruct HC as (I0 & I1 & HR0 & HR1). destruct c0 as [i0 s0 r0], c1 as [i1 s1 r1]. cbn [cpIdx cpS cpR] in *. subst i0 i1.
  assert (Oq : crOff r0 = 0) by (destruct HR1 as (_ & _ & _ & _ & _ & _ & _ & _ & _ & _ & Q & _); congruence).
  destruct (@derand_cells n cap s0 r0 s1 r1 y0 y1 Hn0 Hcap' HR0 HR1 ltac:(lia)) as (msg & d1 & d0 & delta & RR & _ & _ & _ & _ & EB & HPn & _ & EM & ED & HRn & _).
  { split; [exact Ld0|]. split; [exact Ld1|]. split; [|exact HP]. intros i Hi. apply (psh_bound Hn32 HD Hi). }
  set (pn := p0n n (csPerm s1) (newp y0 y1)) in *. unfold join_chain in E. cbn [fst snd] in E. rewrite EM in E. cbn [bind] in E. rewrite ED in E. cbn [bind fst snd] in E.
  set (S1 := CorS (csPerm s1) (csDelta s1) (csOff s1 + 4)) in *. set (Q0 := CorR (crA r0) (crB r0) (crOff r0 + 4)) in *. set (S0 := CorS pn (csDelta s0) (csOff s0)) in *.
  assert (HR1' : cor_rel n cap S1 Q0).
  { destruct HR1 as (A1 & A2 & A3 & A4 & A5 & A6 & A7 & A8 & A9 & A10 & A11 & A12). unfold cor_rel, S1, Q0. cbn [csPerm csDelta csOff crA crB crOff].
    split; [exact A1|]. split; [exact A2|]. split; [exact A3|]. split; [exact A4|]. split; [exact A5|]. split; [exact A6|]. split; [exact A7|]. split; [exact A8|]. split; [exact A9|]. split; [exact A10|]. split; [lia|exact A12]. }
  destruct (@round_cells n cap S1 Q0 Inverse w (concat D1) (concat D0) Hn0 Hcap' HR1') as (ma & ys & yr & F1 & F2 & Lma & Lys & Lyr & Hma & Hyr & Hys);
    [unfold S1; cbn [csOff]; lia|apply (rows_concat_length R1)|apply (rows_concat_length R0)|].
  destruct (@round_cells n cap S0 RR Inverse w yr ys Hn0 Hcap' HRn) as (mb & ys' & yr' & G1 & G2 & Lmb & Lys' & Lyr' & Hmb & _ & _); [unfold S0; cbn [csOff]; lia|exact Lyr|exact Lys|].
  assert (MS : comp_apply_msgs (Comp 0 S0 Q0) (Comp 1 S1 RR) Inverse (Mat n w (concat D0)) (Mat n w (concat D1)) = Ok (mb, ma)).
  { unfold comp_apply_msgs. cbn [cpR cpS rows cols]. rewrite F1. cbn [bind]. rewrite (cround_eq F1 F2). cbn [bind fst snd rows cols]. rewrite G1. reflexivity. }
  rewrite MS in E. cbn [bind] in E.
  assert (EA : ctA t = (mb, ma)).
  { match type of E with context [comp_apply ?a ?b ?c ?d ?e ?f ?g] => destruct (comp_apply a b c d e f g) as [[[z0 g0] [z1 g1]]| | |]; try discriminate E end. cbn [bind] in E.
    repeat match type of E with context [bind ?x _] => let K := fresh "K" in destruct x eqn:K; try discriminate E; clear K; cbn [bind] in E end.
    match type of E with context [let '(_, _) := ?p in _] => destruct p as [[? ?] [? ?]] end. apply Ok_inj' in E. rewrite <- E. reflexivity. }
  rewrite EA. cbn [fst snd]. split.
  - apply (@lens_ext n w); [apply unmask_lens|apply rows_lens, R0|]. intros i j Hi Hj. rewrite unmask_cell by assumption. rewrite Hma by assumption. unfold Q0, S1. cbn [encM crB csOff]. rewrite (rows_cel R0 Hi Hj), O1. cbn [Nat.add]. xors.
  - apply (@lens_ext n w); [apply xor_rows_lens; [apply unmask_lens|apply window_lens]| |].
    { split; [rewrite map_length; apply seq_length|]. apply Forall_forall. intros r Hr. apply in_map_iff in Hr. destruct Hr as (k & <- & Hk). apply in_seq in Hk. apply (rows_nth (xor_rows_ok R0 R1)). apply (pos_perm (proj1 HR1)). lia. }
    intros i j Hi Hj. rewrite (@xor_rows_cell n w) by (try apply unmask_lens; try apply window_lens; assumption). rewrite unmask_cell, window_cell by assumption.
    rewrite nth_map_seq' by exact Hi. cbn [Nat.add]. pose proof (proj2 (pos_perm (proj1 HR1) Hi)) as Lk. rewrite (@xor_rows_cell n w) by (try apply rows_lens; assumption).
    rewrite Hmb by assumption. cbn [encM]. rewrite EB. unfold S0 at 1. cbn [csOff]. rewrite O0. cbn [Nat.add]. rewrite Hys by assumption. rewrite Hyr by assumption. unfold S1, Q0. cbn [outM crA csOff csPerm]. rewrite O1. cbn [Nat.add].
    rewrite <- (rows_cel R0 Lk Hj), <- (rows_cel R1 Lk Hj). xors.
Qed.
Lemma lens_cancel a b : lens n w a -> lens n w b -> xor_rows a (xor_rows a b) = b.
Proof.
  intros Ha Hb'. apply (@lens_ext n w); [apply xor_rows_lens; [exact Ha|apply xor_rows_lens; assumption]|exact Hb'|]. intros i j Hi Hj.
  rewrite (@xor_rows_cell n w) by (try apply xor_rows_lens; assumption). rewrite (@xor_rows_cell n w) by assumption. xors.
Qed.
(* the rest of the protocol on the permutation the shares stand for *)
Lemma chain_run y0 y1 D0 D1 c0 c1 m t : comps_ok n cap (c0, c1) -> psh n y0 y1 -> TableSpec.rows_ok n w D0 -> TableSpec.rows_ok n w D1 -> masks_ok n w m ->
  join_chain n w bits flag y0 y1 D0 D1 (c0, c1) m = Ok t -> let p := map N.to_nat (xors y0 y1) in
  exists d c u f, om_perm Inverse p (fst (ctZ t)) (D0, D1) = Ok d /\ om_control bits (flag + 1) (jmCtrl m) d = Ok c /\ om_dup w (jmDup m) c d = Ok u /\
    om_flags flag (jmFlag m) c u = Ok f /\ om_perm Regular p (fst (ctW t)) f = Ok (ctW t).
Proof.
  intros CO HD R0 R1 Hm E p. destruct (@chain_ok n w bits flag cap Hn Hn32 Hb Hw Hcap Hcap' _ _ _ _ c0 c1 m CO HD R0 R1 Hm) as (m1 & m2 & z0 & z1 & m3 & b0 & b1 & Lz0 & Lz1 & Lb0 & Lb1 & EZ & HPb & E' & _).
  rewrite E in E'. apply Ok_inj' in E'. subst t. cbn [ctZ ctW fst snd]. pose proof HD as (_ & _ & HP). fold p in HP, HPb. set (V := Zv n y0 y1 D0 D1) in *. pose proof (Zv_ok HD R0 R1) as HV. fold V in HV.
  set (Z0 := TableIOModel.chunks w n z0) in *. set (Z1 := TableIOModel.chunks w n z1) in *. assert (LZ0 : lens n w Z0) by (apply chunks_lens, Lz0). assert (LZ1 : lens n w Z1) by (apply chunks_lens, Lz1).
  assert (LV : length V = n) by apply HV. pose proof Hm as (LC & HDp & LF).
  assert (LXo : length (map2 xorb (jmCtrl m) (outv n bits flag V)) = n) by (rewrite map2_length, LC, (ltac:(eapply outv_len; eassumption) : length (outv n bits flag V) = n); apply Nat.min_id).
  set (o0 := upd (map N.b2n (jmCtrl m)) 0 0%N). set (o1 := upd (map N.b2n (map2 xorb (jmCtrl m) (outv n bits flag V))) 0 0%N).
  assert (EXo : map2 xbit o0 o1 = cbv n bits flag V) by (eapply set_xbit; eassumption).
  assert (Lo0 : length o0 = n) by (unfold o0; rewrite upd_length, map_length; exact LC). assert (Lo1 : length o1 = n) by (unfold o1; rewrite upd_length, map_length; exact LXo).
  exists (Z0, Z1), (o0, o1), (jmDup m, xor_rows (jmDup m) (duv n w bits flag V)), (fl0 n flag m, fl1 n w bits flag m V). split; [|split; [|split; [|split]]].
  - unfold om_perm. cbn [fst snd]. assert (EP : xor_rows D0 D1 = pick [] p V).
    { pose proof (xor_rows_ok R0 R1) as HX. apply nth_ext with [] []; [rewrite pick_length, (is_perm_length HP), (proj1 HX); reflexivity|]. rewrite (proj1 HX). intros i Hi.
      rewrite pick_nth by (rewrite (is_perm_length HP); exact Hi). unfold V, Zv. fold p. rewrite nth_map_seq' by (apply (nthp HP Hi)). cbn [Nat.add]. rewrite (pos_inv HP Hi). reflexivity. }
    rewrite EP, (@applyInv_pick _ [] [] n) by assumption. cbn [bind]. unfold reshare. rewrite <- EZ, lens_cancel by assumption. reflexivity.
  - pose proof (@control_v_ok n w bits flag Hb Hw Z0 Z1 m LZ0 LZ1 LC) as CV. cbv zeta in CV. rewrite EZ in CV. unfold om_control_v in CV. unfold om_control.
    destruct (control_circuit bits) as [ci| | |]; try discriminate CV. cbn [bind] in CV |- *. destruct (skeys (flag + 1) (div_ceil bits 8) (fst (Z0, Z1))) as [s0| | |]; try discriminate CV. cbn [bind] in CV |- *.
    destruct (skeys (flag + 1) (div_ceil bits 8) (snd (Z0, Z1))) as [s1| | |]; try discriminate CV. cbn [bind] in CV |- *. apply Ok_inj' in CV. apply (f_equal snd) in CV. cbn [snd] in CV. rewrite CV.
    pose proof (ltac:(eapply set_ok_len; eassumption) : om_control_set (jmCtrl m) = Ok o0) as K0. pose proof (ltac:(eapply set_ok_len; eassumption) : om_control_set (map2 xorb (jmCtrl m) (outv n bits flag V)) = Ok o1) as K1. unfold om_control_set in K0, K1. rewrite K0. cbn [bind]. rewrite K1. reflexivity.
  - unfold om_dup. cbn [fst snd]. rewrite EZ, EXo. rewrite (proj1 (ltac:(eapply duv_ok; eassumption) : agg_apply Prefix (fun a _ => a) (repeat 0%N w) V (cbv n bits flag V) = Ok (duv n w bits flag V) /\ TableSpec.rows_ok n w (duv n w bits flag V))). reflexivity.
  - eapply flags_v_ok; eassumption.
  - unfold om_perm. cbn [fst snd]. assert (FF : TableSpec.rows_ok n (flag + 1) (fl0 n flag m) /\ TableSpec.rows_ok n (flag + 1) (fl1 n w bits flag m V)) by (eapply fl_ok; eassumption). destruct FF as [F0 F1]. pose proof (xor_rows_ok F0 F1) as HX. rewrite (@apply_pick _ [] n) by (assumption || apply HX). cbn [bind]. unfold reshare. do 2 f_equal.
    apply (@lens_ext n (flag + 1)); [|apply chunks_lens, Lb1|].
    { apply xor_rows_lens; [apply chunks_lens, Lb0|]. apply (@rows_lens n (flag + 1)). apply pick_rows_ok; assumption. }
    intros i j Hi Hj. assert (LP : lens n (flag + 1) (pick [] p (xor_rows (fl0 n flag m) (fl1 n w bits flag m V)))) by (apply rows_lens, pick_rows_ok; assumption).
    rewrite (@xor_rows_cell n (flag + 1)) by (try apply chunks_lens; assumption). rewrite pick_nth by (rewrite (is_perm_length HP); exact Hi).
    cbn [permuted] in HPb. apply (gathered_cel (n := n)) in HPb; [|exact HP|apply (rows_concat_length HX)]. destruct HPb as [_ HPb]. specialize (HPb i j Hi Hj).
    rewrite (rows_cel HX (proj2 (nthp HP Hi)) Hj) in HPb. rewrite <- HPb. rewrite !(chunks_nth (n := n)) by assumption. rewrite !(PermCorProofs.cel_xors (n := n * (flag + 1))) by assumption. xors.
Qed.
End Chain.

Section Join.
Variables (L capS cap nL nR kb : nat) (enc : list N -> list N).
Let n := nL + nR.
Let bits := key_bits kb nL nR.
Let c := div_ceil bits 8.
Hypothesis Henc : comp_size nL nR < kb -> linear_enc (div_ceil kb 8) (div_ceil (comp_size nL nR) 8) enc.

(* the whole run *)
Lemma join_total q0 q1 rd : join_sizes L capS cap nL nR kb q0 -> queries_ok nL nR kb q0 q1 -> join_fits L bits n capS cap (jw kb q0) rd ->
  exists t r t0 t1, jsort L nL nR kb enc q0 q1 (jrSort rd) = Ok t /\ psh n (fst (snd (snd t))) (snd (snd (snd t))) /\
    join_chain n (jw kb q0) bits (jflag q0) (fst (snd (snd t))) (snd (snd (snd t))) (jrows nL nR kb enc false q0) (jrows nL nR kb enc true q1) (jrPerm rd) (jrMasks rd) = Ok r /\
    om_output nL (jflag q0 + 1) (fst (ctW r)) (qSel q0) = Ok t0 /\ om_output nL (jflag q0 + 1) (snd (ctW r)) (qSel q1) = Ok t1 /\
    TableSpec.rows_ok n (jw kb q0) (jrows nL nR kb enc false q0) /\ TableSpec.rows_ok n (jw kb q0) (jrows nL nR kb enc true q1) /\
    om_join_v L enc q0 q1 rd = Ok (JTr t (comp_validate_msgs (fst (jrPerm rd)) (snd (jrPerm rd))) r (t0, t1)).
Proof.
  intros HS HQ (SF & P1 & P2 & CO & B0 & B1 & Hm). destruct (sizes_facts Henc HS) as (SO & Hn2 & Hb & Hww & Hcp & Hc64 & Hn32 & HL0).
  pose proof HQ as (Q0 & Q1 & Hsel). pose proof (proj2 (same_left_offs Hsel)) as Elb. assert (LR := ceil_passes Henc HL0 Hb P1 P2).
  destruct (sort_psh SO (jkeys_fit Henc Q0) (jkeys_fit Henc Q1) LR SF) as (t & G & PS).
  assert (R0 := @jrows_ok nL nR kb enc Henc false q0 (jflag q0) Q0 eq_refl). fold (jw kb q0) in R0.
  assert (R1 := @jrows_ok nL nR kb enc Henc true q1 (jflag q0) Q1 ltac:(unfold jflag; rewrite Elb; reflexivity)). fold (jw kb q0) in R1.
  destruct (jrPerm rd) as [c0 c1] eqn:EP. cbn [fst snd] in *.
  destruct (@chain_ok n (jw kb q0) bits (jflag q0) cap Hn2 Hn32 Hb Hww Hcp Hc64 _ _ _ _ c0 c1 (jrMasks rd) CO PS R0 R1 Hm) as (m1 & m2 & z0 & z1 & m3 & b0 & b1 & Lz0 & Lz1 & Lb0 & Lb1 & _ & _ & E & _).
  assert (E2 := E). rewrite <- EP in E2. destruct (@join_eq L capS cap nL nR kb enc Henc q0 q1 rd t _ HS HQ ltac:(rewrite EP; exact CO) G E2 ltac:(apply chunks_lens; exact Lb0) ltac:(apply chunks_lens; exact Lb1)) as (t0 & t1 & O0 & O1 & EJ).
  rewrite EP in EJ. cbn [fst snd] in EJ. eexists t, _, t0, t1. split; [exact G|]. split; [exact PS|]. split; [exact E|]. split; [exact O0|]. split; [exact O1|]. split; [exact R0|]. split; [exact R1|]. exact EJ.
Qed.

Lemma key_slice role q i : query_ok nL nR kb q -> i < n -> slice (nth i (jrows nL nR kb enc role q) []) (jflag q + 1) c = nth i (jkeys nL nR kb enc q) [].
Proof.
  intros HQ Hi. unfold jrows. fold n. rewrite nth_map_seq' by exact Hi. cbn [Nat.add]. unfold om_party_row. cbn [bRows]. pose proof HQ as (_ & _ & _ & _ & Fs).
  rewrite app_assoc. replace (jflag q + 1) with (length (lpart (qSel q) i ++ [if role && (i <? nL) then 1%N else 0%N])) by (rewrite app_length, (proj1 (lpart_len i Fs)); reflexivity).
  apply slice_mid. apply (rows_nth (jkeys_ok Henc HQ) Hi).
Qed.
Lemma keys_xor q0 q1 : queries_ok nL nR kb q0 q1 -> xor_rows (jkeys nL nR kb enc q0) (jkeys nL nR kb enc q1) = map (seen enc kb nL nR) (left_keys q0 q1 ++ right_keys q0 q1).
Proof.
  intros ((CL0 & CR0 & BL0 & BR0 & _) & (CL1 & CR1 & BL1 & BR1 & _) & _). destruct (col_rows CL0) as [RL0 _], (col_rows CR0) as [RR0 _], (col_rows CL1) as [RL1 _], (col_rows CR1) as [RR1 _]. rewrite ?BL0, ?BR0, ?BL1, ?BR1 in *.
  pose proof (rows_app RL0 RR0) as A0. pose proof (rows_app RL1 RR1) as A1.
  assert (EA : xor_rows (bRows (cDat (qLeft q0)) ++ bRows (cDat (qRight q0))) (bRows (cDat (qLeft q1)) ++ bRows (cDat (qRight q1))) = left_keys q0 q1 ++ right_keys q0 q1) by (apply xor_rows_app; rewrite (proj1 RL0), (proj1 RL1); reflexivity).
  unfold jkeys. rewrite <- EA. unfold seen. destruct (Nat.leb_spec kb (comp_size nL nR)) as [H|H]; [rewrite !map_id; reflexivity|]. apply (map_enc_xor (Henc H) A0 A1).
Qed.

Lemma reads1 q0 q1 rd : join_sizes L capS cap nL nR kb q0 -> queries_ok nL nR kb q0 q1 -> join_fits L bits n capS cap (jw kb q0) rd ->
  exists v, join_view1 true L enc q0 q1 rd = Ok v /\
    read1 n (jw kb q0) cap (jflag q0 + 1) c (jkeys nL nR kb enc q1) v = map (seen enc kb nL nR) (left_keys q0 q1 ++ right_keys q0 q1).
Proof.
  intros HS HQ HF. destruct (join_total HS HQ HF) as (t & r & t0 & t1 & _ & PS & EC & _ & _ & R0 & R1 & EJ). destruct HF as (_ & _ & _ & CO & _). destruct (sizes_facts Henc HS) as (SO & Hn2 & Hb & Hww & Hcp & Hc64 & Hn32 & HL0).
  unfold join_view1. rewrite EJ. cbn [bind]. eexists. split; [reflexivity|]. unfold comp_validate_msgs, chain_see1, read1. cbn [jtVal jtChain fst snd].
  destruct (jrPerm rd) as [c0 c1]. cbn [fst snd]. pose proof (proj1 (chain_reads Hn2 Hn32 Hb Hww Hcp Hc64 CO PS R0 R1 EC)) as K; fold n in K; rewrite K; clear K. rewrite <- (keys_xor HQ). f_equal. destruct HQ as (Q0 & _).
  pose proof (jkeys_ok Henc Q0) as K0. apply nth_ext with [] []; [rewrite map_length, (proj1 R0), (proj1 K0); reflexivity|]. rewrite map_length, (proj1 R0). intros i Hi.
  rewrite (@nth_map_d _ _ _ _ i []) by (rewrite (proj1 R0); exact Hi). apply (key_slice false Q0 Hi).
Qed.

Lemma perm_map_pos A n' p (F : nat -> A) : is_perm n' p -> Permutation (map (fun j => F (pos p j)) (seq 0 n')) (map F (seq 0 n')).
Proof.
  intros HP. rewrite <- (map_map (pos p) F). apply Permutation_map. apply NoDup_Permutation_bis.
  - apply (NoDup_nth _ 0). rewrite map_length, seq_length. intros i j Hi Hj E. rewrite !(@nth_map_d _ _ _ _ _ 0) in E by (rewrite seq_length; assumption). rewrite !seq_nth in E by assumption. cbn [Nat.add] in E.
    rewrite <- (proj1 (pos_perm HP Hi)), E. apply (pos_perm HP Hj).
  - rewrite map_length. apply Nat.le_refl.
  - intros x Hx. apply in_map_iff in Hx. destruct Hx as (j & <- & Hj). apply in_seq in Hj. apply in_seq. pose proof (proj2 (pos_perm HP (k := j) ltac:(lia))). lia.
Qed.

Lemma reads0 q0 q1 rd : join_sizes L capS cap nL nR kb q0 -> queries_ok nL nR kb q0 q1 -> join_fits L bits n capS cap (jw kb q0) rd ->
  exists v, join_view0 true L enc q0 q1 rd = Ok v /\
    Permutation (read0 n (jw kb q0) cap (jflag q0 + 1) c (dat (crA (cpR (fst (jrPerm rd))))) v) (map (seen enc kb nL nR) (left_keys q0 q1 ++ right_keys q0 q1)).
Proof.
  intros HS HQ HF. destruct (join_total HS HQ HF) as (t & r & t0 & t1 & _ & PS & EC & _ & _ & R0 & R1 & EJ). destruct HF as (_ & _ & _ & CO & _). destruct (sizes_facts Henc HS) as (SO & Hn2 & Hb & Hww & Hcp & Hc64 & Hn32 & HL0).
  unfold join_view0. rewrite EJ. cbn [bind]. eexists. split; [reflexivity|]. unfold comp_validate_msgs, chain_see0, read0. cbn [jtVal jtChain fst snd].
  destruct (jrPerm rd) as [c0 c1]. cbn [fst snd]. pose proof (proj2 (chain_reads Hn2 Hn32 Hb Hww Hcp Hc64 CO PS R0 R1 EC)) as K; fold n in K; rewrite K; clear K. rewrite <- (keys_xor HQ).
  destruct CO as ((_ & _ & _ & HR1) & _). cbn [snd] in HR1. rewrite map_map. rewrite (@perm_map_pos _ n (csPerm (cpS c1)) (fun k => slice (nth k (xor_rows (jrows nL nR kb enc false q0) (jrows nL nR kb enc true q1)) []) (jflag q0 + 1) c) (proj1 HR1)).
  destruct HQ as (Q0 & Q1 & Hsel). pose proof (proj2 (same_left_offs Hsel)) as Elb. pose proof (jkeys_ok Henc Q0) as K0. pose proof (jkeys_ok Henc Q1) as K1.
  erewrite map_ext_in with (g := fun i => nth i (xor_rows (jkeys nL nR kb enc q0) (jkeys nL nR kb enc q1)) []).
  - pose proof (rows_map_nth (xor_rows_ok K0 K1)) as K. fold n in K. rewrite <- K. apply Permutation_refl.
  - intros i Hi. apply in_seq in Hi. rewrite !(@nth_xor_rows n) by (try apply R0; try apply R1; try apply K0; try apply K1; lia).
    rewrite map2_slice by (rewrite (proj1 (rows_nth R0 (k := i) ltac:(lia))), (proj1 (rows_nth R1 (k := i) ltac:(lia))); reflexivity).
    f_equal; [apply (key_slice false Q0); lia|]. unfold jflag. rewrite Elb. apply (key_slice true Q1). lia.
Qed.

(* the join with messages is the join of OmJoinModel *)
Lemma join_run q0 q1 rd : join_sizes L capS cap nL nR kb q0 -> queries_ok nL nR kb q0 q1 -> join_fits L bits n capS cap (jw kb q0) rd ->
  Forall (fun x => (le_num x < 2 ^ N.of_nat bits)%N) (map (seen enc kb nL nR) (left_keys q0 q1 ++ right_keys q0 q1)) ->
  exists tr, om_join_v L enc q0 q1 rd = Ok tr /\
    om_join enc q0 q1 (OmR (fst (ctZ (jtChain tr))) (jmCtrl (jrMasks rd)) (jmDup (jrMasks rd)) (jmFlag (jrMasks rd)) (fst (ctW (jtChain tr)))) = Ok (jtOut tr).
Proof.
  intros HS HQ HF HB. destruct (join_total HS HQ HF) as (t & r & t0 & t1 & ES & PS & EC & T0 & T1 & R0 & R1 & EJ). destruct (sizes_facts Henc HS) as (SO & Hn2 & Hb & Hww & Hcp & Hc64 & Hn32 & HL0).
  destruct HF as (SF & P1 & P2 & CO & _ & _ & Hm). assert (LR := ceil_passes Henc HL0 Hb P1 P2).
  exists (JTr t (comp_validate_msgs (fst (jrPerm rd)) (snd (jrPerm rd))) r (t0, t1)). split; [exact EJ|]. cbn [jtChain jtOut].
  destruct HS as (HL & HR & Hkb & _). pose proof HQ as (Q0 & Q1 & Hs). pose proof (load_keys_ok enc HL HR Q0) as E0. pose proof (load_keys_ok enc HL HR Q1) as E1. fold (jkeys nL nR kb enc q0) in E0. fold (jkeys nL nR kb enc q1) in E1.
  fold bits in E0, E1. fold c in E0, E1. pose proof (jkeys_ok Henc Q0) as K0. pose proof (jkeys_ok Henc Q1) as K1. destruct (same_left_offs Hs) as [Eo Elb].
  pose proof Q0 as (CL0 & _ & BL0 & _ & F0). pose proof Q1 as (_ & _ & _ & _ & F1). unfold om_join. rewrite E0, E1. cbn [bind bBits bCols bRows rSort rCtrl rDup rFlag rUnsort].
  assert (EN : bm_n (BM bits c (jkeys nL nR kb enc q0)) = n) by apply K0. assert (ENL : bm_n (cDat (qLeft q0)) = nL) by apply CL0. rewrite ENL, BL0.
  assert (EO : om_sort (BM bits c (jkeys nL nR kb enc q0)) (BM bits c (jkeys nL nR kb enc q1)) = Ok (map N.to_nat (xors (fst (snd (snd t))) (snd (snd (snd t)))))).
  { destruct (@om_sort_ok n c (BM bits c (jkeys nL nR kb enc q0)) (BM bits c (jkeys nL nR kb enc q1)) EN eq_refl K0 K1) as (p & Ep & Hp). rewrite Ep. f_equal. cbn [bRows] in Hp.
    destruct SO as (A1 & A2 & A3 & A4 & A5 & A6). destruct SF as [RF RP]. pose proof (xor_rows_ok K0 K1) as HX.
    assert (HK : forall i, i < n -> keyn c (xors (concat (jkeys nL nR kb enc q0)) (concat (jkeys nL nR kb enc q1))) i = le_num (nth i (xor_rows (jkeys nL nR kb enc q0) (jkeys nL nR kb enc q1)) [])).
    { intros i Hi. unfold xors. rewrite (concat_map2 (rows_same_len K0 K1)). unfold keyn. f_equal. fold c in HX. rewrite <- (@slice_rows n c _ i []) by assumption. rewrite app_nil_r. reflexivity. }
    destruct (@gen_perm_ok L bits n capS c (concat (jkeys nL nR kb enc q0)) (concat (jkeys nL nR kb enc q1)) (fst (jrSort rd)) (snd (jrSort rd))) as (p0 & p1 & G & _ & _ & HG); try assumption.
    - apply (rows_concat_bytes K0).
    - apply (rows_concat_bytes K1).
    - apply (rows_concat_length K0).
    - apply (rows_concat_length K1).
    - intros i Hi. rewrite HK by exact Hi. rewrite (keys_xor HQ). rewrite Forall_forall in HB. apply HB. apply nth_In. rewrite <- (keys_xor HQ), (proj1 HX). exact Hi.
    - apply RF.
    - revert RP. apply Forall_impl. intros x (X1 & _ & _ & X2). split; [exact X1|apply X2].
    - unfold jsort in ES. apply sort_eq in ES. fold n in ES. fold bits in ES. fold c in ES. rewrite G in ES. apply Ok_inj' in ES. rewrite <- ES. cbn [fst snd]. apply (@sorts_unique n _ _ _ Hp).
      destruct HG as [G1 G2]. split; [exact G1|]. intros i j Hi Hj. rewrite (G2 i j Hi Hj), !HK by assumption. reflexivity. }
  rewrite EO. cbn [bind]. pose proof (key_bits_le kb nL nR) as Hck. fold bits in Hck. fold c in Hck.
  assert (E3 : om_concat false nL (qSel q0) (BM bits c (jkeys nL nR kb enc q0)) (om_offsets (qSel q0) bits) (om_data_bits (qSel q0) kb) = Ok (jrows nL nR kb enc false q0)).
  { apply (@om_concat_ok false nL nR n (qSel q0) (BM bits c (jkeys nL nR kb enc q0)) c bits kb); try assumption; try reflexivity; try (unfold n; lia). }
  rewrite E3. cbn [bind].
  assert (E2 : om_concat true nL (qSel q1) (BM bits c (jkeys nL nR kb enc q1)) (om_offsets (qSel q0) bits) (om_data_bits (qSel q0) kb) = Ok (jrows nL nR kb enc true q1)).
  { unfold om_offsets, om_data_bits. rewrite Eo, Elb. apply (@om_concat_ok true nL nR n (qSel q1) (BM bits c (jkeys nL nR kb enc q1)) c bits kb); try assumption; try reflexivity; try (unfold n; lia). apply K1. }
  rewrite E2. cbn [bind]. destruct (jrPerm rd) as [c0 c1]. cbn [fst snd] in *.
  destruct (@chain_run n (jw kb q0) bits (jflag q0) cap Hn2 Hn32 Hb Hww Hcp Hc64 _ _ _ _ c0 c1 (jrMasks rd) r CO PS R0 R1 Hm EC) as (d & co & u & f & X1 & X2 & X3 & X4 & X5).
  cbv zeta in *. rewrite X1. cbn [bind]. unfold jflag in *. rewrite X2. cbn [bind]. rewrite (ltac:(eapply data_cols; exact Henc) : div_ceil (om_data_bits (qSel q0) kb) 8 = jw kb q0). rewrite X3. cbn [bind]. rewrite X4. cbn [bind]. rewrite X5. cbn [bind]. rewrite T0. cbn [bind]. rewrite T1. reflexivity.
Qed.
End Join.
