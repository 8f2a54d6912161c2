(* The whole join with the runs of its circuits. *)
From Verif Require Import Base Words PermModel PermSpec PermCorModel PermCorSpec PermViewModel ShuffleModel ShuffleSpec ExtractSpec KeyMultModel RadixModel RadixSpec SortViewModel SortPrivSpec GenPermViewModel GenPermPrivSpec GenPermPrivacy.
From Verif Require Import AggCirModel TableModel TableSpec TableProofs TrimProofs TableOpsSpec TableIOModel BinFileProofs OmJoinModel OmJoinSpec PackProofs OmJoinProofs OmJoinTop JoinViewModel JoinPrivSpec JoinPrivacy JoinHides JoinLeak JoinRunModel JoinRunSpec JoinRunChain JoinRunBytes.

Section Join.
Variables (L capS cap nL nR kb : nat) (enc : list N -> list N).
Let n := nL + nR.
Let bits := key_bits kb nL nR.
Let c := div_ceil bits 8.
Hypothesis Henc : comp_size nL nR < kb -> linear_enc (div_ceil kb 8) (div_ceil (comp_size nL nR) 8) enc.

Lemma run_ok lb q0 q1 rd jl jt : join_sizes L capS cap nL nR kb q0 -> queries_ok nL nR kb q0 q1 -> run_fits L bits n capS cap rd ->
  lib_ok (jw kb q0) lb -> levels_fit lb (jw kb q0) bits jl -> tapes_fit n jl jt ->
  exists m tr msgs, join_fits L bits n capS cap (jw kb q0) (JR (fst rd) (snd rd) m) /\ om_join_v L enc q0 q1 (JR (fst rd) (snd rd) m) = Ok tr /\ om_join_run lb L enc q0 q1 rd jl jt = Ok (tr, msgs) /\
    TableSpec.rows_ok n (jw kb q0) (fst (ctZ (jtChain tr))) /\ TableSpec.rows_ok n (jflag q0 + 1) (fst (ctW (jtChain tr))).
Proof.
  intros HS HQ (SF & P1 & P2 & CO & B0 & B1) HL HV HT. destruct (sizes_facts Henc HS) as (SO & Hn2 & Hb & Hww & Hcp & Hc64 & Hn32 & HL0).
  assert (JF : forall m, masks_ok n (jw kb q0) m -> join_fits L bits n capS cap (jw kb q0) (JR (fst rd) (snd rd) m)).
  { intros m Hm. unfold join_fits. cbn [jrSort jrPerm jrMasks]. split; [exact SF|]. split; [exact P1|]. split; [exact P2|]. split; [exact CO|]. split; [exact B0|]. split; [exact B1|exact Hm]. }
  set (m0 := JM (repeat false n) (repeat (repeat 0%N (jw kb q0)) n) (repeat false n)).
  assert (Hm0 : masks_ok n (jw kb q0) m0).
  { unfold masks_ok, m0. cbn [jmCtrl jmDup jmFlag]. rewrite !repeat_length. split; [reflexivity|]. split; [|reflexivity]. split; [apply repeat_length|]. apply Forall_forall. intros x Hx. apply repeat_spec in Hx. subst x. split; [apply repeat_length|apply bytes_zeros]. }
  destruct (join_total Henc HS HQ (JF m0 Hm0)) as (t & r0 & _ & _ & ES & PS & _ & _ & _ & R0 & R1 & _). cbn [jrSort] in ES.
  destruct (snd rd) as [c0 c1] eqn:EP. cbn [fst snd] in *.
  destruct (@chain_run_cir n (jw kb q0) bits (jflag q0) cap lb jl jt Hn2 Hn32 Hb Hww Hcp Hc64 HL HV HT _ _ _ _ c0 c1 CO PS R0 R1) as (m & msgs & Hm & ER).
  destruct (join_total Henc HS HQ (JF m Hm)) as (t' & r & t0 & t1 & ES' & _ & EC & T0 & T1 & _ & _ & EJ). cbn [jrSort jrPerm jrMasks] in ES', EC, EJ. rewrite ES in ES'. apply Ok_inj' in ES'. subst t'.
  fold n in EC. fold bits in EC. rewrite EC in ER. cbn [bind] in ER.
  exists m, (JTr t (comp_validate_msgs c0 c1) r (t0, t1)), msgs. split; [apply (JF m Hm)|]. split; [exact EJ|]. split.
  - destruct HS as (HnL & HnR & Hkb & _). pose proof HQ as (Q0 & Q1 & Hs). pose proof (load_keys_ok enc HnL HnR Q0) as E0. pose proof (load_keys_ok enc HnL HnR Q1) as E1. fold (jkeys nL nR kb enc q0) in E0. fold (jkeys nL nR kb enc q1) in E1.
    fold bits in E0, E1. fold c in E0, E1. pose proof (jkeys_ok Henc Q0) as K0. pose proof (jkeys_ok Henc Q1) as K1. destruct (same_left_offs Hs) as [Eo Elb].
    pose proof Q0 as (CL0 & _ & BL0 & _ & F0). pose proof Q1 as (_ & _ & _ & _ & F1). unfold om_join_run. rewrite E0, E1. cbn [bind bBits bCols bRows].
    assert (EN : bm_n (BM bits c (jkeys nL nR kb enc q0)) = n) by apply K0. assert (ENL : bm_n (cDat (qLeft q0)) = nL) by apply CL0. rewrite EN, ENL, BL0. unfold jsort in ES. fold n in ES. fold bits in ES. fold c in ES. rewrite ES. cbn [bind].
    pose proof (key_bits_le kb nL nR) as Hck. fold bits in Hck. fold c in Hck.
    assert (E3 : om_concat false nL (qSel q0) (BM bits c (jkeys nL nR kb enc q0)) (om_offsets (qSel q0) bits) (om_data_bits (qSel q0) kb) = Ok (jrows nL nR kb enc false q0)).
    { apply (@om_concat_ok false nL nR n (qSel q0) (BM bits c (jkeys nL nR kb enc q0)) c bits kb); try assumption; try reflexivity; try (unfold n; lia). }
    assert (E2 : om_concat true nL (qSel q1) (BM bits c (jkeys nL nR kb enc q1)) (om_offsets (qSel q0) bits) (om_data_bits (qSel q0) kb) = Ok (jrows nL nR kb enc true q1)).
    { unfold om_offsets, om_data_bits. rewrite Eo, Elb. apply (@om_concat_ok true nL nR n (qSel q1) (BM bits c (jkeys nL nR kb enc q1)) c bits kb); try assumption; try reflexivity; try (unfold n; lia). apply K1. }
    rewrite E3. cbn [bind]. rewrite E2. cbn [bind]. rewrite EP. cbn [fst snd]. rewrite (@validate_good n cap c0 c1 (proj1 CO)). cbn [bind].
    rewrite (ltac:(eapply data_cols; exact Henc) : div_ceil (om_data_bits (qSel q0) kb) 8 = jw kb q0). fold (jflag q0). rewrite ER. cbn [bind fst snd]. rewrite T0. cbn [bind]. rewrite T1. reflexivity.
  - cbn [jtChain]. apply (@chain_bytes n (jw kb q0) bits (jflag q0) cap Hn2 Hn32 Hb Hww Hcp Hc64 _ _ _ _ c0 c1 m r CO B0 B1 PS R0 R1 Hm EC).
Qed.

Lemma run_join lb q0 q1 rd jl jt : join_sizes L capS cap nL nR kb q0 -> queries_ok nL nR kb q0 q1 -> run_fits L bits n capS cap rd ->
  lib_ok (jw kb q0) lb -> levels_fit lb (jw kb q0) bits jl -> tapes_fit n jl jt ->
  Forall (fun x => (le_num x < 2 ^ N.of_nat bits)%N) (map (seen enc kb nL nR) (left_keys q0 q1 ++ right_keys q0 q1)) ->
  exists tr msgs r, om_join_run lb L enc q0 q1 rd jl jt = Ok (tr, msgs) /\ om_rand_ok n (jw kb q0) (jflag q0 + 1) r /\ om_join enc q0 q1 r = Ok (jtOut tr).
Proof.
  intros HS HQ HF HL HV HT HB. destruct (run_ok HS HQ HF HL HV HT) as (m & tr & msgs & JF & EJ & ER & RZ & RW).
  destruct (join_run Henc HS HQ JF HB) as (tr' & EJ' & EO). rewrite EJ in EJ'. apply Ok_inj' in EJ'. subst tr'. cbn [jrMasks] in EO.
  destruct JF as (_ & _ & _ & _ & _ & _ & (LC & HD & LF)). cbn [jrMasks] in *.
  exists tr, msgs. eexists. split; [exact ER|]. split; [|exact EO]. split; [exact RZ|]. split; [exact LC|]. split; [exact HD|]. split; [exact LF|exact RW].
Qed.
End Join.
