(* A whole join with the runs of its circuits, without validate: what a party sees hides the other party's tables. *)
From Verif Require Import Base Words PermModel PermSpec PermCorModel PermCorSpec PermViewModel ShuffleModel ShuffleSpec ExtractSpec KeyMultModel RadixModel RadixSpec SortViewModel SortPrivSpec GenPermViewModel GenPermPrivSpec GenPermPrivacy.
From Verif Require Import AggCirModel AggTwoTree AggViewSpec AggRunModel TableModel TableSpec TableProofs TrimProofs TableOpsSpec TableIOModel BinFileProofs OmJoinModel OmJoinSpec PackProofs OmJoinProofs OmJoinTop JoinViewModel JoinPrivSpec JoinPrivacy JoinHides JoinLeak JoinRunModel JoinRunSpec JoinRunChain JoinRunBytes JoinRunTop JoinMsgSpec JoinMsgStages JoinMsgChain.

Section Join.
Variables (L capS cap nL nR kb : nat) (enc : list N -> list N).
Let n := nL + nR.
Let bits := key_bits kb nL nR.
Let c := div_ceil bits 8.
Hypothesis Henc : comp_size nL nR < kb -> linear_enc (div_ceil kb 8) (div_ceil (comp_size nL nR) 8) enc.
Notation rand := ((radix_round * list ((comp * comp) * radix_round)) * (comp * comp))%type.

(* the join is the sort, the rest, the tables *)
Lemma run_split lb q0 q1 (rd : rand) jl jt : join_sizes L capS cap nL nR kb q0 -> queries_ok nL nR kb q0 q1 -> comps_ok n cap (snd rd) ->
  om_join_run lb L enc q0 q1 rd jl jt =
    do t <- jsort L nL nR kb enc q0 q1 (fst rd);
    do r <- join_chain_run lb n (jw kb q0) bits (jflag q0) (fst (snd (snd t))) (snd (snd (snd t))) (jrows nL nR kb enc false q0) (jrows nL nR kb enc true q1) (snd rd) jl jt;
    do t0 <- om_output nL (jflag q0 + 1) (fst (ctW (fst r))) (qSel q0);
    do t1 <- om_output nL (jflag q0 + 1) (snd (ctW (fst r))) (qSel q1);
    Ok (JTr t (comp_validate_msgs (fst (snd rd)) (snd (snd rd))) (fst r) (t0, t1), snd r).
Proof.
  intros HS HQ CO. destruct HS as (HnL & HnR & Hkb & _). pose proof HQ as (Q0 & Q1 & Hs). pose proof (load_keys_ok enc HnL HnR Q0) as E0. pose proof (load_keys_ok enc HnL HnR Q1) as E1. fold (jkeys nL nR kb enc q0) in E0. fold (jkeys nL nR kb enc q1) in E1.
  fold bits in E0, E1. fold c in E0, E1. pose proof (jkeys_ok Henc Q0) as K0. pose proof (jkeys_ok Henc Q1) as K1. destruct (same_left_offs Hs) as [Eo Elb].
  pose proof Q0 as (CL0 & _ & BL0 & _ & F0). pose proof Q1 as (_ & _ & _ & _ & F1). unfold om_join_run. rewrite E0, E1. cbn [bind bBits bCols bRows].
  assert (EN : bm_n (BM bits c (jkeys nL nR kb enc q0)) = n) by apply K0. assert (ENL : bm_n (cDat (qLeft q0)) = nL) by apply CL0. rewrite EN, ENL, BL0. unfold jsort. fold n. fold bits. fold c.
  pose proof (key_bits_le kb nL nR) as Hck. fold bits in Hck. fold c in Hck.
  assert (E3 : om_concat false nL (qSel q0) (BM bits c (jkeys nL nR kb enc q0)) (om_offsets (qSel q0) bits) (om_data_bits (qSel q0) kb) = Ok (jrows nL nR kb enc false q0)).
  { apply (@om_concat_ok false nL nR n (qSel q0) (BM bits c (jkeys nL nR kb enc q0)) c bits kb); try assumption; try reflexivity; try (unfold n; lia). }
  assert (E2 : om_concat true nL (qSel q1) (BM bits c (jkeys nL nR kb enc q1)) (om_offsets (qSel q0) bits) (om_data_bits (qSel q0) kb) = Ok (jrows nL nR kb enc true q1)).
  { unfold om_offsets, om_data_bits. rewrite Eo, Elb. apply (@om_concat_ok true nL nR n (qSel q1) (BM bits c (jkeys nL nR kb enc q1)) c bits kb); try assumption; try reflexivity; try (unfold n; lia). apply K1. }
  rewrite E3, E2. rewrite (@validate_good n cap (fst (snd rd)) (snd (snd rd)) (proj1 CO)). cbn [bind].
  rewrite (ltac:(eapply data_cols; exact Henc) : div_ceil (om_data_bits (qSel q0) kb) 8 = jw kb q0). fold (jflag q0). reflexivity.
Qed.

Notation fits_m q0 rd m := (join_fits L bits n capS cap (jw kb q0) (JR (fst rd) (snd rd) m)).
Lemma run_parts lb q0 q1 (rd : rand) m jl tr : join_sizes L capS cap nL nR kb q0 -> queries_ok nL nR kb q0 q1 -> fits_m q0 rd m -> om_join_v L enc q0 q1 (JR (fst rd) (snd rd) m) = Ok tr ->
  exists t : round_tr * (list step_tr * (list N * list N)), jsort L nL nR kb enc q0 q1 (fst rd) = Ok t /\ psh n (fst (snd (snd t))) (snd (snd (snd t))) /\
    rows_ok n (jw kb q0) (jrows nL nR kb enc false q0) /\ rows_ok n (jw kb q0) (jrows nL nR kb enc true q1) /\
    join_chain n (jw kb q0) bits (jflag q0) (fst (snd (snd t))) (snd (snd (snd t))) (jrows nL nR kb enc false q0) (jrows nL nR kb enc true q1) (snd rd) m = Ok (jtChain tr) /\
    forall jt msgs, om_join_run lb L enc q0 q1 rd jl jt = Ok (tr, msgs) <->
     join_chain_run lb n (jw kb q0) bits (jflag q0) (fst (snd (snd t))) (snd (snd (snd t))) (jrows nL nR kb enc false q0) (jrows nL nR kb enc true q1) (snd rd) jl jt = Ok (jtChain tr, msgs).
Proof.
  intros HS HQ HF EJ. destruct (join_total Henc HS HQ HF) as (t & r & t0 & t1 & ES & PS & EC & T0 & T1 & R0 & R1 & EJ'). cbn [jrSort jrPerm jrMasks] in *. rewrite EJ in EJ'. apply Ok_inj' in EJ'. subst tr. cbn [jtChain].
  exists t. split; [exact ES|]. split; [exact PS|]. split; [exact R0|]. split; [exact R1|]. split; [exact EC|]. intros jt msgs. destruct HF as (_ & _ & _ & CO & _). cbn [jrPerm] in CO. rewrite (@run_split lb q0 q1 rd jl jt HS HQ CO). rewrite ES. cbn [bind]. split.
  - intros E. apply bind_inv in E. destruct E as ((r2 & g) & E1 & E). cbn [fst snd] in E. apply bind_inv in E. destruct E as (? & _ & E). apply bind_inv in E. destruct E as (? & _ & E). rewrite E1. congruence.
  - intros E. rewrite E. cbn [bind fst snd]. rewrite T0. cbn [bind]. rewrite T1. reflexivity.
Qed.

(* ---------- both parties, with the hiding of C70 put in ---------- *)
Section Side.
Variables (lb : join_lib) (jl : join_levels) (b : bool) (me ot : side) (rd0 : rand) (View : Type) (view : join_tr -> View) (same : rand -> rand -> Prop).
Hypothesis Hview : forall t t', view t = view t' -> own b (ctZ (jtChain t)) = own b (ctZ (jtChain t')) /\ own b (ctC (jtChain t)) = own b (ctC (jtChain t')) /\ own b (ctU (jtChain t)) = own b (ctU (jtChain t')) /\ own b (ctF (jtChain t)) = own b (ctF (jtChain t')).
Hypothesis Htrans : forall x y z, same x y -> same y z -> same x z.
Hypothesis Hs : side_looks n jl me ot.

Definition run_ok_for (x : rand * cors) : Prop := run_fits L bits n capS cap (fst x) /\ same rd0 (fst x) /\ side_fits me (snd x).
Notation jr x m := (JR (fst (fst x)) (snd (fst x)) m).
Notation run q0 q1 x := (om_join_run lb L enc q0 q1 (fst x) jl (both b me (side_with ot (snd x)))).

Definition rel (q0 q1 q0' q1' : om_query) (mv : join_rand -> join_rand) (x x' : rand * cors) : Prop :=
  run_ok_for x /\ run_ok_for x' /\ exists m m' tr tr' msgs msgs', join_fits L bits n capS cap (jw kb q0) (jr x m) /\ join_fits L bits n capS cap (jw kb q0) (jr x' m') /\ jr x' m' = mv (jr x m) /\
    om_join_v L enc q0 q1 (jr x m) = Ok tr /\ run q0 q1 x = Ok (tr, msgs) /\ om_join_v L enc q0' q1' (jr x' m') = Ok tr' /\ run q0' q1' x' = Ok (tr', msgs') /\ view tr = view tr' /\ cir_got b msgs = cir_got b msgs'.

(* what is known of the other tables and of C70's bijection *)
Definition moves (q0 q1 q0' q1' : om_query) (mv mv' : join_rand -> join_rand) : Prop :=
  join_sizes L capS cap nL nR kb q0 /\ queries_ok nL nR kb q0 q1 /\ join_sizes L capS cap nL nR kb q0' /\ queries_ok nL nR kb q0' q1' /\ jflag q0' = jflag q0 /\ jw kb q0' = jw kb q0 /\
  lib_ok (jw kb q0) lb /\ levels_fit lb (jw kb q0) bits jl /\
  forall rd, join_fits L bits n capS cap (jw kb q0) rd -> join_fits L bits n capS cap (jw kb q0) (mv rd) /\ same (jrSort rd, jrPerm rd) (jrSort (mv rd), jrPerm (mv rd)) /\ mv' (mv rd) = rd /\
    forall tr, om_join_v L enc q0 q1 rd = Ok tr -> exists tr', om_join_v L enc q0' q1' (mv rd) = Ok tr' /\ view tr' = view tr.

Lemma chains q0 q1 q0' q1' mv mv' x m tr msgs y m' tr' : moves q0 q1 q0' q1' mv mv' -> run_ok_for x -> join_fits L bits n capS cap (jw kb q0) (jr x m) -> join_fits L bits n capS cap (jw kb q0) (JR (fst y) (snd y) m') ->
  om_join_v L enc q0 q1 (jr x m) = Ok tr -> run q0 q1 x = Ok (tr, msgs) -> om_join_v L enc q0' q1' (JR (fst y) (snd y) m') = Ok tr' -> view tr = view tr' ->
  exists r', side_fits me r' /\ run q0' q1' (y, r') = Ok (tr', msgs) /\ forall r2 msgs2, side_fits me r2 -> run q0' q1' (y, r2) = Ok (tr', msgs2) -> cir_got b msgs2 = cir_got b msgs -> r2 = r'.
Proof.
  intros (HS & HQ & HS' & HQ' & EF & EW & HL & HV & _) (_ & _ & Hr) JF JF' EJ ER EJ' EV. destruct (sizes_facts Henc HS) as (SO & Hn2 & Hb & Hww & Hcp & Hc64 & Hn32 & _). rewrite <- EW in JF'.
  destruct (@run_parts lb q0 q1 (fst x) m jl tr HS HQ JF EJ) as (t & _ & PS & R0 & R1 & EC & EE). apply EE in ER. clear EE.
  destruct (@run_parts lb q0' q1' y m' jl tr' HS' HQ' JF' EJ') as (t' & _ & PS' & R0' & R1' & EC' & PARTS). rewrite EW, EF in EC', PARTS. rewrite EW in R0', R1'.
  destruct (Hview EV) as (V1 & V2 & V3 & V4). destruct JF as (_ & _ & _ & CO & _ & _ & Hm). destruct JF' as (_ & _ & _ & CO' & _ & _ & Hm'). cbn [jrPerm jrMasks] in CO, CO', Hm, Hm'. rewrite EW in Hm'.
  destruct (snd (fst x)) as [c0 c1] eqn:EX. destruct (snd y) as [c0' c1'] eqn:EY.
  destruct (@chain_hide n (jw kb q0) bits (jflag q0) cap lb jl b me ot Hn2 Hn32 Hb Hww Hcp Hc64 HL HV Hs _ _ _ _ c0 c1 (snd x) m (jtChain tr) msgs _ _ _ _ c0' c1' m' (jtChain tr') CO PS R0 R1 Hm Hr CO' PS' R0' R1' Hm' EC ER EC' V1 V2 V3 V4) as (r' & Hr' & E' & U).
  exists r'. split; [exact Hr'|]. cbn [fst snd]. split; [apply PARTS; exact E'|].
  intros r2 msgs2 Hr2 E2 V. apply PARTS in E2. exact (U r2 _ _ Hr2 E2 V).
Qed.

Lemma masks_same q0 q1 q0' q1' mv mv' (x : rand * cors) m m' tr : moves q0 q1 q0' q1' mv mv' -> join_fits L bits n capS cap (jw kb q0) (jr x m) -> join_fits L bits n capS cap (jw kb q0) (jr x m') ->
  om_join_v L enc q0 q1 (jr x m) = Ok tr -> om_join_v L enc q0 q1 (jr x m') = Ok tr -> m = m'.
Proof.
  intros (HS & HQ & _) JF JF' EJ EJ'. destruct (sizes_facts Henc HS) as (SO & Hn2 & Hb & Hww & Hcp & Hc64 & Hn32 & _).
  destruct (@run_parts lb q0 q1 (fst x) m jl tr HS HQ JF EJ) as (t & ES & PS & R0 & R1 & EC & _). destruct (@run_parts lb q0 q1 (fst x) m' jl tr HS HQ JF' EJ') as (t' & ES' & _ & _ & _ & EC' & _). rewrite ES in ES'. apply Ok_inj' in ES'. subst t'.
  destruct JF as (_ & _ & _ & CO & _ & _ & Hm). destruct JF' as (_ & _ & _ & _ & _ & _ & Hm'). cbn [jrPerm jrMasks] in CO, Hm, Hm'. destruct (snd (fst x)) as [c0 c1].
  exact (@masks_inj n (jw kb q0) bits (jflag q0) cap b Hn2 Hn32 Hb Hww Hcp Hc64 _ _ _ _ c0 c1 m m' _ _ CO PS R0 R1 Hm Hm' EC EC' eq_refl eq_refl eq_refl).
Qed.

Lemma rel_total q0 q1 q0' q1' mv mv' x : moves q0 q1 q0' q1' mv mv' -> run_ok_for x -> exists x', rel q0 q1 q0' q1' mv x x'.
Proof.
  intros HM Hx. pose proof HM as (HS & HQ & _ & _ & _ & _ & HL & HV & MV). pose proof Hx as (RF & SM & Hr).
  destruct (run_ok Henc HS HQ RF HL HV (tapes_side b Hs Hr)) as (m & tr & msgs & JF & EJ & ER & _). destruct (MV _ JF) as (JF' & SM' & _ & EJ'). destruct (EJ' tr EJ) as (tr' & EV & VV).
  set (y := (jrSort (mv (jr x m)), jrPerm (mv (jr x m)))). set (m' := jrMasks (mv (jr x m))). assert (EY : JR (fst y) (snd y) m' = mv (jr x m)) by (unfold y, m'; cbn [fst snd]; destruct (mv (jr x m)); reflexivity).
  rewrite <- EY in JF', EV. destruct (@chains q0 q1 q0' q1' mv mv' x m tr msgs y m' tr' HM Hx JF JF' EJ ER EV (eq_sym VV)) as (r' & Hr' & ER' & _).
  exists (y, r'). split; [exact Hx|]. split.
  - destruct JF' as (A1 & A2 & A3 & A4 & A5 & A6 & _). cbn [jrSort jrPerm] in *. split; [|split; [|exact Hr']]; cbn [fst].
    + split; [exact A1|]. split; [exact A2|]. split; [exact A3|]. split; [exact A4|]. split; [exact A5|exact A6].
    + apply (Htrans SM). cbn [jrSort jrPerm] in SM'. rewrite <- surjective_pairing in SM'. exact SM'.
  - exists m, m', tr, tr', msgs, msgs. cbn [fst snd] in *. split; [exact JF|]. split; [exact JF'|]. split; [exact EY|]. split; [exact EJ|]. split; [exact ER|]. split; [exact EV|]. split; [exact ER'|]. split; [congruence|reflexivity].
Qed.

Lemma rel_fun q0 q1 q0' q1' mv mv' x a e : moves q0 q1 q0' q1' mv mv' -> rel q0 q1 q0' q1' mv x a -> rel q0 q1 q0' q1' mv x e -> a = e.
Proof.
  intros HM (Hx & Ha & m & m' & tr & tr' & ms & ms' & JF & JF' & EM & EJ & ER & EJ' & ER' & VV & CG) (_ & He & k & k' & sr & sr' & ls & ls' & KF & KF' & KM & KJ & KR & KJ' & KR' & WW & DG).
  rewrite ER in KR. assert (sr = tr /\ ls = ms) as [-> ->] by (split; congruence). assert (k = m) as -> by exact (masks_same HM KF JF KJ EJ). rewrite <- EM in KM.
  assert (EY : fst e = fst a /\ k' = m') by (destruct a as [[a1 a2] a3], e as [[e1 e2] e3]; cbn [fst snd] in *; split; congruence). destruct EY as [EY ->]. rewrite EY in *. rewrite EJ' in KJ'. apply Ok_inj' in KJ'. subst sr'.
  destruct (@chains q0 q1 q0' q1' mv mv' x m tr ms (fst a) m' tr' HM Hx JF JF' EJ ER EJ' VV) as (r' & _ & _ & U). destruct Ha as (_ & _ & Ha). destruct He as (_ & _ & He). cbn [fst snd] in U.
  pose proof (U (snd a) ms' Ha ER' (eq_sym CG)) as X1. pose proof (U (snd e) ls' He KR' (eq_sym DG)) as X2. destruct a, e; cbn [fst snd] in *; congruence.
Qed.

Lemma rel_sym q0 q1 q0' q1' mv mv' x x' : moves q0 q1 q0' q1' mv mv' -> rel q0 q1 q0' q1' mv x x' -> rel q0' q1' q0 q1 mv' x' x.
Proof.
  intros (_ & _ & _ & _ & _ & EW & _ & _ & MV) (Hx & Hx' & m & m' & tr & tr' & ms & ms' & JF & JF' & EM & EJ & ER & EJ' & ER' & VV & CG). split; [exact Hx'|]. split; [exact Hx|].
  exists m', m, tr', tr, ms', ms. rewrite EW. split; [exact JF'|]. split; [exact JF|]. destruct (MV _ JF) as (_ & _ & MI & _). split; [rewrite EM, MI; reflexivity|]. split; [exact EJ'|]. split; [exact ER'|]. split; [exact EJ|]. split; [exact ER|]. split; [symmetry; exact VV|symmetry; exact CG].
Qed.

Theorem side_paired q0 q1 q0' q1' mv mv' : moves q0 q1 q0' q1' mv mv' -> moves q0' q1' q0 q1 mv' mv ->
  paired run_ok_for (fun q x => do y <- om_join_run lb L enc (fst q) (snd q) (fst x) jl (both b me (side_with ot (snd x))); Ok (view (fst y), cir_got b (snd y))) (q0, q1) (q0', q1').
Proof.
  intros HM HM'. exists (rel q0 q1 q0' q1' mv). cbn [fst snd]. split; [|split; [|split; [|split]]].
  - intros x x' (Hx & Hx' & m & m' & tr & tr' & ms & ms' & _ & _ & _ & _ & ER & _ & ER' & VV & CG). split; [exact Hx|]. split; [exact Hx'|]. exists (view tr, cir_got b ms). rewrite ER, ER'. cbn [bind fst snd]. rewrite VV, CG. split; reflexivity.
  - intros x Hx. apply (rel_total HM Hx).
  - intros x' Hx'. destruct (rel_total HM' Hx') as (x & R). exists x. apply (rel_sym HM' R).
  - intros x a e. apply (rel_fun HM).
  - intros x' a e A E. apply (rel_fun HM' (rel_sym HM A) (rel_sym HM E)).
Qed.
End Side.
End Join.
