(* What happens in a join after the sort, with the messages of its circuits: they hide the other party's rows. *)
From Verif Require Import Base Words PrfModel PermModel PermCorModel PermCorProofs PermViewModel KeyMultModel KeyMultProofs ShuffleModel ShuffleSpec GmwModel GmwSpec GmwPrivSpec AggModel AggSpec AggCirModel AggCirSpec AggTwoTree AggRunModel AggViewModel AggViewSpec AggViewHide RadixModel RadixSpec GenPermPrivacy
  AggRunProofs CtrlProofs WhereProofs HexProofs CompressProofs PackProofs AggCirProofs AggCirRun GmwProofs BitInjProofs TableModel TableSpec TrimProofs TableProofs TableIOModel OmJoinModel OmJoinSpec OmJoinProofs JoinViewModel JoinPrivSpec JoinPrivacy JoinRunModel JoinRunSpec JoinRunChain JoinMsgSpec JoinMsgStages.

Lemma xorb_inj : forall v m m' : list bool, length m = length v -> length m' = length v -> map2 xorb m v = map2 xorb m' v -> m = m'.
Proof.
  induction v as [|x v IH]; intros [|y m] [|y' m'] L L' E; cbn [length map2] in *; try discriminate; [reflexivity|]. injection E as E1 E2. f_equal; [destruct x, y, y'; cbn in E1; congruence|apply IH; [lia|lia|exact E2]].
Qed.
Lemma xor_rows_inj n w m m' v : lens n w m -> lens n w m' -> lens n w v -> xor_rows m v = xor_rows m' v -> m = m'.
Proof.
  intros Hm Hm' Hv E. apply (lens_ext Hm Hm'). intros i j Hi Hj. assert (X : N.lxor (nth j (nth i m []) 0%N) (nth j (nth i v []) 0%N) = N.lxor (nth j (nth i m' []) 0%N) (nth j (nth i v []) 0%N)).
  { rewrite <- (xor_rows_cell Hm Hv Hi Hj), <- (xor_rows_cell Hm' Hv Hi Hj), E. reflexivity. }
  apply (f_equal (fun x => N.lxor x (nth j (nth i v []) 0%N))) in X. rewrite !N.lxor_assoc, !N.lxor_nilpotent, !N.lxor_0_r in X. exact X.
Qed.
Lemma flr_inj n flag d f d' f' : length f = n -> length f' = n -> (forall i, i < n -> length (firstn flag (nth i d [])) = length (firstn flag (nth i d' []))) -> flr n flag d f = flr n flag d' f' -> f = f'.
Proof.
  intros L L' LD E. apply (@list_eq_nth _ false); [congruence|]. intros i Hi. rewrite L in Hi. apply (f_equal (fun l => nth i l [])) in E. unfold flr in E. rewrite !map_seq_nth in E by exact Hi.
  apply (f_equal (fun l => last l 0%N)) in E. rewrite !last_last in E. destruct (nth i f false), (nth i f' false); cbn in E; congruence.
Qed.

(* the shares of the sorted rows do not depend on the circuits *)
Lemma chain_sorted n w bits flag y0 y1 D0 D1 c m m' t t' : join_chain n w bits flag y0 y1 D0 D1 c m = Ok t -> join_chain n w bits flag y0 y1 D0 D1 c m' = Ok t' -> ctZ t = ctZ t'.
Proof.
  unfold join_chain. intros E E'. apply bind_inv in E. destruct E as (x1 & A1 & E). apply bind_inv in E. destruct E as (e & A2 & E). apply bind_inv in E. destruct E as (x2 & A3 & E). apply bind_inv in E. destruct E as ([[a0 g0] [a1 g1]] & A4 & E).
  rewrite A1 in E'. cbn [bind] in E'. rewrite A2 in E'. cbn [bind] in E'. rewrite A3 in E'. cbn [bind] in E'. rewrite A4 in E'. cbn [bind] in E'. cbv zeta in E, E'.
  repeat (apply bind_inv in E; destruct E as (? & _ & E)). repeat (apply bind_inv in E'; destruct E' as (? & _ & E')).
  repeat match type of E with (let '(_, _) := ?x in _) = _ => destruct x | (match ?x with _ => _ end) = _ => destruct x end. repeat match type of E' with (match ?x with _ => _ end) = _ => destruct x end. injection E as <-. injection E' as <-. reflexivity.
Qed.

Section Chain.
Variables (n w bits flag cap : nat) (lb : join_lib) (jl : join_levels) (b : bool) (me ot : side).
Hypothesis Hn : 2 <= n.
Hypothesis Hn32 : (N.of_nat n <= 2 ^ 32)%N.
Hypothesis Hb : 0 < bits.
Hypothesis Hw : flag + 1 + div_ceil bits 8 <= w.
Hypothesis Hcap : 4 + w + (flag + 1) <= cap.
Hypothesis Hcap' : (N.of_nat cap < 2 ^ 64)%N.
Hypothesis Hlb : lib_ok w lb.
Hypothesis Hjl : levels_fit lb w bits jl.
Hypothesis Hs : side_looks n jl me ot.

(* the shares a party sees determine the shares of party 0 *)
Lemma masks_inj y0 y1 D0 D1 c0 c1 m m' t t' : RadixSpec.comps_ok n cap (c0, c1) -> GenPermPrivacy.psh n y0 y1 -> rows_ok n w D0 -> rows_ok n w D1 -> masks_ok n w m -> masks_ok n w m' ->
  join_chain n w bits flag y0 y1 D0 D1 (c0, c1) m = Ok t -> join_chain n w bits flag y0 y1 D0 D1 (c0, c1) m' = Ok t' ->
  own b (ctC t) = own b (ctC t') -> own b (ctU t) = own b (ctU t') -> own b (ctF t) = own b (ctF t') -> m = m'.
Proof using Hn Hn32 Hb Hw Hcap Hcap'.
  intros HC HD H0 H1 Hm Hm' E E' EC EU EF. pose proof (Zv_ok HD H0 H1) as HV. set (V := Zv n y0 y1 D0 D1) in *.
  destruct (chain_ok Hn Hn32 Hb Hw Hcap Hcap' HC HD H0 H1 Hm) as (? & ? & ? & ? & ? & ? & ? & _ & _ & _ & _ & _ & _ & A & _). destruct (chain_ok Hn Hn32 Hb Hw Hcap Hcap' HC HD H0 H1 Hm') as (? & ? & ? & ? & ? & ? & ? & _ & _ & _ & _ & _ & _ & A' & _).
  rewrite E in A. rewrite E' in A'. injection A as ->. injection A' as ->. cbn [ctC ctU ctF] in *. fold V in EC, EU, EF. pose proof Hm as (L1 & R1 & L2). pose proof Hm' as (L1' & R1' & L2').
  assert (LO : length (outv n bits flag V) = n) by (apply (outv_len Hn Hn32 Hb Hw Hcap Hcap'), HV). pose proof (flv_len Hn Hn32 Hb Hw Hcap Hcap' HV) as LF. destruct (duv_ok Hn Hn32 Hb Hw Hcap Hcap' HV) as [_ HU].
  assert (A1 : jmCtrl m = jmCtrl m') by (destruct b; cbn [own fst snd] in EC; [exact EC|apply (@xorb_inj (outv n bits flag V)); [congruence|congruence|exact EC]]).
  assert (A2 : jmDup m = jmDup m') by (destruct b; cbn [own fst snd] in EU; [exact EU|apply (@xor_rows_inj n w _ _ (duv n w bits flag V)); [apply rows_lens; assumption..|exact EU]]).
  assert (A3 : jmFlag m = jmFlag m').
  { destruct b; cbn [own fst snd] in EF; unfold fl0, fl1 in EF; rewrite A2 in EF; apply flr_inj in EF; try reflexivity; try assumption; try (rewrite map2_length; lia). apply (@xorb_inj (flv n w bits flag V)); [congruence|congruence|exact EF]. }
  destruct m as [a1 a2 a3], m' as [b1 b2 b3]. cbn [jmCtrl jmDup jmFlag] in *. congruence.
Qed.

Notation run y0 y1 D0 D1 c r := (join_chain_run lb n w bits flag y0 y1 D0 D1 c jl (both b me (side_with ot r))).
Lemma run_inv base y0 y1 D0 D1 c r t msgs : run y0 y1 D0 D1 c r = Ok (t, msgs) ->
  exists q, cir w bits flag lb jl b me ot base r (ctZ t) = Ok (q, msgs) /\ ctC t = (map N.odd (fst (fst (fst q))), map N.odd (fst (fst (snd q)))) /\ ctU t = (snd (fst (fst q)), snd (fst (snd q))) /\ ctF t = (snd (fst q), snd (snd q)).
Proof using.
  unfold join_chain_run. intros E. apply bind_inv in E. destruct E as (x1 & _ & E). apply bind_inv in E. destruct E as (e & _ & E). apply bind_inv in E. destruct E as (x2 & _ & E). apply bind_inv in E. destruct E as ([[a0 g0] [a1 g1]] & _ & E).
  cbv zeta in E. apply bind_inv in E. destruct E as (o & E1 & E). apply bind_inv in E. destruct E as (p0 & E2 & E). apply bind_inv in E. destruct E as (p1 & E3 & E). apply bind_inv in E. destruct E as (u & E4 & E). apply bind_inv in E. destruct E as (f & E5 & E).
  apply bind_inv in E. destruct E as (x3 & _ & E). apply bind_inv in E. destruct E as ([[b0 h0] [b1 h1]] & _ & E). injection E as <- <-. cbn [ctZ ctC ctU ctF].
  set (z := (TableIOModel.chunks w n (dat a0), TableIOModel.chunks w n (dat a1))) in *. clearbody z. destruct z as [z0 z1].
  assert (X : cir w bits flag lb jl b me ot base r (z0, z1) = Ok (((fst (fst o), fst (fst u), fst (fst f)), (snd (fst o), snd (fst u), snd (fst f))), (snd o, snd u, snd f))).
  { unfold cir, do1. change (tC b me ot (fst (fst r))) with (jtpCtrl (both b me (side_with ot r))). rewrite E1. cbn [bind]. rewrite E2. cbn [bind]. rewrite E3. cbn [bind fst snd]. unfold do2.
    change (dup_run (lbMux lb) w jl (jtD b me ot base (snd (fst r))) (p0, p1) (z0, z1)) with (dup_run (lbMux lb) w jl (both b me (side_with ot r)) (p0, p1) (z0, z1)). rewrite E4. cbn [bind fst snd]. unfold do3.
    change (tF b me ot (snd r)) with (jtpFlag (both b me (side_with ot r))). change (fst (fst u), snd (fst u)) with (fst (fst u), snd (fst u)). rewrite <- surjective_pairing. rewrite E5. reflexivity. }
  eexists. split; [exact X|]. cbn [fst snd]. split; [reflexivity|]. split; apply surjective_pairing.
Qed.

Lemma chain_hide y0 y1 D0 D1 c0 c1 r m t msgs y0' y1' D0' D1' c0' c1' m' t' :
  RadixSpec.comps_ok n cap (c0, c1) -> GenPermPrivacy.psh n y0 y1 -> rows_ok n w D0 -> rows_ok n w D1 -> masks_ok n w m -> side_fits me r ->
  RadixSpec.comps_ok n cap (c0', c1') -> GenPermPrivacy.psh n y0' y1' -> rows_ok n w D0' -> rows_ok n w D1' -> masks_ok n w m' ->
  join_chain n w bits flag y0 y1 D0 D1 (c0, c1) m = Ok t -> run y0 y1 D0 D1 (c0, c1) r = Ok (t, msgs) -> join_chain n w bits flag y0' y1' D0' D1' (c0', c1') m' = Ok t' ->
  own b (ctZ t) = own b (ctZ t') -> own b (ctC t) = own b (ctC t') -> own b (ctU t) = own b (ctU t') -> own b (ctF t) = own b (ctF t') ->
  exists r', side_fits me r' /\ run y0' y1' D0' D1' (c0', c1') r' = Ok (t', msgs) /\
    forall r2 t2 msgs2, side_fits me r2 -> run y0' y1' D0' D1' (c0', c1') r2 = Ok (t2, msgs2) -> cir_got b msgs2 = cir_got b msgs -> r2 = r'.
Proof using All.
  intros HC HD H0 H1 Hm Hr HC' HD' H0' H1' Hm' EM ER EM' QZ QC QU QF.
  assert (Z0 : forall y0 y1 D0 D1 c0 c1 m t, RadixSpec.comps_ok n cap (c0, c1) -> GenPermPrivacy.psh n y0 y1 -> rows_ok n w D0 -> rows_ok n w D1 -> masks_ok n w m -> join_chain n w bits flag y0 y1 D0 D1 (c0, c1) m = Ok t -> in0 n w (ctZ t)).
  { intros a0 a1 B0 B1 e0 e1 k s KC KD K0 K1 Km KE. destruct (chain_ok Hn Hn32 Hb Hw Hcap Hcap' KC KD K0 K1 Km) as (? & ? & z0 & z1 & ? & ? & ? & L0 & L1 & _ & _ & EZ & _ & A & _). rewrite KE in A. injection A as ->. cbn [ctZ].
    split; [apply chunks_lens, L0|]. split; [apply chunks_lens, L1|]. cbn [fst snd]. rewrite EZ. apply (Zv_ok KD K0 K1). }
  destruct (run_inv r ER) as (q & EQ & C1 & C2 & C3).
  destruct (@cir_hides n w bits flag cap lb jl b me ot r Hn Hn32 Hb Hw Hcap Hcap' Hlb Hjl Hs Hr r (ctZ t) (ctZ t') q msgs Hr) as (r' & q' & Hr' & EQ' & EO & U); [eapply Z0; [..|exact EM]; assumption|eapply Z0; [..|exact EM']; assumption|exact QZ|exact EQ|].
  assert (RUN : forall r2, side_fits me r2 -> exists m2 t2 tr2, masks_ok n w m2 /\ join_chain n w bits flag y0' y1' D0' D1' (c0', c1') m2 = Ok t2 /\ run y0' y1' D0' D1' (c0', c1') r2 = Ok (t2, tr2) /\ ctZ t2 = ctZ t').
  { intros r2 Hr2. destruct (@chain_run_cir n w bits flag cap lb jl _ Hn Hn32 Hb Hw Hcap Hcap' Hlb Hjl (tapes_side b Hs Hr2) y0' y1' D0' D1' c0' c1' HC' HD' H0' H1') as (m2 & tr2 & Hm2 & E2).
    destruct (chain_ok Hn Hn32 Hb Hw Hcap Hcap' HC' HD' H0' H1' Hm2) as (? & ? & ? & ? & ? & ? & ? & _ & _ & _ & _ & _ & _ & A & _). exists m2. eexists. exists tr2. split; [exact Hm2|]. split; [exact A|]. rewrite A in E2. cbn [bind] in E2. split; [exact E2|]. exact (chain_sorted A EM'). }
  exists r'. split; [exact Hr'|]. split.
  - destruct (RUN r' Hr') as (m2 & t2 & tr2 & Hm2 & EM2 & ER2 & EZ2). destruct (run_inv r ER2) as (q2 & EQ2 & D1e & D2e & D3e). rewrite EZ2, EQ' in EQ2. assert (q2 = q' /\ tr2 = msgs) as [-> ->] by (split; congruence).
    assert (m2 = m') as ->; [|rewrite EM' in EM2; injection EM2 as <-; exact ER2].
    apply (@masks_inj y0' y1' D0' D1' c0' c1' m2 m' t2 t'); try assumption.
    + rewrite <- QC, C1, D1e. clear - EO. unfold own in *. destruct b; cbn [fst snd]; congruence.
    + rewrite <- QU, C2, D2e. clear - EO. unfold own in *. destruct b; cbn [fst snd]; congruence.
    + rewrite <- QF, C3, D3e. clear - EO. unfold own in *. destruct b; cbn [fst snd]; congruence.
  - intros r2 t2 msgs2 Hr2 E2 V. destruct (RUN r2 Hr2) as (m2 & t2' & tr2 & Hm2 & EM2 & ER2 & EZ2). rewrite E2 in ER2. assert (t2' = t2) as -> by congruence. destruct (run_inv r E2) as (q2 & EQ2 & _). rewrite EZ2 in EQ2. exact (U r2 q2 msgs2 Hr2 EQ2 V).
Qed.
End Chain.
