(* What a party receives in a Gmw run of the aggregation tree hides the other party's lanes. *)
From Verif Require Import Base PrfModel PrfProofs GmwModel GmwSpec GmwProofs GmwPrivSpec GmwIoModel GmwIoSpec GmwIoProofs ShuffleModel ShuffleSpec AggModel AggCirModel AggCirSpec AggCirProofs AggCirRun AggTwoModel AggTwoSpec AggTwoRel AggTwoTree AggRunModel AggRunProofs AggViewModel AggViewSpec AggViewHide AggViewRun.

(* without the messages the runs are those of AggRunModel *)
Lemma exec_erase lvs j0 j1 s0 s1 g0 g1 : gmw_exec lvs j0 j1 s0 s1 g0 g1 = do r <- gmw_exec_msg lvs j0 j1 s0 s1 g0 g1; Ok (fst r).
Proof.
  unfold gmw_exec, gmw_exec_msg. destruct (finalize j0 g0) as [f0| | |]; try reflexivity. cbn [bind]. destruct (finalize j1 g1) as [f1| | |]; try reflexivity. cbn [bind].
  destruct (load_wires f0) as [m0| | |]; try reflexivity. cbn [bind]. destruct (load_wires f1) as [m1| | |]; try reflexivity. cbn [bind].
  destruct (gmw_run (gW f0) lvs m0 m1 s0 s1) as [((((n0 & ?) & ?) & ((n1 & ?) & ?)) & ?)| | |]; try reflexivity. cbn [bind fst snd].
  destruct (store_wires n0 f0) as [h0| | |]; try reflexivity. cbn [bind]. destruct (store_wires n1 f1) as [h1| | |]; reflexivity.
Qed.
Lemma lanes_erase mapped n c lvs t0 t1 x0 x1 : gmw_lanes mapped n c lvs t0 t1 x0 x1 = do r <- gmw_lanes_msg mapped n c lvs t0 t1 x0 x1; Ok (fst r).
Proof.
  unfold gmw_lanes, gmw_lanes_msg. destruct (prepare (tpJunk t0) _ _ _ _) as [p0| | |]; try reflexivity. cbn [bind]. destruct (prepare (tpJunk t1) _ _ _ _) as [p1| | |]; try reflexivity. cbn [bind].
  rewrite exec_erase. destruct (gmw_exec_msg _ _ _ _ _ _ _) as [h| | |]; try reflexivity. cbn [bind].
  destruct (lanes_back mapped t0 n c (snd p0) (fst (fst h))) as [y0| | |]; try reflexivity. cbn [bind]. destruct (lanes_back mapped t1 n c (snd p1) (snd (fst h))) as [y1| | |]; reflexivity.
Qed.

(* a tape with other correlations *)
(* the run with the correlations r of the party that is not looking *)
Definition lane_run (b : bool) (mapped : bool) (n : nat) (c : circuit) (lvs : list level) (me ot : tape) (r : list (list triple)) : mrun :=
  if b then gmw_lanes_msg mapped n c lvs me (with_cor ot r) else gmw_lanes_msg mapped n c lvs (with_cor ot r) me.
Lemma looks_tapes (b : bool) n lvs me ot r : looks n lvs me ot -> triples_for (tpCor me) r ->
  tapes_ok n lvs (if b then me else with_cor ot r) (if b then with_cor ot r else me).
Proof.
  intros (_ & _ & _ & He & Hd) [HS _]. destruct b; (split; [|split]); cbn [with_cor tpCor]; try assumption.
  - lia.
  - exact (ole_segs_sym HS).
  - exact (proj1 (ole_evens HS He)).
  - rewrite (proj2 (ole_evens HS He)). lia.
Qed.

Lemma shaped_shares n ins x0 x1 : lanes_shaped n ins x0 -> lanes_shaped n ins x1 -> exists x, length x = n /\ F3 (lane_shares ins) x0 x1 x.
Proof.
  revert n x1. induction x0 as [|a x0 IH]; intros n [|b x1] [L0 H0] [L1 H1]; cbn [length] in *; try lia.
  - exists []. split; [exact L0|constructor].
  - inversion H0; subst. inversion H1; subst. destruct (IH (length x0) x1) as (x & Lx & HF); [split; auto|split; [lia|assumption]|].
    exists (map2 (map2 xorb) a b :: x). cbn [length]. split; [lia|]. constructor; [|exact HF]. split; [reflexivity|]. split; [assumption|reflexivity].
Qed.
Lemma shares_shaped n ins x0 x1 x : length x = n -> F3 (lane_shares ins) x0 x1 x -> lanes_shaped n ins x0 /\ lanes_shaped n ins x1.
Proof.
  intros L H. split; (split; [rewrite ?(f3_len0 H), ?(f3_len1 H); exact L|]); clear L; induction H as [|a b c la lb lc (A & B & _) _ IH]; constructor; auto.
Qed.

Section Lanes.
Variables (mapped : bool) (c : circuit) (ins outs : list nat) (F : list (list bool) -> list (list bool)) (lvs : list level) (n : nat).
Hypothesis HR : runnable c ins outs.
Hypothesis HF : computes c F.
Hypothesis P1 : Forall (fun n => 0 < n) ins.
Hypothesis P2 : Forall (fun n => 0 < n) outs.
Hypothesis NE : outs <> [].
Hypothesis HL : levels_of c lvs.
Hypothesis Hn : 0 < n.

Lemma lanes_bring t x : tape_mem t -> length x = n -> brings n (cIns c) (cOuts c) (tpJunk t) (tpJunk2 t) (lane_inputs t c x) (lane_outputs mapped n c).
Proof using HR.
  clear Hn HL NE P1 P2 HF. intros [J J'] L. split; [exact J|]. split; [exact J'|]. split; [apply inputs_len|]. split; [|split; [|split]].
  - unfold lane_inputs. apply Forall_forall. intros y Hy. apply in_map_iff in Hy. destruct Hy as (p & <- & _). cbn [given_blocks lane_mat tmRows]. apply Forall_forall. intros r Hr. apply in_map_iff in Hr. destruct Hr as (j & <- & _).
    apply Forall_forall. intros v Hv. apply in_map_iff in Hv. destruct Hv as (q & <- & _). apply bits_block. rewrite map_length, seq_length. lia.
  - intros i b y Hb Hy. rewrite (@inputs_nth t c x _ _ Hb) in Hy. assert (y = GMap (lane_mat (tpPast t) (length b) i x)) as -> by congruence. cbn [given_ok]. rewrite <- L. apply lane_mat_ok.
  - exact (@outputs_ok mapped n _ _ _ HR).
  - intros d Hd. unfold lane_outputs in Hd. apply in_map_iff in Hd. destruct Hd as (b & E & _). destruct mapped; [|discriminate]. assert (d = out_mat n (length b)) as -> by congruence. cbn [out_mat tmRows].
    apply Forall_forall. intros r Hr. apply repeat_spec in Hr. subst r. apply Forall_forall. intros v Hv. apply repeat_spec in Hv. subst v. reflexivity.
Qed.
Lemma lanes_inv t0 t1 x0 x1 y tr g0 g1 id0 id1 h tr' : gmw_lanes_msg mapped n c lvs t0 t1 x0 x1 = Ok (y, tr) ->
  prepare (tpJunk t0) (tpPast t0) (lane_inputs t0 c x0) (lane_outputs mapped n c) (gmw_init n (cWires c) (cIns c) (cOuts c)) = Ok (g0, id0) ->
  prepare (tpJunk t1) (tpPast t1) (lane_inputs t1 c x1) (lane_outputs mapped n c) (gmw_init n (cWires c) (cIns c) (cOuts c)) = Ok (g1, id1) ->
  gmw_exec_msg lvs (tpJunk2 t0) (tpJunk2 t1) (tpCor t0) (tpCor t1) g0 g1 = Ok (h, tr') ->
  tr = tr' /\ lanes_back mapped t0 n c id0 (fst h) = Ok (fst y) /\ lanes_back mapped t1 n c id1 (snd h) = Ok (snd y).
Proof using.
  intros E A0 A1 A2. unfold gmw_lanes_msg in E. rewrite A0 in E. cbn [bind] in E. rewrite A1 in E. cbn [bind fst snd] in E. rewrite A2 in E. cbn [bind fst snd] in E.
  apply bind_inv in E. destruct E as (y0 & E0 & E). apply bind_inv in E. destruct E as (y1 & E1 & E). injection E as <- <-. auto.
Qed.
Lemma lanes_exec t0 t1 x0 x1 y tr g0 g1 id0 id1 : gmw_lanes_msg mapped n c lvs t0 t1 x0 x1 = Ok (y, tr) ->
  prepare (tpJunk t0) (tpPast t0) (lane_inputs t0 c x0) (lane_outputs mapped n c) (gmw_init n (cWires c) (cIns c) (cOuts c)) = Ok (g0, id0) ->
  prepare (tpJunk t1) (tpPast t1) (lane_inputs t1 c x1) (lane_outputs mapped n c) (gmw_init n (cWires c) (cIns c) (cOuts c)) = Ok (g1, id1) ->
  exists h, gmw_exec_msg lvs (tpJunk2 t0) (tpJunk2 t1) (tpCor t0) (tpCor t1) g0 g1 = Ok (h, tr).
Proof using.
  intros E A0 A1. unfold gmw_lanes_msg in E. rewrite A0 in E. cbn [bind] in E. rewrite A1 in E. cbn [bind fst snd] in E. apply bind_inv in E. destruct E as ((h & t) & E2 & E). cbn [fst snd] in E.
  apply bind_inv in E. destruct E as (y0 & E0 & E). apply bind_inv in E. destruct E as (y1 & E1 & E). assert (t = tr) as -> by congruence. eauto.
Qed.

Lemma lanes_run t0 t1 x0 x1 : tapes_ok n lvs t0 t1 -> lanes_shaped n ins x0 -> lanes_shaped n ins x1 -> exists y tr, gmw_lanes_msg mapped n c lvs t0 t1 x0 x1 = Ok (y, tr).
Proof using HR HF P1 P2 NE HL Hn.
  intros HT S0 S1. destruct (shaped_shares S0 S1) as (x & Lx & HX). destruct (@gmw_lanes_ok mapped c ins outs F lvs n t0 t1 HR HF P1 P2 NE HL Hn HT x0 x1 x Lx HX) as (y0 & y1 & E & _).
  rewrite lanes_erase in E. apply bind_inv in E. destruct E as ((y & tr) & E & _). eauto.
Qed.

Theorem lanes_hiding b me ot : looks n lvs me ot -> run_hiding b n ins (triples_for (tpCor me)) (lane_run b mapped n c lvs me ot).
Proof using HR HF P1 P2 NE HL Hn.
  intros HLk r x x' y t Hr S0 S1 S0' S1' Eo E. pose proof HLk as (Tm & To & BS & He & Hd).
  assert (HIO : io_ok (cWires c) (cIns c) (cOuts c)) by (apply (runnable_io HR P1 P2); exact (runnable_wires HR P2 NE)).
  destruct HL as (Lv & Lne & _). rewrite <- dc128 in Hd.
  pose proof (fun q r (Hr : triples_for (tpCor me) r) x (S0 : lanes_shaped n ins (fst x)) (S1 : lanes_shaped n ins (snd x)) => lanes_run (looks_tapes q HLk Hr) S0 S1) as RUN.
  destruct x as [x0 x1]. destruct x' as [x0' x1']. destruct b; cbn [own fst snd] in *; unfold lane_run in *.
  - subst x0'.
    destruct (@exec_hides1 n (cWires c) (cIns c) (cOuts c) lvs Hn HIO Lv Lne (tpJunk me) (tpJunk ot) (tpJunk2 me) (tpJunk2 ot) (tpPast me) (tpPast ot) (lane_inputs me c x0) (lane_inputs ot c x1) (lane_inputs ot c x1') (lane_outputs mapped n c) (lane_outputs mapped n c) (tpCor me) r)
      as (g0 & g1 & g1' & id0 & id1 & id1' & s1' & h0 & h1 & h1' & tr & A0 & A1 & A2 & A3 & A4 & A5 & U); try assumption.
    { apply lanes_bring; [exact Tm|apply S0]. } { apply lanes_bring; [exact To|apply S1]. } { apply lanes_bring; [exact To|apply S1']. }
    destruct (RUN true s1' A3 (x0, x1') S0 S1') as (y' & t' & E'). cbn [fst snd] in E'.
    destruct (@lanes_inv me (with_cor ot r) x0 x1 y t g0 g1 id0 id1 _ _ E A0 A1 A4) as (-> & K1 & _).
    destruct (@lanes_inv me (with_cor ot s1') x0 x1' y' t' g0 g1' id0 id1' _ _ E' A0 A2 A5) as (-> & K1' & _).
    exists s1', y'. split; [exact A3|]. split; [exact E'|]. split; [cbn [fst] in *; congruence|].
    intros r2 y2 t2 Hr2 E2 V. destruct (@lanes_exec me (with_cor ot r2) x0 x1' y2 t2 g0 g1' id0 id1' E2 A0 A2) as (h2 & E3). exact (U r2 h2 t2 Hr2 E3 V).
  - subst x1'.
    destruct (@exec_hides0 n (cWires c) (cIns c) (cOuts c) lvs Hn HIO Lv Lne (tpJunk ot) (tpJunk me) (tpJunk2 ot) (tpJunk2 me) (tpPast ot) (tpPast me) (lane_inputs ot c x0) (lane_inputs ot c x0') (lane_inputs me c x1) (lane_outputs mapped n c) (lane_outputs mapped n c) r (tpCor me))
      as (g0 & g0' & g1 & id0 & id0' & id1 & s0' & h0 & h0' & h1 & tr & A0 & A1 & A2 & A3 & A4 & A5 & U); try assumption.
    { apply lanes_bring; [exact To|apply S0]. } { apply lanes_bring; [exact To|apply S0']. } { apply lanes_bring; [exact Tm|apply S1]. }
    destruct (RUN false s0' A3 (x0', x1) S0' S1) as (y' & t' & E'). cbn [fst snd] in E'.
    destruct (@lanes_inv (with_cor ot r) me x0 x1 y t g0 g1 id0 id1 _ _ E A0 A2 A4) as (-> & _ & K1).
    destruct (@lanes_inv (with_cor ot s0') me x0' x1 y' t' g0' g1 id0' id1 _ _ E' A1 A2 A5) as (-> & _ & K1').
    exists s0', y'. split; [exact A3|]. split; [exact E'|]. split; [cbn [snd] in *; congruence|].
    intros r2 y2 t2 Hr2 E2 V. destruct (@lanes_exec (with_cor ot r2) me x0' x1 y2 t2 g0' g1 id0' id1 E2 A1 A2) as (h2 & E3). exact (U r2 h2 t2 Hr2 E3 V).
Qed.
End Lanes.
