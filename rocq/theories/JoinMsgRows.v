(* What a party receives in a Gmw run of the join hides the other party's rows. *)
From Verif Require Import Base PrfModel PrfProofs GmwModel GmwSpec GmwProofs GmwPrivSpec GmwIoModel GmwIoSpec GmwIoProofs ShuffleModel ShuffleSpec AggModel AggCirModel AggCirSpec AggCirProofs AggCirRun AggTwoModel AggTwoSpec AggTwoTree AggRunModel AggRunProofs AggViewModel AggViewSpec AggViewHide AggViewRun AggViewLanes JoinRunModel JoinRunSpec JoinRunStages.

(* the run with the correlations r of the party that is not looking *)
Definition rows_run (b : bool) (n : nat) (c : circuit) (lvs : list level) (cols : nat) (me ot : tape) (r : list (list triple)) (x0 x1 : list (list (list N))) :=
  gmw_rows n c lvs cols (if b then me else with_cor ot r) (if b then with_cor ot r else me) x0 x1.
Definition two (n : nat) (x : list (list (list N))) : Prop := exists a b, x = [a; b] /\ length a = n /\ length b = n.

Section Rows.
Variables (c : circuit) (bits : nat) (F : list (list bool) -> list (list bool)) (lvs : list level) (n : nat).
Hypothesis HR : runnable c [bits; bits] [1].
Hypothesis HF : computes c F.
Hypothesis HL : levels_of c lvs.
Hypothesis Hn : 0 < n.
Hypothesis Hb : 0 < bits.
Notation size := (div_ceil bits 8).

Lemma rows_bring t x : tape_mem t -> two n x -> brings n (cIns c) (cOuts c) (tpJunk t) (tpJunk2 t) (map (GRows 1 size) x) [None].
Proof using HR Hb.
  clear Hn HL HF. intros [J J'] (a & b & -> & La & Lb). pose proof HR as (EI & EO & _). split; [exact J|]. split; [exact J'|].
  assert (exists ia ib, cIns c = [ia; ib] /\ length ia = bits /\ length ib = bits) as (ia & ib & EC & Li & Lj).
  { destruct (cIns c) as [|x [|y [|z l]]]; try discriminate EI. exists x, y. cbn [map] in EI. assert (length x = bits) by congruence. assert (length y = bits) by congruence. auto. }
  assert (exists v, cOuts c = [[v]]) as (v & ECo).
  { destruct (cOuts c) as [|x [|y l]]; try discriminate EO. cbn [map] in EO. destruct x as [|v [|? ?]]; try discriminate EO. exists v. reflexivity. }
  split; [rewrite EC; reflexivity|]. split; [repeat constructor|]. split; [|split].
  - rewrite EC. intros [|[|i]] k x Hx Hy; cbn [nth_error map] in Hx, Hy; try (destruct i; discriminate); (assert (x = GRows 1 size a \/ x = GRows 1 size b) as [-> | ->] by (first [left; congruence|right; congruence])); cbn [given_ok];
    assert (length k = bits) as -> by congruence; (split; [lia|]); rewrite Nat.div_1_r; unfold div_ceil; rewrite Nat.mul_1_l; split; auto.
  - split; [rewrite ECo; reflexivity|]. intros [|i] k d _ E; cbn in E; [discriminate|destruct i; discriminate].
  - intros d [E|[]]. discriminate E.
Qed.
Lemma rows_inv t0 t1 x0 x1 y tr g0 g1 id0 id1 h tr' : gmw_rows n c lvs size t0 t1 x0 x1 = Ok (y, tr) ->
  prepare (tpJunk t0) (tpPast t0) (map (GRows 1 size) x0) [None] (gmw_init n (cWires c) (cIns c) (cOuts c)) = Ok (g0, id0) ->
  prepare (tpJunk t1) (tpPast t1) (map (GRows 1 size) x1) [None] (gmw_init n (cWires c) (cIns c) (cOuts c)) = Ok (g1, id1) ->
  gmw_exec_msg lvs (tpJunk2 t0) (tpJunk2 t1) (tpCor t0) (tpCor t1) g0 g1 = Ok (h, tr') ->
  tr = tr' /\ (do y <- get_output_bm (tpJunk t0) (tpOutPad t0 0) 0 n 1 (fst h); Ok (snd y)) = Ok (fst y) /\ (do y <- get_output_bm (tpJunk t1) (tpOutPad t1 0) 0 n 1 (snd h); Ok (snd y)) = Ok (snd y).
Proof using.
  intros E A0 A1 A2. unfold gmw_rows in E. rewrite A0 in E. cbn [bind] in E. rewrite A1 in E. cbn [bind fst snd] in E. rewrite A2 in E. cbn [bind fst snd] in E.
  apply bind_inv in E. destruct E as (y0 & E0 & E). apply bind_inv in E. destruct E as (y1 & E1 & E). injection E as <- <-. rewrite E0, E1. auto.
Qed.
Lemma rows_exec t0 t1 x0 x1 y tr g0 g1 id0 id1 : gmw_rows n c lvs size t0 t1 x0 x1 = Ok (y, tr) ->
  prepare (tpJunk t0) (tpPast t0) (map (GRows 1 size) x0) [None] (gmw_init n (cWires c) (cIns c) (cOuts c)) = Ok (g0, id0) ->
  prepare (tpJunk t1) (tpPast t1) (map (GRows 1 size) x1) [None] (gmw_init n (cWires c) (cIns c) (cOuts c)) = Ok (g1, id1) ->
  exists h, gmw_exec_msg lvs (tpJunk2 t0) (tpJunk2 t1) (tpCor t0) (tpCor t1) g0 g1 = Ok (h, tr).
Proof using.
  intros E A0 A1. unfold gmw_rows in E. rewrite A0 in E. cbn [bind] in E. rewrite A1 in E. cbn [bind fst snd] in E. apply bind_inv in E. destruct E as ((h & t) & E2 & E). cbn [fst snd] in E.
  apply bind_inv in E. destruct E as (y0 & E0 & E). apply bind_inv in E. destruct E as (y1 & E1 & E). assert (t = tr) as -> by congruence. eauto.
Qed.

Theorem rows_hiding b me ot r x x' y t : looks n lvs me ot -> pad_zero me -> pad_zero ot -> triples_for (tpCor me) r ->
  two n (fst x) -> two n (snd x) -> two n (fst x') -> two n (snd x') -> own b x = own b x' -> rows_run b n c lvs size me ot r (fst x) (snd x) = Ok (y, t) ->
  exists r' y', triples_for (tpCor me) r' /\ rows_run b n c lvs size me ot r' (fst x') (snd x') = Ok (y', t) /\ own b y' = own b y /\
    forall r2 y2 t2, triples_for (tpCor me) r2 -> rows_run b n c lvs size me ot r2 (fst x') (snd x') = Ok (y2, t2) -> got b t2 = got b t -> r2 = r'.
Proof using HR HF HL Hn Hb.
  intros HLk Pm Po Hr S0 S1 S0' S1' Eo E. pose proof HLk as (Tm & To & BS & He & Hd).
  assert (B2 : Forall (fun n => 0 < n) [bits; bits]) by (repeat constructor; exact Hb). assert (B1 : Forall (fun n => 0 < n) [1]) by (repeat constructor).
  assert (HIO : io_ok (cWires c) (cIns c) (cOuts c)) by (apply (runnable_io HR B2 B1); apply (runnable_wires HR B1); discriminate).
  destruct HL as (Lv & Lne & LO). rewrite <- dc128 in Hd.
  assert (RUN : forall r' x0 x1, triples_for (tpCor me) r' -> two n x0 -> two n x1 -> exists y t, rows_run b n c lvs size me ot r' x0 x1 = Ok (y, t)).
  { intros r' x0 x1 Hr' (a0 & b0 & -> & La0 & Lb0) (a1 & b1 & -> & La1 & Lb1).
    destruct (@gmw_rows_ok n c bits F lvs (if b then me else with_cor ot r') (if b then with_cor ot r' else me) a0 b0 a1 b1 HR HF HL Hn Hb La0 Lb0 La1 Lb1 (looks_tapes b HLk Hr')) as (o0 & o1 & tr & E' & _).
    { destruct b; [exact Pm|exact Po]. } { destruct b; [exact Po|exact Pm]. }
    exists (map (fun b => [N.b2n b]) o0, map (fun b => [N.b2n b]) o1), tr. exact E'. }
  destruct x as [x0 x1]. destruct x' as [x0' x1']. destruct b; cbn [own fst snd] in *; unfold rows_run in *.
  - subst x0'.
    destruct (@exec_hides1 n (cWires c) (cIns c) (cOuts c) lvs Hn HIO Lv Lne (tpJunk me) (tpJunk ot) (tpJunk2 me) (tpJunk2 ot) (tpPast me) (tpPast ot) (map (GRows 1 size) x0) (map (GRows 1 size) x1) (map (GRows 1 size) x1') [None] [None] (tpCor me) r)
      as (g0 & g1 & g1' & id0 & id1 & id1' & s1' & h0 & h1 & h1' & tr & A0 & A1 & A2 & A3 & A4 & A5 & U); try assumption.
    { apply rows_bring; assumption. } { apply rows_bring; assumption. } { apply rows_bring; assumption. }
    destruct (RUN s1' x0 x1' A3 S0 S1') as (y' & t' & E').
    destruct (@rows_inv me (with_cor ot r) x0 x1 y t g0 g1 id0 id1 _ _ E A0 A1 A4) as (-> & K1 & _).
    destruct (@rows_inv me (with_cor ot s1') x0 x1' y' t' g0 g1' id0 id1' _ _ E' A0 A2 A5) as (-> & K1' & _).
    exists s1', y'. split; [exact A3|]. split; [exact E'|]. split; [cbn [fst] in *; congruence|].
    intros r2 y2 t2 Hr2 E2 V. destruct (@rows_exec me (with_cor ot r2) x0 x1' y2 t2 g0 g1' id0 id1' E2 A0 A2) as (h2 & E3). exact (U r2 h2 t2 Hr2 E3 V).
  - subst x1'.
    destruct (@exec_hides0 n (cWires c) (cIns c) (cOuts c) lvs Hn HIO Lv Lne (tpJunk ot) (tpJunk me) (tpJunk2 ot) (tpJunk2 me) (tpPast ot) (tpPast me) (map (GRows 1 size) x0) (map (GRows 1 size) x0') (map (GRows 1 size) x1) [None] [None] r (tpCor me))
      as (g0 & g0' & g1 & id0 & id0' & id1 & s0' & h0 & h0' & h1 & tr & A0 & A1 & A2 & A3 & A4 & A5 & U); try assumption.
    { apply rows_bring; assumption. } { apply rows_bring; assumption. } { apply rows_bring; assumption. }
    destruct (RUN s0' x0' x1 A3 S0' S1) as (y' & t' & E').
    destruct (@rows_inv (with_cor ot r) me x0 x1 y t g0 g1 id0 id1 _ _ E A0 A2 A4) as (-> & _ & K1).
    destruct (@rows_inv (with_cor ot s0') me x0' x1 y' t' g0' g1 id0' id1 _ _ E' A1 A2 A5) as (-> & _ & K1').
    exists s0', y'. split; [exact A3|]. split; [exact E'|]. split; [cbn [snd] in *; congruence|].
    intros r2 y2 t2 Hr2 E2 V. destruct (@rows_exec (with_cor ot r2) me x0' x1 y2 t2 g0' g1 id0' id1 E2 A1 A2) as (h2 & E3). exact (U r2 h2 t2 Hr2 E3 V).
Qed.
End Rows.
