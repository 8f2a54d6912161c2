(* Where with the run of its circuit: shares of the new flags, and messages that hide the other party's table. *)
From Verif Require Import Base Words PrfModel PrfProofs KeyMultModel GmwModel GmwSpec GmwProofs CircuitProofs GmwPrivSpec GmwIoModel GmwIoSpec GmwIoProofs ShuffleModel ShuffleSpec AggModel AggCirModel AggCirRun AggTwoTree AggRunModel AggRunProofs AggViewModel AggViewSpec AggViewHide AggViewRun AggViewLanes
  PermCorModel TableModel TableSpec BitInjProofs TrimProofs TableProofs OmJoinModel OmJoinSpec ExtractModel ExtractSpec JoinRunModel JoinRunSpec JoinMsgSpec JoinRunStages PropsGmwIo WhereModel WhereSpec WhereProofs WhereRunModel WhereRunSpec.

(* ---------------- one run with one output bit ---------------- *)
Section Flags.
Variables (c : circuit) (v : nat) (lvs : list level) (n : nat).
Hypothesis HIO : io_ok (cWires c) (cIns c) (cOuts c).
Hypothesis HO : cOuts c = [[v]].
Hypothesis HL : levels_of c lvs.
Hypothesis Hn : 0 < n.
Definition gives (xs : list given) : Prop := length xs = length (cIns c) /\
  forall i b x, nth_error (cIns c) i = Some b -> nth_error xs i = Some x -> given_ok n (length b) x.

Lemma flags_ok t0 t1 x0 x1 : gives x0 -> gives x1 -> tapes_ok n lvs t0 t1 -> pad_zero t0 -> pad_zero t1 ->
  exists (o0 o1 : list bool) tr, gmw_flags n c lvs t0 t1 x0 x1 = Ok ((map N.b2n o0, map N.b2n o1), tr) /\ length o0 = n /\ length o1 = n /\
    forall r e, r < n -> (forall i b x y j u, nth_error (cIns c) i = Some b -> nth_error x0 i = Some x -> nth_error x1 i = Some y -> nth_error b j = Some u -> e u = xorb (given_bit x r j) (given_bit y r j)) ->
      xorb (nth r o0 false) (nth r o1 false) = eval (cGates c) e v.
Proof using HIO HO HL Hn.
  intros [L0 G0] [L1 G1] (HS & HE & HD) P0 P1. destruct HL as (Lv & Lne & LW & LO & LE).
  assert (TK : take_ok n (cOuts c) [None]) by (split; [rewrite HO; reflexivity|]; intros [|i] b d _ E; cbn in E; [discriminate|destruct i; discriminate]).
  destruct (@C57_end_to_end n (cWires c) (cIns c) (cOuts c) lvs (tpJunk t0) (tpJunk t1) (tpJunk2 t0) (tpJunk2 t1) (tpPast t0) (tpPast t1) x0 x1 [None] [None] (tpCor t0) (tpCor t1) Hn HIO Lv Lne L0 L1 G0 G1 TK TK LW LO HS HE HD)
    as (g0 & g1 & ids0 & ids1 & h0 & h1 & E0 & E1 & GX & H).
  pose proof GX as GX'. rewrite exec_erase in GX. destruct (gmw_exec_msg lvs (tpJunk2 t0) (tpJunk2 t1) (tpCor t0) (tpCor t1) g0 g1) as [[hh tr]| | |] eqn:GM; cbn [bind fst] in GX; try discriminate. assert (hh = (h0, h1)) as -> by congruence. clear GX.
  assert (HG : gOuts h0 = cOuts c /\ gOuts h1 = cOuts c) by (destruct (exec_outs GX') as [-> ->]; rewrite (prepare_outs E0), (prepare_outs E1); auto). destruct HG as [HG0 HG1].
  assert (O0 : nth_error (cOuts c) 0 = Some [v]) by (rewrite HO; reflexivity).
  destruct (H 0 [v] 1 1 (tpJunk t0) (tpJunk t1) (tpOutPad t0 0) (tpOutPad t1 0) O0 (le_n 1) eq_refl) as (o0 & o1 & X0 & X1 & K0 & K1 & _ & _ & HB & _).
  assert (EO0 : o0 = map (fun r => [N.b2n (sbit (nth r o0 []) 0)]) (seq 0 n)) by (apply (@output_byte _ _ _ _ _ _ _ v X0); [rewrite HG0, HO; reflexivity|intros r j; apply P0]).
  assert (EO1 : o1 = map (fun r => [N.b2n (sbit (nth r o1 []) 0)]) (seq 0 n)) by (apply (@output_byte _ _ _ _ _ _ _ v X1); [rewrite HG1, HO; reflexivity|intros r j; apply P1]).
  exists (map (fun r => sbit (nth r o0 []) 0) (seq 0 n)), (map (fun r => sbit (nth r o1 []) 0) (seq 0 n)), tr. split; [|split; [|split]].
  - unfold gmw_flags. rewrite E0. cbn [bind]. rewrite E1. cbn [bind fst snd]. rewrite GM. cbn [bind fst snd]. rewrite X0, X1. cbn [bind snd]. rewrite !map_map.
    do 3 f_equal; [rewrite EO0 at 1|rewrite EO1 at 1]; rewrite map_map; reflexivity.
  - rewrite map_length. apply seq_length.
  - rewrite map_length. apply seq_length.
  - intros r e Hr He. rewrite !map_seq_nth by exact Hr. rewrite (HB r 0 v e Hr eq_refl); [|intros i b x y j u A1 A2 A3 A4; exact (He i b x y j u A1 A2 A3 A4)].
    apply LE. rewrite HO. left. reflexivity.
Qed.

Lemma flags_bring t x : tape_mem t -> Forall given_blocks x -> gives x -> brings n (cIns c) (cOuts c) (tpJunk t) (tpJunk2 t) x [None].
Proof using HO.
  intros [J J'] GB [L G]. split; [exact J|]. split; [exact J'|]. split; [exact L|]. split; [exact GB|]. split; [exact G|]. split.
  - split; [rewrite HO; reflexivity|]. intros [|i] b d _ E; cbn in E; [discriminate|destruct i; discriminate].
  - intros d [E|[]]. discriminate E.
Qed.
Lemma flags_inv t0 t1 x0 x1 y tr g0 g1 id0 id1 h tr' : gmw_flags n c lvs t0 t1 x0 x1 = Ok (y, tr) ->
  prepare (tpJunk t0) (tpPast t0) x0 [None] (gmw_init n (cWires c) (cIns c) (cOuts c)) = Ok (g0, id0) ->
  prepare (tpJunk t1) (tpPast t1) x1 [None] (gmw_init n (cWires c) (cIns c) (cOuts c)) = Ok (g1, id1) ->
  gmw_exec_msg lvs (tpJunk2 t0) (tpJunk2 t1) (tpCor t0) (tpCor t1) g0 g1 = Ok (h, tr') ->
  tr = tr' /\ (do y <- get_output (tpJunk t0) (tpOutPad t0 0) 0 1 n 1 (fst h); Ok (map (hd 0%N) (snd y))) = Ok (fst y) /\ (do y <- get_output (tpJunk t1) (tpOutPad t1 0) 0 1 n 1 (snd h); Ok (map (hd 0%N) (snd y))) = Ok (snd y).
Proof using.
  intros E A0 A1 A2. unfold gmw_flags in E. rewrite A0 in E. cbn [bind] in E. rewrite A1 in E. cbn [bind fst snd] in E. rewrite A2 in E. cbn [bind fst snd] in E.
  apply bind_inv in E. destruct E as (y0 & E0 & E). apply bind_inv in E. destruct E as (y1 & E1 & E). injection E as <- <-. rewrite E0, E1. auto.
Qed.
Lemma flags_exec t0 t1 x0 x1 y tr g0 g1 id0 id1 : gmw_flags n c lvs t0 t1 x0 x1 = Ok (y, tr) ->
  prepare (tpJunk t0) (tpPast t0) x0 [None] (gmw_init n (cWires c) (cIns c) (cOuts c)) = Ok (g0, id0) ->
  prepare (tpJunk t1) (tpPast t1) x1 [None] (gmw_init n (cWires c) (cIns c) (cOuts c)) = Ok (g1, id1) ->
  exists h, gmw_exec_msg lvs (tpJunk2 t0) (tpJunk2 t1) (tpCor t0) (tpCor t1) g0 g1 = Ok (h, tr).
Proof using.
  intros E A0 A1. unfold gmw_flags in E. rewrite A0 in E. cbn [bind] in E. rewrite A1 in E. cbn [bind fst snd] in E. apply bind_inv in E. destruct E as ((h & t) & E2 & E). cbn [fst snd] in E.
  apply bind_inv in E. destruct E as (y0 & E0 & E). apply bind_inv in E. destruct E as (y1 & E1 & E). assert (t = tr) as -> by congruence. eauto.
Qed.

(* the run with the correlations r of the party that is not looking *)
Definition flags_run (b : bool) (me ot : tape) (r : list (list triple)) (x0 x1 : list given) :=
  gmw_flags n c lvs (if b then me else with_cor ot r) (if b then with_cor ot r else me) x0 x1.
Theorem flags_hiding b me ot r x x' y t : looks n lvs me ot -> pad_zero me -> pad_zero ot -> triples_for (tpCor me) r ->
  gives (fst x) -> gives (snd x) -> gives (fst x') -> gives (snd x') -> Forall given_blocks (fst x) -> Forall given_blocks (snd x) -> Forall given_blocks (fst x') -> Forall given_blocks (snd x') ->
  own b x = own b x' -> flags_run b me ot r (fst x) (snd x) = Ok (y, t) ->
  exists r' y', triples_for (tpCor me) r' /\ flags_run b me ot r' (fst x') (snd x') = Ok (y', t) /\ own b y' = own b y /\
    forall r2 y2 t2, triples_for (tpCor me) r2 -> flags_run b me ot r2 (fst x') (snd x') = Ok (y2, t2) -> got b t2 = got b t -> r2 = r'.
Proof using HIO HO HL Hn.
  intros HLk Pm Po Hr S0 S1 S0' S1' B0 B1 B0' B1' Eo E. pose proof HLk as (Tm & To & BS & He & Hd). rewrite <- dc128 in Hd.
  assert (RUN : forall r' x0 x1, triples_for (tpCor me) r' -> gives x0 -> gives x1 -> exists y t, flags_run b me ot r' x0 x1 = Ok (y, t)).
  { intros r' x0 x1 Hr' G0 G1.
    destruct (@flags_ok (if b then me else with_cor ot r') (if b then with_cor ot r' else me) x0 x1 G0 G1 (looks_tapes b HLk Hr')) as (o0 & o1 & tr & E' & _).
    { destruct b; [exact Pm|exact Po]. } { destruct b; [exact Po|exact Pm]. }
    exists (map N.b2n o0, map N.b2n o1), tr. exact E'. }
  destruct HL as (Lv & Lne & _). destruct x as [x0 x1]. destruct x' as [x0' x1']. destruct b; cbn [own fst snd] in *; unfold flags_run in *.
  - subst x0'.
    destruct (@exec_hides1 n (cWires c) (cIns c) (cOuts c) lvs Hn HIO Lv Lne (tpJunk me) (tpJunk ot) (tpJunk2 me) (tpJunk2 ot) (tpPast me) (tpPast ot) x0 x1 x1' [None] [None] (tpCor me) r)
      as (g0 & g1 & g1' & id0 & id1 & id1' & s1' & h0 & h1 & h1' & tr & A0 & A1 & A2 & A3 & A4 & A5 & U); try assumption.
    { apply flags_bring; assumption. } { apply flags_bring; assumption. } { apply flags_bring; assumption. }
    destruct (RUN s1' x0 x1' A3 S0 S1') as (y' & t' & E').
    destruct (@flags_inv me (with_cor ot r) x0 x1 y t g0 g1 id0 id1 _ _ E A0 A1 A4) as (-> & K1 & _).
    destruct (@flags_inv me (with_cor ot s1') x0 x1' y' t' g0 g1' id0 id1' _ _ E' A0 A2 A5) as (-> & K1' & _).
    exists s1', y'. split; [exact A3|]. split; [exact E'|]. split; [cbn [fst] in *; congruence|].
    intros r2 y2 t2 Hr2 E2 V. destruct (@flags_exec me (with_cor ot r2) x0 x1' y2 t2 g0 g1' id0 id1' E2 A0 A2) as (h2 & E3). exact (U r2 h2 t2 Hr2 E3 V).
  - subst x1'.
    destruct (@exec_hides0 n (cWires c) (cIns c) (cOuts c) lvs Hn HIO Lv Lne (tpJunk ot) (tpJunk me) (tpJunk2 ot) (tpJunk2 me) (tpPast ot) (tpPast me) x0 x0' x1 [None] [None] r (tpCor me))
      as (g0 & g0' & g1 & id0 & id0' & id1 & s0' & h0 & h0' & h1 & tr & A0 & A1 & A2 & A3 & A4 & A5 & U); try assumption.
    { apply flags_bring; assumption. } { apply flags_bring; assumption. } { apply flags_bring; assumption. }
    destruct (RUN s0' x0' x1 A3 S0' S1) as (y' & t' & E').
    destruct (@flags_inv (with_cor ot r) me x0 x1 y t g0 g1 id0 id1 _ _ E A0 A2 A4) as (-> & _ & K1).
    destruct (@flags_inv (with_cor ot s0') me x0' x1 y' t' g0' g1 id0' id1 _ _ E' A1 A2 A5) as (-> & _ & K1').
    exists s0', y'. split; [exact A3|]. split; [exact E'|]. split; [cbn [snd] in *; congruence|].
    intros r2 y2 t2 Hr2 E2 V. destruct (@flags_exec (with_cor ot r2) me x0' x1 y2 t2 g0' g1 id0' id1 E2 A1 A2) as (h2 & E3). exact (U r2 h2 t2 Hr2 E3 V).
Qed.
End Flags.

(* ---------------- the circuit of a clause ---------------- *)
Lemma make_wires cl c : make_where cl = Ok c -> total_wires (map (@length nat) (cIns (clCir cl))) + 3 <= cWires c.
Proof.
  unfold make_where. set (act := total_wires _). destruct (throw_if _); cbn [bind]; try discriminate. destruct (evaluate _ _ _ _) as [r| | |] eqn:E; cbn [bind]; try discriminate.
  intros H. assert (cWires c = cWires r) as -> by (injection H as <-; reflexivity). clear H. unfold evaluate in E. do 2 (destruct (throw_if _); cbn [bind] in E; try discriminate). destruct (throw_if _); cbn [bind] in E; try discriminate.
  do 3 (destruct (assign _ _ _); cbn [bind] in E; try discriminate). destruct (mapO _ _); cbn [bind] in E; try discriminate. injection E as <-. cbn [cWires]. lia.
Qed.
Lemma bundle_in ws W : forall k b, Forall (fun w => 0 < w) ws -> k + total_wires ws <= W -> In b (bundles k ws) -> bundle_ok W b.
Proof.
  induction ws as [|w ws IH]; intros k b HP HW Hb; [destruct Hb|]. inversion HP; subst. cbn [bundles total_wires fold_right] in *. destruct Hb as [<-|Hb].
  - exists k. rewrite seq_length. repeat split; try assumption. unfold total_wires in *. lia.
  - apply (IH (k + w)); [assumption|unfold total_wires in *; lia|exact Hb].
Qed.
Lemma clause_io cl c : WhereSpec.runnable cl -> make_where cl = Ok c -> io_ok (cWires c) (cIns c) (cOuts c).
Proof.
  intros (HI & Hw & _) HM. destruct (make_where_ok HI HM) as (_ & EI & EO & _). pose proof (make_wires HM) as LW. set (ws := map (@length nat) (cIns (clCir cl))) in *. set (act := total_wires ws) in *. rewrite EI, EO.
  assert (EC : concat (bundles 0 ws ++ [[act]]) = seq 0 (act + 1)) by (rewrite concat_app, concat_bundles; cbn [concat app]; rewrite seq_app; reflexivity).
  split; [|split; [|split]].
  - apply Forall_app. split; [|constructor; [|constructor]].
    + apply Forall_forall. intros b Hb. apply (@bundle_in ws _ 0); [|fold act; lia|exact Hb]. apply Forall_forall. intros x Hx. apply in_map_iff in Hx. destruct Hx as (l & <- & Hl). rewrite Forall_forall in Hw. specialize (Hw l Hl). destruct l; [congruence|cbn [length]; lia].
    + exists act. cbn [length seq]. repeat split; lia.
  - rewrite EC. apply seq_NoDup.
  - constructor; [|constructor]. exists (act + 1). cbn [length seq]. repeat split; lia.
  - intros x [<-|[]]. rewrite EC, in_seq. lia.
Qed.

Lemma sbit_xor x y j : sbit (map2 N.lxor x y) j = if (j / 8 <? length x) && (j / 8 <? length y) then xorb (sbit x j) (sbit y j) else false.
Proof.
  unfold sbit. destruct (Nat.ltb_spec (j / 8) (length x)) as [H|H]; cbn [andb].
  - destruct (Nat.ltb_spec (j / 8) (length y)) as [H'|H'].
    + rewrite map2_nth with (da := 0%N) (db := 0%N) by assumption. apply N.lxor_spec.
    + rewrite (nth_overflow (map2 N.lxor x y)) by (rewrite map2_length; lia). apply N.bits_0.
  - rewrite (nth_overflow (map2 N.lxor x y)) by (rewrite map2_length; lia). apply N.bits_0.
Qed.
(* bit j of bundle i of consecutive bundles, in the flat list of the bits of all *)
Lemma flat_bit : forall ws k i b j u xs tl, length xs = length ws -> nth_error (bundles k ws) i = Some b -> nth_error b j = Some u ->
  nth (u - k) (concat (map2 row_bits ws xs) ++ tl) false = sbit (nth i xs []) j /\ j < nth i ws 0 /\ i < length ws.
Proof.
  induction ws as [|w ws IH]; intros k i b j u [|x xs] tl HL Hb Hj; try discriminate; [destruct i; discriminate|]. cbn [bundles] in Hb. cbn [map2 concat]. rewrite <- app_assoc.
  assert (Lr : length (row_bits w x) = w) by (unfold row_bits; rewrite map_length; apply seq_length).
  destruct i as [|i]; cbn [nth_error nth length] in *.
  - assert (b = seq k w) as -> by congruence. pose proof (nth_error_lt Hj) as Lj. rewrite seq_length in Lj. rewrite (nth_error_nth' _ 0) in Hj by (rewrite seq_length; exact Lj). rewrite seq_nth in Hj by exact Lj.
    assert (u = k + j) as -> by congruence. replace (k + j - k) with j by lia. rewrite app_nth1 by lia. unfold row_bits. split; [|lia]. rewrite (map_seq_nth (sbit x)) by exact Lj. reflexivity.
  - destruct (IH (k + w) i b j u xs tl) as (E & H1 & H2); [congruence|exact Hb|exact Hj|].
    assert (Lu : k + w <= u). { clear - Hb Hj. revert i k Hb. induction ws as [|v ws IH]; intros i k Hb; [destruct i; discriminate|]. cbn [bundles] in Hb. destruct i as [|i]; cbn [nth_error] in Hb.
      - assert (b = seq (k + w) v) as -> by congruence. apply nth_error_In in Hj. apply in_seq in Hj. lia.
      - replace (k + w + v) with (k + v + w) in Hb by lia. specialize (IH i (k + v) Hb). lia. }
    rewrite app_nth2 by lia. rewrite Lr. replace (u - k - w) with (u - (k + w)) by lia. split; [exact E|lia].
Qed.

(* the gates evaluate copies, with the wires renamed *)
Lemma evaluate_gates parent cir ins outs r : inlinable cir -> same_shape (cIns cir) ins = true -> same_shape (cOuts cir) outs = true ->
  (forall i, In i (concat ins) \/ In i (concat outs) -> i < cWires parent) -> evaluate parent cir ins outs = Ok r ->
  exists f, cGates r = cGates parent ++ map (rename f) (cGates cir) /\ cWires parent <= cWires r /\
    (forall p, p < length (concat ins) -> f (nth p (concat (cIns cir)) 0) = nth p (concat ins) 0) /\
    (forall p, p < length (concat outs) -> f (nth p (concat (cOuts cir)) 0) = nth p (concat outs) 0) /\
    (forall i, i < cWires cir -> In i (concat (cIns cir)) \/ In i (concat (cOuts cir)) \/ cWires parent <= f i) /\
    (forall i, i < cWires cir -> f i < cWires r).
Proof.
  intros (I1 & I2 & I3 & I4 & I5) Si So Hr. pose proof (same_shape_len Si) as LI. pose proof (same_shape_len So) as LO.
  unfold evaluate. rewrite Si, So. cbn [negb throw_if bind]. rewrite <- LI, <- LO. set (used := length (concat (cIns cir)) + length (concat (cOuts cir))) in *.
  destruct (Nat.ltb_spec (cWires cir) used) as [?|_]; [lia|]. cbn [throw_if bind]. set (n := cWires cir) in *. set (P := cWires parent) in *. set (temps := n - used).
  assert (NDs : NoDup (concat (cIns cir) ++ concat (cOuts cir))) by (eapply Permutation_NoDup; [symmetry; exact I2|apply seq_NoDup]).
  assert (Hin : forall i, In i (concat (cIns cir) ++ concat (cOuts cir)) <-> i < used).
  { intros i. split; intros H; [apply (Permutation_in _ I2) in H; apply in_seq in H; lia|]. apply (Permutation_in i (Permutation_sym I2)). apply in_seq. lia. }
  assert (ND1 : NoDup (concat (cIns cir))) by (eapply CircuitProofs.NoDup_app_l; eauto). assert (ND2 : NoDup (concat (cOuts cir))) by (eapply CircuitProofs.NoDup_app_r; eauto).
  assert (Dis : forall i, In i (concat (cIns cir)) -> ~ In i (concat (cOuts cir))).
  { intros i H1 H2. apply in_split in H1. destruct H1 as (a & b & E). rewrite E, <- app_assoc in NDs. apply NoDup_remove_2 in NDs. apply NDs. apply in_or_app. right. apply in_or_app. right. auto. }
  destruct (@assign_ok (concat (cIns cir)) (concat ins) (repeat (P + temps) n)) as (t1 & E1 & L1 & A1 & B1); auto.
  { intros d H. rewrite repeat_length. assert (d < used) by (apply Hin, in_or_app; auto). lia. }
  rewrite E1. cbn [bind]. destruct (@assign_ok (concat (cOuts cir)) (concat outs) t1) as (t2 & E2 & L2 & A2 & B2); auto.
  { intros d H. rewrite L1, repeat_length. assert (d < used) by (apply Hin, in_or_app; auto). lia. }
  rewrite E2. cbn [bind]. destruct (@assign_ok (seq used temps) (seq P temps) t2) as (t3 & E3 & L3 & A3 & B3); [rewrite !seq_length; auto|apply seq_NoDup| |].
  { intros d H. apply in_seq in H. rewrite L2, L1, repeat_length. unfold temps in *. lia. }
  rewrite E3. cbn [bind]. assert (L : length t3 = n) by (rewrite L3, L2, L1, repeat_length; auto). rewrite (inline_ok L) by exact I4. cbn [bind]. intros H. injection H as <-. cbn [cGates cWires].
  set (f := fun i => nth i t3 0). exists f.
  assert (FI : forall p, p < length (concat ins) -> f (nth p (concat (cIns cir)) 0) = nth p (concat ins) 0).
  { intros p Hp. unfold f. rewrite <- LI in Hp. assert (HI := nth_In (concat (cIns cir)) 0 Hp). rewrite B3, B2; [apply A1; auto|apply Dis; auto|].
    intros H. apply in_seq in H. assert (nth p (concat (cIns cir)) 0 < used) by (apply Hin, in_or_app; auto). lia. }
  assert (FO : forall p, p < length (concat outs) -> f (nth p (concat (cOuts cir)) 0) = nth p (concat outs) 0).
  { intros p Hp. unfold f. rewrite <- LO in Hp. assert (HI := nth_In (concat (cOuts cir)) 0 Hp). rewrite B3; [apply A2; auto|].
    intros H. apply in_seq in H. assert (nth p (concat (cOuts cir)) 0 < used) by (apply Hin, in_or_app; auto). lia. }
  assert (FT : forall i, used <= i -> i < n -> f i = P + (i - used)).
  { intros i H1 H2. unfold f. specialize (A3 (i - used)). rewrite seq_length in A3. rewrite !seq_nth in A3 by (unfold temps; lia). replace (used + (i - used)) with i in A3 by lia. apply A3. unfold temps; lia. }
  split; [reflexivity|]. split; [lia|]. split; [rewrite LI; exact FI|]. split; [rewrite LO; exact FO|]. split.
  - intros i Hi. destruct (Nat.lt_ge_cases i used) as [H|H]; [apply Hin, in_app_or in H; destruct H; auto|]. right. right. rewrite FT by auto. lia.
  - intros i Hi. destruct (Nat.lt_ge_cases i used) as [H|H]; [|rewrite FT by auto; unfold temps; lia]. apply Hin, in_app_or in H. destruct H as [H|H]; apply (In_nth _ _ 0) in H; destruct H as (p & Hp & <-).
    + rewrite FI by lia. assert (nth p (concat ins) 0 < P) by (apply Hr; left; apply nth_In; lia). lia.
    + rewrite FO by lia. assert (nth p (concat outs) 0 < P) by (apply Hr; right; apply nth_In; lia). lia.
Qed.
Lemma reads_rename f g i : reads (rename f g) i -> exists j, reads g j /\ i = f j.
Proof. unfold reads, rename. destruct (gType g) eqn:E; cbn; rewrite ?E; intros [H|[H H']]; subst; eauto 6; congruence. Qed.
Lemma well_def_rename f I D' : forall gs D E, well_def I D gs -> (forall i, In i D -> In (f i) E) -> (forall g, In g gs -> ~ In (gOut g) I -> ~ In (f (gOut g)) D') -> well_def D' E (map (rename f) gs).
Proof.
  induction gs as [|g gs IH]; intros D E W HD HG; [exact Logic.I|]. cbn [map well_def] in *. destruct W as (R & O & W). split; [|split].
  - intros i Hi. apply reads_rename in Hi. destruct Hi as (j & Hj & ->). apply HD, R, Hj.
  - rewrite rename_out. apply HG; [left; reflexivity|exact O].
  - apply (IH (gOut g :: D)); [exact W| |intros h Hh; apply HG; right; exact Hh]. rewrite rename_out. intros i [<-|Hi]; [left; reflexivity|right; apply HD, Hi].
Qed.
(* every gate of the circuit of a clause alone is a levelling of it *)
Lemma clause_levels cl c : WhereSpec.runnable cl -> make_where cl = Ok c -> levels_of c (map (fun g => ([g], count_nonlinear [g])) (cGates c)).
Proof.
  intros HR HM. pose proof HR as (HI & Hw & (o & Ho) & HG). pose proof (make_where_ok HI HM) as (_ & EI & EO & _). pose proof (make_wires HM) as LW. pose proof (make_where_types HM) as ET.
  unfold make_where in HM. set (ws := map (@length nat) (cIns (clCir cl))) in *. set (act := total_wires ws) in *. destruct (throw_if _); cbn [bind] in HM; try discriminate.
  destruct (evaluate _ _ _ _) as [r| | |] eqn:E; cbn [bind] in HM; try discriminate.
  assert (EG : cGates c = cGates r ++ [Gate (act + 2) act GAnd (act + 1)]) by (injection HM as <-; reflexivity). assert (EW : cWires c = cWires r) by (injection HM as <-; reflexivity). clear HM.
  apply evaluate_gates in E; [|exact HI|apply same_shape_bundles|unfold same_shape; rewrite Ho; reflexivity|].
  2:{ cbn [cWires]. rewrite concat_bundles. intros i [Hi|[<-|[]]]; [apply in_seq in Hi; fold act in Hi|]; lia. }
  destruct E as (f & Eg & LP & FI & FO & FC & FR). cbn [cGates cWires app] in *. rewrite concat_bundles, seq_length in FI. fold act in FI. rewrite Ho in FO, FC. specialize (FO 0 ltac:(cbn; lia)). cbn [concat app nth] in FO.
  set (lvs := map _ _). assert (EQ : concat (map fst lvs) = cGates c) by (unfold lvs; rewrite map_map; cbn [fst]; clear; induction (cGates c) as [|g gs IH]; [reflexivity|]; cbn [map concat app]; f_equal; exact IH).
  assert (EC : concat (cIns c) = seq 0 (act + 1)) by (rewrite EI, concat_app, concat_bundles; cbn [concat app]; rewrite seq_app; reflexivity).
  pose proof HI as (J1 & J2 & J3 & J4 & J5).
  assert (FIN : forall i, In i (concat (cIns (clCir cl))) -> f i < act).
  { intros i Hi. apply (In_nth _ _ 0) in Hi. destruct Hi as (p & Hp & <-). rewrite <- total_concat in Hp. fold ws act in Hp. rewrite FI by exact Hp. rewrite seq_nth by exact Hp. lia. }
  split; [|rewrite EQ; split; [|split; [|split; [|reflexivity]]]].
  - apply Forall_forall. intros lv H. unfold lvs in H. apply in_map_iff in H. destruct H as (g & <- & Hg). split; [|split; [reflexivity|]].
    + cbn [fst]. apply levelledb_ok. destruct g as [ga gb t' o']. destruct t'; reflexivity.
    + intros h [<-|[]]. rewrite EG in Hg. apply in_app_or in Hg. destruct Hg as [Hg|[<-|[]]].
      * rewrite Eg in Hg. apply in_map_iff in Hg. destruct Hg as (g' & <- & Hg'). destruct (J4 g' Hg') as (R0 & R1 & R2). pose proof (HG g' Hg') as T. pose proof (FR _ R0). pose proof (FR _ R1). pose proof (FR _ R2).
        rewrite EW. unfold rename. destruct (gType g'); cbn; repeat split; try assumption; try discriminate; congruence.
      * cbn. repeat split; try lia. discriminate.
  - rewrite EG. destruct (cGates r); discriminate.
  - rewrite EG, Eg, EC. assert (W : well_def (seq 0 (act + 1)) (seq 0 (act + 1)) (map (rename f) (cGates (clCir cl)))).
    { apply (@well_def_rename f (concat (cIns (clCir cl))) _ _ (concat (cIns (clCir cl)))); [exact J3| |].
      - intros i Hi. apply in_seq. specialize (FIN i Hi). lia.
      - intros g Hg HO Hs. apply in_seq in Hs. destruct (J4 g Hg) as (_ & _ & R2). destruct (FC _ R2) as [H|[H|H]]; [exact (HO H)| |lia]. cbn [concat app In] in H. destruct H as [H|[]]. rewrite <- H in Hs. lia. }
    apply AggCirProofs.well_def_app; [exact W|]. intros D HD. destruct (J5 o) as (g & Hg & Eo); [rewrite Ho; left; reflexivity|]. cbn [well_def]. split; [|split; [|exact Logic.I]].
    + intros i [->|[_ ->]]; cbn [gIn0 gIn1]; apply HD.
      * right. exists (rename f g). split; [apply in_map, Hg|]. rewrite rename_out, Eo. exact FO.
      * left. apply in_seq. lia.
    + cbn [gOut]. rewrite in_seq. lia.
  - rewrite EO, EG. intros v [<-|[]]. eexists. split; [apply in_or_app; right; left; reflexivity|reflexivity].
Qed.

(* ---------------- where ---------------- *)
Section Where.
Variables (n : nat) (cols : list cinfo) (sel : list nat) (cl : clause) (rem : bool) (w : where_st) (lvs : list level).
Hypothesis HR : WhereSpec.runnable cl.
Hypothesis HW : where_init n cols sel cl rem = Ok w.
Hypothesis HS : map (fun i => nth i cols i0) sel = cols.
Hypothesis Hne : cols <> [].
Hypothesis Hn : 0 < n.
Hypothesis HL : levels_of (wCir w) lvs.

Definition has_table (t : table) : Prop := Forall (col_ok n) (tCols t) /\ length (tAct t) = n /\ infos t = cols.
Definition rows_of (t : table) (i : nat) : list (list N) := bRows (cDat (nth i (tCols t) c0)).
Definition gvn (t : table) : list given :=
  map (fun i => GRows 1 (bCols (cDat (nth i (tCols t) c0))) (rows_of t i)) sel ++ [GRows 1 1 (map (fun x : N => [x]) (tAct t))].

Lemma sel_in t i : has_table t -> In i sel -> i < length (tCols t).
Proof using HW.
  intros (_ & _ & EI) Hi. destruct (where_init_ok HW) as (HF & _). assert (length (tCols t) = length cols) as -> by (rewrite <- EI; unfold infos; rewrite map_length; reflexivity).
  clear - HF Hi. unfold fits in HF. induction HF as [|j l s ins (H & _) _ IH]; [destruct Hi|]. destruct Hi as [->|Hi]; auto.
Qed.
Lemma given_total t : has_table t -> where_given w t = Ok (gvn t).
Proof using HW HS Hne.
  intros HT. pose proof HT as (HC & HA & EI). destruct (where_init_ok HW) as (_ & _ & E1 & E2 & E3 & _). unfold where_given. rewrite E1, E2, E3, HS, (t_info_ok HC). change (map info_of (tCols t)) with (infos t).
  assert (LC : length (tCols t) = length cols) by (rewrite <- EI; unfold infos; rewrite map_length; reflexivity). rewrite LC, Nat.eqb_refl. cbn [negb throw_if bind].
  assert (ER : t_rows t = n). { unfold t_rows. destruct (tCols t) as [|c l] eqn:EC; [destruct cols; [congruence|discriminate]|]. inversion HC as [|? ? H1 H2]; subst. apply H1. }
  rewrite ER, Nat.eqb_refl. cbn [negb throw_if bind]. rewrite EI, infos_eq_refl. cbn [negb throw_if bind].
  erewrite (@mapM_ok _ _ _ (fun i => GRows 1 (bCols (cDat (nth i (tCols t) c0))) (rows_of t i)) sel); [reflexivity|].
  intros i Hi. rewrite (@BitInjProofs.get_ok _ _ _ c0 (sel_in HT Hi)). reflexivity.
Qed.
Lemma gvn_len t : length (gvn t) = length (cIns (wCir w)).
Proof using HW HR.
  destruct (where_init_ok HW) as (_ & HM & _). destruct (make_where_ok (proj1 HR) HM) as (_ & EC & _). unfold gvn. rewrite EC, !app_length, bundles_length, !map_length, (sel_len HW). reflexivity.
Qed.
(* the width of the column of input i *)
Lemma sel_bits k i l : nth_error sel k = Some i -> nth_error (cIns (clCir cl)) k = Some l -> iBits (nth i cols i0) = length l.
Proof using HW.
  destruct (where_init_ok HW) as (HF & _). unfold fits in HF. clear - HF. revert k. induction HF as [|j a s ins (H1 & H2) HF IH]; intros [|k] E1 E2; cbn [nth_error] in *; try discriminate; [|exact (IH k E1 E2)]. injection E1 as <-. injection E2 as <-. exact H2.
Qed.
Lemma bundles_nth : forall ws k i b, nth_error (bundles k ws) i = Some b -> nth_error ws i = Some (length b).
Proof. induction ws as [|v ws IH]; intros k [|i] b E; cbn [bundles nth_error] in *; try discriminate; [|exact (IH _ _ _ E)]. assert (b = seq k v) as -> by congruence. rewrite seq_length. reflexivity. Qed.
Lemma gvn_gives t : has_table t -> gives (wCir w) n (gvn t).
Proof using HW HR Hn.
  intros HT. pose proof HT as (HC & HA & EI). split; [apply gvn_len|]. intros i b x Hb Hx. destruct (where_init_ok HW) as (_ & HM & _). destruct (make_where_ok (proj1 HR) HM) as (_ & EC & _).
  set (ws := map (@length nat) (cIns (clCir cl))) in *. rewrite EC in Hb. unfold gvn in Hx.
  assert (LS : length ws = length sel) by (unfold ws; rewrite map_length, (sel_len HW); reflexivity).
  destruct (Nat.lt_ge_cases i (length sel)) as [Hi|Hi].
  - rewrite nth_error_app1 in Hb by (rewrite bundles_length; lia). rewrite nth_error_app1 in Hx by (rewrite map_length; exact Hi). rewrite nth_error_map in Hx. destruct (nth_error sel i) as [k|] eqn:Ek; cbn [option_map] in Hx; [|discriminate].
    assert (x = GRows 1 (bCols (cDat (nth k (tCols t) c0))) (rows_of t k)) as -> by congruence. clear Hx. apply bundles_nth in Hb. unfold ws in Hb. rewrite nth_error_map in Hb. destruct (nth_error (cIns (clCir cl)) i) as [l|] eqn:El; cbn [option_map] in Hb; [|discriminate].
    assert (length b = length l) as -> by congruence. pose proof (sel_bits Ek El) as BW. pose proof (sel_in HT (nth_error_In _ _ Ek)) as Hk.
    rewrite Forall_forall in HC. destruct (HC _ (nth_In _ c0 Hk)) as (((RL & _) & Bc) & Bn & Bb & _).
    rewrite <- EI in BW. unfold infos in BW. rewrite (nth_indep _ i0 (info_of c0)) in BW by (rewrite map_length; exact Hk). change (map (fun c => Info (cName c) (cType c) (cBits c)) (tCols t)) with (map info_of (tCols t)) in BW. rewrite map_nth in BW. cbn [info_of iBits] in BW.
    cbn [given_ok]. split; [lia|]. unfold rows_of. rewrite Nat.div_1_r, Bc, <- Bb, BW. unfold div_ceil. rewrite Nat.mul_1_l. split; [reflexivity|]. rewrite <- Bn. exact RL.
  - rewrite nth_error_app2 in Hb by (rewrite bundles_length; lia). rewrite nth_error_app2 in Hx by (rewrite map_length; exact Hi). rewrite bundles_length, LS in Hb. rewrite map_length in Hx. destruct (i - length sel) as [|j]; [|destruct j; discriminate].
    cbn [nth_error] in Hb, Hx. assert (x = GRows 1 1 (map (fun x : N => [x]) (tAct t))) as -> by congruence. assert (b = [total_wires ws]) as -> by congruence. cbn [given_ok length]. split; [lia|]. split; [reflexivity|]. rewrite map_length. exact HA.
Qed.
Lemma gvn_blocks t : Forall given_blocks (gvn t).
Proof. unfold gvn. apply Forall_app. split; [|repeat constructor]. apply Forall_forall. intros x Hx. apply in_map_iff in Hx. destruct Hx as (i & <- & _). exact I. Qed.

Lemma shared_has t0 t1 : shared_table n t0 t1 -> infos t0 = cols -> has_table t0 /\ has_table t1.
Proof. intros (C0 & C1 & CI & A0 & A1) E. split; (split; [assumption|]); (split; [assumption|]); [exact E|]. rewrite <- E. symmetry. apply same_infos, CI. Qed.

Theorem where_msg_ok tp0 tp1 t0 t1 : tapes_ok n lvs tp0 tp1 -> pad_zero tp0 -> pad_zero tp1 -> shared_table n t0 t1 -> infos t0 = cols ->
  exists mask o0 o1 tr, length mask = n /\ where_msg w lvs tp0 tp1 t0 t1 = Ok ((o0, o1), tr) /\ where_run w mask t0 t1 = Ok (o0, o1).
Proof using HR HW HS Hne Hn HL.
  intros HT P0 P1 SH EI. destruct (shared_has SH EI) as [H0 H1]. destruct (where_init_ok HW) as (_ & HM & ER & E2 & _). pose proof (make_where_ok (proj1 HR) HM) as (_ & EC & EO & _).
  set (ws := map (@length nat) (cIns (clCir cl))) in *. set (act := total_wires ws) in *.
  destruct (@flags_ok (wCir w) (act + 1) lvs n (clause_io HR HM) EO HL Hn tp0 tp1 (gvn t0) (gvn t1) (gvn_gives H0) (gvn_gives H1) HT P0 P1) as (o0 & o1 & tr & E & L0 & L1 & EV).
  exists o0, (Tab (map N.b2n o0) (tCols t0)), (Tab (map N.b2n o1) (tCols t1)), tr. split; [exact L0|]. split.
  { unfold where_msg. rewrite (given_total H0), (given_total H1). cbn [bind]. rewrite ER, E. reflexivity. }
  pose proof HR as (HI & Hw & _ & HG). assert (NE : forall t, has_table t -> tCols t <> []).
  { intros t (_ & _ & Et) H. apply Hne. rewrite <- Et. unfold infos. rewrite H. reflexivity. }
  pose proof H0 as (C0 & A0 & I0). pose proof H1 as (C1 & A1 & I1).
  destruct (where_inputs_total HI HW C0 A0 (NE _ H0) Hw) as (x0 & X0); [rewrite HS; exact I0|exact I0|]. destruct (where_inputs_total HI HW C1 A1 (NE _ H1) Hw) as (x1 & X1); [rewrite HS; exact I1|exact I1|].
  unfold where_run. rewrite X0, X1. cbn [bind]. rewrite ER, (gmw_runs_ok HW Hn HG). cbn [bind].
  destruct (where_inputs_inv HI HW C0 X0) as (_ & _ & _ & ->). destruct (where_inputs_inv HI HW C1 X1) as (_ & _ & _ & ->). do 3 f_equal.
  set (xs := map2 xor_rows _ _). set (fl := map2 N.lxor (tAct t0) (tAct t1)).
  f_equal. apply nth_ext with (d := false) (d' := false); [rewrite map2_length, map_length, seq_length; lia|]. intros r Hr. rewrite map2_length, map_length, seq_length in Hr.
  rewrite map2_nth with (da := false) (db := false) by (rewrite ?map_length, ?seq_length; lia). rewrite map_seq_nth by lia.
  cut (xorb (nth r o0 false) (nth r o1 false) = where_row (wCir w) xs fl r); [intros <-; destruct (nth r o0 false), (nth r o1 false); reflexivity|].
  unfold where_row. rewrite EO. cbn [concat app nth]. apply EV; [lia|].
  assert (LX : length xs = length sel) by (unfold xs; rewrite map2_length, !map_length; lia). assert (LS : length ws = length sel) by (unfold ws; rewrite map_length, (sel_len HW); reflexivity).
  assert (EB : forall b0, wire_bits (map (@length nat) (cIns (wCir w))) (map (fun m => nth r m []) xs) b0 = concat (map2 row_bits ws (map (fun m => nth r m []) xs)) ++ [N.odd b0]).
  { intros b0. unfold wire_bits. f_equal. f_equal. rewrite EC, map_app, bundles_len. unfold ws. rewrite map2_ws by (rewrite map_length, LX; apply (sel_len HW)). symmetry. rewrite <- (app_nil_r (map (@length nat) (cIns (clCir cl)))). apply map2_ws. rewrite map_length, LX. apply (sel_len HW). }
  rewrite EB. intros i b x y j u Hb Hx Hy Hu. rewrite EC in Hb. unfold gvn in Hx, Hy.
  assert (CL : length (concat (map2 row_bits ws (map (fun m => nth r m []) xs))) = act).
  { unfold act. assert (LL : length (map (fun m => nth r m []) xs) = length ws) by (rewrite map_length; congruence). revert LL. generalize (map (fun m : list (list N) => nth r m []) xs). clear. induction ws as [|v l IH]; intros [|z zs] LL; try discriminate; [reflexivity|]. cbn [map2 concat total_wires fold_right]. rewrite app_length. unfold row_bits at 1. rewrite map_length, seq_length, IH by (injection LL; auto). reflexivity. }
  destruct (Nat.lt_ge_cases i (length sel)) as [Hi|Hi].
  - pose proof (gvn_gives H0) as [_ G0]. pose proof (gvn_gives H1) as [_ G1]. pose proof Hb as Hb'. rewrite <- EC in Hb'. specialize (G0 i b x Hb' Hx). specialize (G1 i b y Hb' Hy).
    rewrite nth_error_app1 in Hb by (rewrite bundles_length; lia). rewrite nth_error_app1 in Hx, Hy by (rewrite map_length; exact Hi). rewrite nth_error_map in Hx, Hy. destruct (nth_error sel i) as [k|] eqn:Ek; cbn [option_map] in Hx, Hy; [|discriminate].
    assert (x = GRows 1 (bCols (cDat (nth k (tCols t0) c0))) (rows_of t0 k)) as -> by congruence. assert (y = GRows 1 (bCols (cDat (nth k (tCols t1) c0))) (rows_of t1 k)) as -> by congruence. clear Hx Hy.
    destruct (@flat_bit ws 0 i b j u (map (fun m => nth r m []) xs) [N.odd (nth r fl 0%N)]) as (EF & Hj & _); [rewrite map_length; congruence|exact Hb|exact Hu|]. rewrite Nat.sub_0_r in EF. rewrite EF. cbn [given_bit].
    assert (EN : nth i (map (fun m => nth r m []) xs) [] = map2 N.lxor (nth r (rows_of t0 k) []) (nth r (rows_of t1 k) [])).
    { rewrite (nth_indep _ [] (nth r [] [])) by (rewrite map_length; lia). rewrite (map_nth (fun m => nth r m [])). unfold xs. rewrite map2_nth with (da := []) (db := []) by (rewrite map_length; exact Hi).
      assert (NK : forall t, nth i (map (fun q => bRows (cDat (nth q (tCols t) c0))) sel) [] = rows_of t k) by (intros t; apply nth_error_nth; rewrite nth_error_map, Ek; reflexivity). rewrite !NK. unfold xor_rows.
      cbn [given_ok] in G0, G1. rewrite map2_nth with (da := []) (db := []); [reflexivity|lia|lia]. }
    rewrite EN, sbit_xor. pose proof (sel_in H0 (nth_error_In _ _ Ek)) as K0. pose proof (sel_in H1 (nth_error_In _ _ Ek)) as K1.
    assert (LR : forall t, has_table t -> length (nth r (rows_of t k) []) = bCols (cDat (nth k (tCols t) c0))).
    { intros t Ht. pose proof Ht as (HC & _). rewrite Forall_forall in HC. destruct (HC _ (nth_In _ c0 (sel_in Ht (nth_error_In _ _ Ek)))) as (((RL & RF) & _) & Bn & _). rewrite Forall_forall in RF. apply RF. unfold rows_of. apply nth_In. lia. }
    rewrite (LR _ H0), (LR _ H1). cbn [given_ok] in G0, G1. destruct G0 as (_ & Q0 & _). destruct G1 as (_ & Q1 & _). rewrite Nat.div_1_r in Q0, Q1. rewrite <- Q0, <- Q1.
    pose proof (nth_error_lt Hu) as Lj. assert (DJ : j / 8 < (length b + 1 * 8 - 1) / (1 * 8)).
    { rewrite Nat.mul_1_l. apply Nat.div_lt_upper_bound; [lia|]. pose proof (Nat.div_mod (length b + 8 - 1) 8 ltac:(lia)). pose proof (Nat.mod_upper_bound (length b + 8 - 1) 8 ltac:(lia)). lia. }
    apply Nat.ltb_lt in DJ. rewrite DJ. reflexivity.
  - rewrite nth_error_app2 in Hb by (rewrite bundles_length; lia). rewrite nth_error_app2 in Hx, Hy by (rewrite map_length; exact Hi). rewrite bundles_length, LS in Hb. rewrite map_length in Hx, Hy. destruct (i - length sel) as [|k]; [|destruct k; discriminate].
    cbn [nth_error] in Hb, Hx, Hy. assert (x = GRows 1 1 (map (fun x : N => [x]) (tAct t0))) as -> by congruence. assert (y = GRows 1 1 (map (fun x : N => [x]) (tAct t1))) as -> by congruence. assert (b = [act]) as -> by congruence.
    destruct j as [|j]; [|destruct j; discriminate]. cbn [nth_error] in Hu. assert (u = act) as -> by congruence. rewrite app_nth2 by lia. rewrite CL, Nat.sub_diag. cbn [nth given_bit].
    assert (SB : forall l, r < length l -> sbit (nth r (map (fun x : N => [x]) l) []) 0 = N.odd (nth r l 0%N)).
    { intros l Hl. rewrite (nth_indep _ [] ((fun x : N => [x]) 0%N)) by (rewrite map_length; exact Hl). rewrite (map_nth (fun x : N => [x])). unfold sbit. cbn [Nat.div Nat.modulo Nat.divmod fst snd Nat.sub nth N.of_nat]. apply N.bit0_odd. }
    rewrite !SB by lia. unfold fl. rewrite map2_nth with (da := 0%N) (db := 0%N) by lia. rewrite <- !N.bit0_odd. apply N.lxor_spec.
Qed.

(* ---------------- what the other party's messages show ---------------- *)
Local Notation where_see := (WhereRunSpec.where_see w lvs).
Local Notation where_in := (WhereRunSpec.where_in n cols).
Lemma see_inv b me ot x r v : where_in x -> where_see b me ot x r = Ok v ->
  exists y t, flags_run (wCir w) lvs n b me ot r (gvn (fst x)) (gvn (snd x)) = Ok (y, t) /\ v = (Tab (own b y) (tCols (own b x)), got b t).
Proof using HW HS Hne.
  intros (SH & EI) E. destruct (shared_has SH EI) as [H0 H1]. destruct (where_init_ok HW) as (_ & _ & ER & _). unfold WhereRunSpec.where_see in E. apply bind_inv in E. destruct E as (z & E & EV). unfold where_msg in E. rewrite (given_total H0), (given_total H1) in E. cbn [bind] in E. rewrite ER in E.
  apply bind_inv in E. destruct E as ((y & t) & E & EZ). exists y, t. split; [exact E|]. assert (z = (Tab (fst y) (tCols (fst x)), Tab (snd y) (tCols (snd x)), t)) as -> by (cbn [fst snd] in EZ; congruence). cbn [fst snd] in EV. destruct b; cbn [own fst snd] in *; congruence.
Qed.
Lemma see_run b me ot x r y t : where_in x -> flags_run (wCir w) lvs n b me ot r (gvn (fst x)) (gvn (snd x)) = Ok (y, t) ->
  where_see b me ot x r = Ok (Tab (own b y) (tCols (own b x)), got b t).
Proof using HW HS Hne.
  intros (SH & EI) E. destruct (shared_has SH EI) as [H0 H1]. destruct (where_init_ok HW) as (_ & _ & ER & _). unfold WhereRunSpec.where_see, where_msg. rewrite (given_total H0), (given_total H1). cbn [bind]. rewrite ER. unfold flags_run in E. rewrite E. cbn [bind fst snd]. destruct b; reflexivity.
Qed.
Lemma see_total b me ot x r : where_in x -> looks n lvs me ot -> pad_zero me -> pad_zero ot -> triples_for (tpCor me) r -> exists v, where_see b me ot x r = Ok v.
Proof using HR HW HS Hne Hn HL.
  intros (SH & EI) HLk Pm Po Hr.
  destruct (@where_msg_ok (if b then me else with_cor ot r) (if b then with_cor ot r else me) (fst x) (snd x) (looks_tapes b HLk Hr)) as (mask & o0 & o1 & tr & _ & E & _); [destruct b; [exact Pm|exact Po]|destruct b; [exact Po|exact Pm]|exact SH|exact EI|].
  unfold WhereRunSpec.where_see. rewrite E. cbn [bind]. eauto.
Qed.
Lemma see_hides b me ot x x' r v : where_in x -> where_in x' -> own b x = own b x' -> looks n lvs me ot -> pad_zero me -> pad_zero ot -> triples_for (tpCor me) r -> where_see b me ot x r = Ok v ->
  exists r', triples_for (tpCor me) r' /\ where_see b me ot x' r' = Ok v /\ forall r2, triples_for (tpCor me) r2 -> where_see b me ot x' r2 = Ok v -> r2 = r'.
Proof using HR HW HS Hne Hn HL.
  intros HX HX' Eo HLk Pm Po Hr E. pose proof HX as (SH & EI). pose proof HX' as (SH' & EI'). destruct (shared_has SH EI) as [H0 H1]. destruct (shared_has SH' EI') as [H0' H1'].
  destruct (see_inv HX E) as (y & t & ER & ->). destruct (where_init_ok HW) as (_ & HM & _). pose proof (make_where_ok (proj1 HR) HM) as (_ & _ & EO & _).
  destruct (@flags_hiding (wCir w) _ lvs n (clause_io HR HM) EO HL Hn b me ot r (gvn (fst x), gvn (snd x)) (gvn (fst x'), gvn (snd x')) y t HLk Pm Po Hr
    (gvn_gives H0) (gvn_gives H1) (gvn_gives H0') (gvn_gives H1') (gvn_blocks _) (gvn_blocks _) (gvn_blocks _) (gvn_blocks _)) as (r' & y' & Hr' & E' & Ey & U); [destruct b; cbn [own fst snd] in *; congruence|exact ER|].
  exists r'. split; [exact Hr'|]. split; [rewrite (see_run HX' E'), Ey, Eo; reflexivity|]. intros r2 Hr2 E2. destruct (see_inv HX' E2) as (y2 & t2 & ER2 & EV). apply (U r2 y2 t2 Hr2 ER2). congruence.
Qed.
Theorem where_paired b me ot x x' : where_in x -> where_in x' -> own b x = own b x' -> looks n lvs me ot -> pad_zero me -> pad_zero ot ->
  paired (triples_for (tpCor me)) (where_see b me ot) x x'.
Proof using HR HW HS Hne Hn HL.
  intros HX HX' Eo HLk Pm Po. exists (fun r r' => triples_for (tpCor me) r /\ triples_for (tpCor me) r' /\ exists v, where_see b me ot x r = Ok v /\ where_see b me ot x' r' = Ok v).
  split; [intros r r' H; exact H|]. split; [|split; [|split]].
  - intros r Hr. destruct (see_total b HX HLk Pm Po Hr) as (v & E). destruct (see_hides HX HX' Eo HLk Pm Po Hr E) as (r' & Hr' & E' & _). exists r'. eauto.
  - intros r Hr. destruct (see_total b HX' HLk Pm Po Hr) as (v & E). destruct (see_hides HX' HX (eq_sym Eo) HLk Pm Po Hr E) as (r' & Hr' & E' & _). exists r'. eauto.
  - intros r a a' (Hr & Ha & v & E & EA) (_ & Ha' & v' & E' & EA'). assert (v' = v) as -> by congruence. destruct (see_hides HX HX' Eo HLk Pm Po Hr E) as (r' & _ & _ & U). rewrite (U _ Ha EA), (U _ Ha' EA'). reflexivity.
  - intros r a a' (Ha & Hr & v & EA & E) (Ha' & _ & v' & EA' & E'). assert (v' = v) as -> by congruence. destruct (see_hides HX' HX (eq_sym Eo) HLk Pm Po Hr E) as (r' & _ & _ & U). rewrite (U _ Ha EA), (U _ Ha' EA'). reflexivity.
Qed.
End Where.
