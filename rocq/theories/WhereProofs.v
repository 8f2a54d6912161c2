From Verif Require Import Base Words PermCorModel KeyMultModel ShuffleModel ShuffleSpec GmwModel GmwSpec GmwProofs CircuitProofs TableModel TableSpec BitInjProofs TrimProofs TableProofs OmJoinModel OmJoinSpec ExtractModel ExtractSpec WhereModel WhereSpec.
From Coq Require Import Permutation.

(* ---------------- the circuit ---------------- *)

Lemma concat_bundles ws : forall k, concat (bundles k ws) = seq k (total_wires ws).
Proof. induction ws as [|w ws IH]; intros k; [reflexivity|]. cbn [bundles concat total_wires fold_right]. rewrite IH. symmetry. apply seq_app. Qed.
Lemma bundles_len ws : forall k, map (@length nat) (bundles k ws) = ws.
Proof. induction ws as [|w ws IH]; intros k; [reflexivity|]. cbn [bundles map]. rewrite IH, seq_length. reflexivity. Qed.
Lemma bundles_length ws : forall k, length (bundles k ws) = length ws.
Proof. induction ws as [|w ws IH]; intros k; [reflexivity|]. cbn [bundles length]. rewrite IH. reflexivity. Qed.
Lemma total_concat A (l : list (list A)) : total_wires (map (@length A) l) = length (concat l).
Proof. induction l as [|x l IH]; [reflexivity|]. cbn [map total_wires fold_right concat]. rewrite app_length. unfold total_wires in IH. rewrite IH. reflexivity. Qed.
Lemma same_shape_bundles l k : same_shape l (bundles k (map (@length nat) l)) = true.
Proof.
  unfold same_shape. rewrite bundles_length, map_length, Nat.eqb_refl. cbn [andb]. revert k.
  induction l as [|x l IH]; intros k; [reflexivity|]. cbn [map bundles combine forallb fst snd]. rewrite seq_length, Nat.eqb_refl. apply IH.
Qed.

Lemma mapO_types tbl gs : forall gs', mapO (inline_gate tbl) gs = Ok gs' -> map gType gs' = map gType gs.
Proof.
  induction gs as [|g gs IH]; intros gs' E; cbn [mapO] in E; [injection E as <-; reflexivity|].
  destruct (inline_gate tbl g) as [g'| | |] eqn:Eg; cbn [bind] in E; try discriminate.
  destruct (mapO (inline_gate tbl) gs) as [r| | |] eqn:Er; cbn [bind] in E; try discriminate. injection E as <-. cbn [map]. rewrite (IH _ eq_refl). f_equal.
  unfold inline_gate in Eg. destruct (get tbl (gIn0 g)); cbn [bind] in Eg; try discriminate. destruct (get tbl (gIn1 g)); cbn [bind] in Eg; try discriminate.
  destruct (get tbl (gOut g)); cbn [bind] in Eg; try discriminate. destruct (gType g); injection Eg as <-; reflexivity.
Qed.
Lemma evaluate_types parent cir ins outs r : evaluate parent cir ins outs = Ok r -> map gType (cGates r) = map gType (cGates parent) ++ map gType (cGates cir).
Proof.
  unfold evaluate. destruct (throw_if _); cbn [bind]; try discriminate. destruct (throw_if _); cbn [bind]; try discriminate. destruct (throw_if _); cbn [bind]; try discriminate.
  destruct (assign _ _ _); cbn [bind]; try discriminate. destruct (assign _ _ _); cbn [bind]; try discriminate. destruct (assign _ _ _) as [tbl| | |]; cbn [bind]; try discriminate.
  destruct (mapO _ _) as [gs| | |] eqn:E; cbn [bind]; try discriminate. intros H. injection H as <-. cbn [cGates]. rewrite map_app, (mapO_types E). reflexivity.
Qed.

Section clause.
Variable cl : clause.
Let cir := clCir cl.
Let ws := map (@length nat) (cIns cir).
Let act := total_wires ws.
Hypothesis HI : inlinable cir.

Definition par : circuit := Circuit (act + 3) (bundles 0 ws ++ [[act]]) [[act + 1]] [].

Lemma make_eval o : cOuts cir = [[o]] ->
  exists r, evaluate par cir (bundles 0 ws) [[act + 2]] = Ok r /\ cIns r = bundles 0 ws ++ [[act]] /\ cOuts r = [[act + 1]] /\
    forall e, (forall i, i < act + 3 -> i <> act + 2 -> eval (cGates r) e i = e i) /\
      forall s, (forall p, p < act -> s (nth p (concat (cIns cir)) 0) = e p) -> eval (cGates r) e (act + 2) = eval (cGates cir) s o.
Proof.
  intros Ho. destruct (@evaluate_ok par cir (bundles 0 ws) [[act + 2]] HI) as (r & E & E1 & E2 & _ & EV).
  - apply same_shape_bundles.
  - unfold same_shape. rewrite Ho. reflexivity.
  - intros i [Hi|Hi].
    + rewrite concat_bundles in Hi. apply in_seq in Hi. cbn [cWires par]. fold act in Hi. lia.
    + cbn [concat app In] in Hi. destruct Hi as [<-|[]]. cbn [cWires par]. lia.
  - repeat constructor. intros [].
  - intros i Hi H. rewrite concat_bundles in Hi. apply in_seq in Hi. fold act in Hi. cbn [concat app In] in H. destruct H as [<-|[]]. lia.
  - exists r. split; [exact E|]. split; [exact E1|]. split; [exact E2|]. intros e. destruct (EV e) as (V1 & V2). cbn [par cGates cWires] in V1, V2. split.
    + intros i Hi Hn. apply V1; [exact Hi|]. cbn [concat app In]. intros [H|[]]. congruence.
    + intros s Hs. specialize (V2 s). rewrite Ho in V2. apply (V2) with (p := 0); [|cbn; lia]. rewrite concat_bundles, seq_length. fold act. intros p Hp.
      rewrite seq_nth by exact Hp. cbn [eval fold_left Nat.add]. apply Hs, Hp.
Qed.

Lemma make_where_ok c : make_where cl = Ok c ->
  (exists o, cOuts cir = [[o]]) /\ cIns c = bundles 0 ws ++ [[act]] /\ cOuts c = [[act + 1]] /\
  (forall e s, (forall p, p < act -> s (nth p (concat (cIns cir)) 0) = e p) ->
    eval (cGates c) e (act + 1) = eval (cGates cir) s (nth 0 (concat (cOuts cir)) 0) && e act).
Proof.
  unfold make_where. fold cir. fold ws. fold act.
  destruct (Nat.eqb_spec (length (cOuts cir)) 1) as [EL|]; [|discriminate]. cbn [negb throw_if bind].
  destruct (cOuts cir) as [|l [|? ?]] eqn:EO; try discriminate.
  destruct (evaluate _ _ _ _) as [r| | |] eqn:E; cbn [bind]; try discriminate. intros H. injection H as <-. cbn [cIns cOuts cGates].
  assert (Hl : exists o, l = [o]).
  { unfold evaluate in E. rewrite same_shape_bundles in E. cbn [negb throw_if bind] in E. unfold same_shape in E. rewrite EO in E. cbn [length Nat.eqb combine forallb fst snd andb] in E.
    destruct l as [|o [|? ?]]; [discriminate| |discriminate]. eauto. }
  destruct Hl as (o & ->). destruct (make_eval EO) as (r' & E' & E1 & E2 & EV). unfold par in E'. rewrite E in E'. injection E' as <-.
  split; [eauto|]. split; [exact E1|]. split; [exact E2|]. intros e s Hs. destruct (EV e) as (V1 & V2). rewrite eval_app. cbn [eval fold_left]. unfold step, put at 1. cbn [gOut gType gIn0 gIn1 gfun].
  rewrite Nat.eqb_refl. fold (eval (cGates r) e). rewrite (V2 s Hs), V1 by lia. reflexivity.
Qed.

Lemma make_where_total o : cOuts cir = [[o]] -> exists c, make_where cl = Ok c.
Proof.
  intros Ho. unfold make_where. fold cir. rewrite Ho. cbn [length Nat.eqb negb throw_if bind]. fold ws. fold act.
  destruct (make_eval Ho) as (r & E & _). unfold par in E. rewrite E. cbn [bind]. eauto.
Qed.
Lemma make_where_types c : make_where cl = Ok c -> map gType (cGates c) = map gType (cGates cir) ++ [GAnd].
Proof.
  unfold make_where. fold cir. fold ws. fold act. destruct (throw_if _); cbn [bind]; try discriminate.
  destruct (evaluate _ _ _ _) as [r| | |] eqn:E; cbn [bind]; try discriminate. intros H. injection H as <-. cbn [cGates]. rewrite map_app, (evaluate_types E). reflexivity.
Qed.
End clause.

Lemma input_env_ok ins bits p : NoDup ins -> length bits = length ins -> p < length ins -> input_env ins bits (nth p ins 0) = nth p bits false.
Proof.
  intros ND. revert bits p. induction ND as [|x ins Hx ND IH]; intros [|b bits] p HL Hp; cbn [length] in *; try lia. unfold input_env. cbn [combine existsb fst snd].
  destruct p as [|p]; cbn [nth].
  - rewrite Nat.eqb_refl. destruct b; [reflexivity|]. cbn [andb orb]. clear - Hx. revert bits. induction ins as [|y ins IH]; intros bits; [reflexivity|]. destruct bits as [|b bits]; [reflexivity|].
    cbn [combine existsb fst snd]. rewrite IH by (intros H; apply Hx; right; exact H). destruct (Nat.eqb_spec y x) as [->|]; [exfalso; apply Hx; left; reflexivity|]. reflexivity.
  - fold (input_env ins bits (nth p ins 0)). rewrite IH by lia. destruct (Nat.eqb_spec x (nth p ins 0)) as [->|]; [exfalso; apply Hx, nth_In; lia|]. reflexivity.
Qed.

(* ---------------- init ---------------- *)

Lemma mapM_inv A B (f : A -> outcome B) l : forall r, mapM f l = Ok r -> Forall2 (fun a b => f a = Ok b) l r.
Proof.
  induction l as [|a l IH]; intros r E; cbn [mapM] in E; [injection E as <-; constructor|].
  destruct (f a) as [b| | |] eqn:Ea; cbn [bind] in E; try discriminate. destruct (mapM f l) as [r'| | |]; cbn [bind] in E; try discriminate. injection E as <-. constructor; auto.
Qed.
Lemma get_inv A (l : list A) i x d : get l i = Ok x -> i < length l /\ x = nth i l d.
Proof.
  unfold get. destruct (nth_error l i) eqn:E; intros H; try discriminate. injection H as <-. split; [apply nth_error_Some; congruence|]. symmetry. apply nth_error_nth. exact E.
Qed.

Definition i0 : cinfo := Info [] 0 0.
Lemma check_ok cols sel ins : length ins = length sel -> (exists u, mapM (check_input cols) (combine sel ins) = Ok u) <-> Forall2 (fun i l => i < length cols /\ iBits (nth i cols i0) = length l) sel ins.
Proof.
  intros HL. split.
  - intros (u & E). apply mapM_inv in E. revert ins HL u E. induction sel as [|i sel IH]; intros [|l ins] HL u E; try discriminate; [constructor|]. cbn [combine] in E.
    destruct u as [|x u]; [inversion E|]. assert (E1 : check_input cols (i, l) = Ok x) by (inversion E; assumption). assert (E2 : Forall2 (fun a b => check_input cols a = Ok b) (combine sel ins) u) by (inversion E; assumption).
    constructor; [|apply (IH ins) with (u := u); [injection HL; auto|exact E2]]. unfold check_input in E1. cbn [fst snd] in E1.
    destruct (Nat.leb_spec (length cols) i) as [|Hi]; cbn [throw_if bind] in E1; [discriminate|]. rewrite (@BitInjProofs.get_ok _ cols _ i0 Hi) in E1. cbn [bind] in E1.
    destruct (Nat.eqb_spec (iBits (nth i cols i0)) (length l)) as [Eb|]; [|discriminate]. auto.
  - intros H. induction H as [|i l sel ins (Hi & Hb) H IH]; [exists []; reflexivity|]. destruct IH as (u & E); [injection HL; auto|]. cbn [combine mapM]. unfold check_input at 1. cbn [fst snd].
    destruct (Nat.leb_spec (length cols) i); [lia|]. cbn [throw_if bind]. rewrite (@BitInjProofs.get_ok _ cols _ i0 Hi). cbn [bind]. rewrite Hb, Nat.eqb_refl. cbn [negb throw_if bind]. rewrite E. cbn [bind]. eauto.
Qed.

Lemma where_init_ok n cols sel cl rem w : where_init n cols sel cl rem = Ok w ->
  fits cols sel cl /\ make_where cl = Ok (wCir w) /\ wRows w = n /\ wIns w = sel /\ wCols w = map (fun i => nth i cols i0) sel /\
  (rem = true -> length sel <= length cols /\ wBytes w = fold_right (fun i s => div_ceil (iBits i) 8 + s) 1 (firstn (length sel) cols)).
Proof.
  unfold where_init. destruct (Nat.eqb_spec (length (cIns (clCir cl))) (length sel)) as [EL|]; [|discriminate]. cbn [negb throw_if bind].
  destruct (throw_if _); cbn [bind]; try discriminate. destruct (mapM (check_input _) _) as [u| | |] eqn:EC; cbn [bind]; try discriminate.
  destruct (make_where cl) as [c| | |] eqn:EM; cbn [bind]; try discriminate. destruct (mapM (get cols) sel) as [mc| | |] eqn:EG; cbn [bind]; try discriminate.
  destruct (if rem then _ else _) as [b| | |] eqn:EB; cbn [bind]; try discriminate. intros H. injection H as <-. cbn [wRows wIns wCols wCir wBytes].
  split; [apply (check_ok cols EL); eauto|]. split; [reflexivity|]. split; [reflexivity|]. split; [reflexivity|]. split.
  - apply mapM_inv in EG. clear - EG. induction EG as [|i x sel mc E EG IH]; [reflexivity|]. cbn [map]. rewrite <- IH. f_equal. apply (@get_inv _ _ _ _ i0) in E. apply E.
  - intros ->. apply mapM_inv in EB. assert (HL : length b = length sel) by (rewrite <- (Forall2_length EB), seq_length; reflexivity).
    assert (E1 : forall k, k < length sel -> k < length cols /\ nth k b i0 = nth k cols i0).
    { intros k Hk. assert (E : get cols k = Ok (nth k b i0)). { clear - EB Hk. assert (G : forall l b, Forall2 (fun a b => get cols a = Ok b) l b -> forall m, m < length l -> get cols (nth m l 0) = Ok (nth m b i0)).
        { induction 1 as [|x y l l' E F IH]; intros m Hk'; cbn [length] in Hk'; [lia|]. destruct m; cbn [nth]; [exact E|apply IH; lia]. }
        specialize (G _ _ EB k). rewrite seq_length, seq_nth in G by lia. apply G, Hk. }
      apply (@get_inv _ _ _ _ i0) in E. exact E. }
    assert (HL2 : length sel <= length cols). { destruct (length sel) as [|m] eqn:Em; [lia|]. specialize (E1 m). lia. }
    split; [exact HL2|]. f_equal. apply nth_ext with (d := i0) (d' := i0); [rewrite firstn_length; lia|]. intros k Hk. rewrite HL in Hk. rewrite (proj2 (E1 k Hk)), CompressProofs.nth_firstn by exact Hk. reflexivity.
Qed.

(* ---------------- the protocol ---------------- *)

Definition c0 : column := Col [] 0 0 (BM 0 0 []).
Definition raw (cl : clause) : clause := Clause (clCir cl) FWire.

Lemma flat_len (ins : list (list nat)) : forall xs, length xs = length ins ->
  length (concat (map2 (fun w x => row_bits (length w) x) ins xs)) = length (concat ins).
Proof.
  induction ins as [|l ins IH]; intros [|x xs] HL; try discriminate; [reflexivity|]. cbn [map2 concat]. rewrite !app_length, IH by (injection HL; auto).
  unfold row_bits. rewrite map_length, seq_length. reflexivity.
Qed.
Lemma map2_ws (ins : list (list nat)) l : forall xs, length xs = length ins ->
  map2 row_bits (map (@length nat) ins ++ l) xs = map2 (fun w x => row_bits (length w) x) ins xs.
Proof. induction ins as [|a ins IH]; intros [|x xs] HL; try discriminate; [destruct l; reflexivity|]. cbn [map app map2]. rewrite IH by (injection HL; auto). reflexivity. Qed.

Lemma where_row_ok cl c ins fl r : inlinable (clCir cl) -> make_where cl = Ok c -> length ins = length (cIns (clCir cl)) ->
  where_row c ins fl r = clause_on (raw cl) (map (fun m => nth r m []) ins) && N.odd (nth r fl 0%N).
Proof.
  intros HI HM HL. destruct (make_where_ok HI HM) as ((o & Ho) & E1 & E2 & EV). set (ws := map (@length nat) (cIns (clCir cl))) in *. set (act := total_wires ws) in *.
  unfold where_row. rewrite E2. cbn [concat app nth]. rewrite E1, map_app, bundles_len. cbn [map length]. set (xs := map (fun m => nth r m []) ins).
  assert (Lx : length xs = length (cIns (clCir cl))) by (unfold xs; rewrite map_length; exact HL).
  unfold wire_bits. unfold ws at 1. rewrite (@map2_ws _ _ _ Lx). set (bits := concat (map2 _ (cIns (clCir cl)) xs)).
  assert (Lb : length bits = act) by (unfold bits; rewrite (@flat_len _ _ Lx); unfold act, ws; rewrite total_concat; reflexivity).
  rewrite (EV _ (input_env (concat (cIns (clCir cl))) bits)).
  - unfold clause_on, raw. cbn [clCir clFlag flag_val]. fold bits. f_equal. rewrite app_nth2 by lia. rewrite Lb, Nat.sub_diag. reflexivity.
  - intros p Hp. rewrite app_nth1 by lia. apply input_env_ok.
    + destruct HI as (_ & HP & _). apply Permutation_sym in HP. pose proof (Permutation_NoDup HP (seq_NoDup _ _)) as ND. clear - ND. revert ND. generalize (concat (cOuts (clCir cl))) as b. generalize (concat (cIns (clCir cl))) as a. intros a b ND. induction a as [|x a IH]; [constructor|].
      inversion ND as [|y l H1 H2]; subst. constructor; [|apply IH; exact H2]. intros H. apply H1, in_or_app. left; exact H.
    + unfold act, ws in Lb. rewrite total_concat in Lb. exact Lb.
    + unfold act, ws in Hp. rewrite total_concat in Hp. exact Hp.
Qed.

Lemma combine_fst A B C (f : A -> C) (l : list A) : forall l' : list B, length l <= length l' -> map (fun q => f (fst q)) (combine l l') = map f l.
Proof. induction l as [|a l IH]; intros [|b l'] H; cbn [length] in H; try reflexivity; [lia|]. cbn [combine map fst]. rewrite IH by lia. reflexivity. Qed.

Section run.
Variables (n : nat) (cols : list cinfo) (sel : list nat) (cl : clause) (rem : bool) (w : where_st).
Hypothesis HI : inlinable (clCir cl).
Hypothesis HW : where_init n cols sel cl rem = Ok w.

Lemma sel_len : length sel = length (cIns (clCir cl)).
Proof. destruct (where_init_ok HW) as (HF & _). exact (Forall2_length HF). Qed.

Lemma where_inputs_inv t xs : Forall (col_ok n) (tCols t) -> where_inputs w t = Ok xs ->
  infos t = map (fun i => nth i cols i0) sel /\ length (tAct t) = n /\ Forall (fun i => i < length (tCols t)) sel /\
  xs = map (fun i => bRows (cDat (nth i (tCols t) c0))) sel.
Proof.
  intros HC. destruct (where_init_ok HW) as (HF & HM & E1 & E2 & E3 & _). unfold where_inputs. rewrite E1, E2, E3, (t_info_ok HC).
  destruct (throw_if (negb (length (tCols t) =? _))); cbn [bind]; try discriminate.
  destruct (throw_if (negb (t_rows t =? _))); cbn [bind]; try discriminate.
  destruct (infos_eq _ _) eqn:EI; cbn [negb throw_if bind]; [|discriminate]. apply infos_eq_iff in EI.
  unfold set_input_ok at 1. cbn [Nat.eqb]. change (div_ceil 1 8) with 1. cbn [Nat.eqb negb throw_if bind].
  destruct (Nat.eqb_spec (length (tAct t)) n) as [EA|]; cbn [negb throw_if bind]; [|discriminate].
  destruct (mapM _ _) as [r| | |] eqn:E; try discriminate. intros H. injection H as <-. split; [exact EI|]. split; [exact EA|].
  destruct (make_where_ok HI HM) as (_ & EC & _). assert (HL : length sel <= length (cIns (wCir w))).
  { rewrite EC, app_length, bundles_length, map_length, <- sel_len. lia. }
  apply mapM_inv in E. clear - E HL. revert HL r E. generalize (cIns (wCir w)) as ins. induction sel as [|i s IH]; intros [|l ins] HL r E; cbn [combine length] in *; try lia.
  - inversion E. split; [constructor|reflexivity].
  - inversion E. split; [constructor|reflexivity].
  - destruct r as [|x r]; [inversion E|]. assert (E2 : Forall2 (fun (q : nat * list nat) b => (do c <- get (tCols t) (fst q); do _ <- set_input_ok n (length (snd q)) (bCols (cDat c)) (bm_n (cDat c)); Ok (bRows (cDat c))) = Ok b) (combine s ins) r) by (inversion E; assumption).
    assert (E1 : (do c <- get (tCols t) (fst (i, l)); do _ <- set_input_ok n (length (snd (i, l))) (bCols (cDat c)) (bm_n (cDat c)); Ok (bRows (cDat c))) = Ok x) by (inversion E; assumption).
    destruct (IH ins ltac:(lia) r E2) as (F & ->). cbn [fst snd] in E1. destruct (get (tCols t) i) as [c| | |] eqn:Eg; cbn [bind] in E1; try discriminate. apply (@get_inv _ _ _ _ c0) in Eg. destruct Eg as (Hi & ->).
    destruct (set_input_ok _ _ _ _); cbn [bind] in E1; try discriminate. injection E1 as <-. split; [constructor; assumption|reflexivity].
Qed.

(* what a run that returns has computed *)
Lemma where_run_inv mask t0 t1 o0 o1 : shared_table n t0 t1 -> length mask = n -> where_run w mask t0 t1 = Ok (o0, o1) ->
  infos t0 = map (fun i => nth i cols i0) sel /\ 0 < n /\
  tCols o0 = tCols t0 /\ tCols o1 = tCols t1 /\ length (tAct o0) = n /\ length (tAct o1) = n /\
  map2 N.lxor (tAct o0) (tAct o1) = map (fun r => N.b2n (clause_on (raw cl) (selected sel t0 t1 r) && is_active t0 t1 r)) (seq 0 n).
Proof.
  intros (C0 & C1 & CI & A0 & A1) Hm E. pose proof (where_init_ok HW) as (HF & HM & E1 & _). unfold where_run in E.
  destruct (where_inputs w t0) as [x0| | |] eqn:X0; cbn [bind] in E; try discriminate. destruct (where_inputs w t1) as [x1| | |] eqn:X1; cbn [bind] in E; try discriminate.
  destruct (where_inputs_inv C0 X0) as (I0 & _ & S0 & ->). destruct (where_inputs_inv C1 X1) as (I1 & _ & S1 & ->). rewrite E1 in E.
  destruct (gmw_runs n (wCir w)) eqn:EG; cbn [bind] in E; try discriminate. injection E as <- <-. cbn [tCols tAct].
  split; [exact I0|]. split; [unfold gmw_runs in EG; destruct (Nat.eqb_spec n 0); [discriminate|lia]|]. split; [reflexivity|]. split; [reflexivity|].
  split; [rewrite map_length; exact Hm|]. split; [rewrite map_length, map2_length, Hm, map_length, seq_length; lia|].
  set (xs := map2 xor_rows _ _). set (fl := map2 N.lxor (tAct t0) (tAct t1)).
  assert (EX : forall r, map (fun m => nth r m []) xs = selected sel t0 t1 r).
  { intros r. unfold xs, selected. clear - S0 S1. induction S0 as [|i s H S0 IH]; [reflexivity|]. inversion S1 as [|? ? H1 H2]; subst. cbn [map map2]. rewrite IH by exact H2. f_equal. f_equal.
    rewrite map2_nth with (da := c0) (db := c0) by assumption. reflexivity. }
  assert (LX : length xs = length (cIns (clCir cl))) by (unfold xs; rewrite map2_length, !map_length, Nat.min_id; apply sel_len).
  assert (EV : forall r, r < n -> where_row (wCir w) xs fl r = clause_on (raw cl) (selected sel t0 t1 r) && is_active t0 t1 r).
  { intros r Hr. rewrite (where_row_ok _ _ HI HM LX), EX. unfold is_active. f_equal. f_equal. unfold fl. apply (@map2_nth _ _ _ N.lxor); lia. }
  replace (map (where_row (wCir w) xs fl) (seq 0 n)) with (map (fun r => clause_on (raw cl) (selected sel t0 t1 r) && is_active t0 t1 r) (seq 0 n)) by (apply map_ext_in; intros r H; apply in_seq in H; symmetry; apply EV; lia).
  clear - Hm. set (f := fun r => clause_on (raw cl) (selected sel t0 t1 r) && is_active t0 t1 r). change (fun r => N.b2n (clause_on (raw cl) (selected sel t0 t1 r) && is_active t0 t1 r)) with (fun r => N.b2n (f r)). clearbody f.
  assert (G : forall k m, length m = n -> map2 N.lxor (map N.b2n m) (map N.b2n (map2 xorb m (map f (seq k n)))) = map (fun r => N.b2n (f r)) (seq k n)).
  { clear Hm. induction n as [|n' IH]; intros k [|b m] L; try discriminate; [reflexivity|]. cbn [seq map map2]. rewrite IH by (injection L; auto). f_equal. destruct b, (f k); reflexivity. }
  apply G, Hm.
Qed.

(* when it returns *)
Lemma where_inputs_total t : Forall (col_ok n) (tCols t) -> length (tAct t) = n -> tCols t <> [] -> Forall (fun l => l <> []) (cIns (clCir cl)) ->
  infos t = map (fun i => nth i cols i0) sel -> infos t = cols -> exists xs, where_inputs w t = Ok xs.
Proof.
  intros HC HA Hne Hw EI ET. destruct (where_init_ok HW) as (HF & HM & E1 & E2 & E3 & _). unfold where_inputs. rewrite E1, E2, E3, (t_info_ok HC). change (map info_of (tCols t)) with (infos t).
  assert (L1 : length (tCols t) = length sel) by (apply (f_equal (@length _)) in EI; unfold infos in EI; rewrite !map_length in EI; exact EI).
  rewrite map_length, L1, Nat.eqb_refl. cbn [negb throw_if bind].
  assert (ER : t_rows t = n). { unfold t_rows. destruct (tCols t) as [|c l]; [congruence|]. inversion HC as [|? ? H1 H2]; subst. apply H1. }
  rewrite ER, Nat.eqb_refl. cbn [negb throw_if bind]. rewrite EI, infos_eq_refl. cbn [negb throw_if bind].
  unfold set_input_ok at 1. cbn [Nat.eqb]. change (div_ceil 1 8) with 1. cbn [Nat.eqb negb throw_if bind]. rewrite HA, Nat.eqb_refl. cbn [negb throw_if bind].
  exists (map (fun q => bRows (cDat (nth (fst q) (tCols t) c0))) (combine sel (cIns (wCir w)))). apply mapM_ok. intros (i, l) Hq.
  destruct (make_where_ok HI HM) as (_ & EC & _). rewrite EC in Hq. cbn [fst snd].
  assert (HQ : i < length cols /\ iBits (nth i cols i0) = length l /\ l <> []).
  { clear - HF Hq Hw. unfold fits in HF. revert HF Hq Hw. generalize (cIns (clCir cl)) as ins. intros ins HF Hq Hw. revert Hq. generalize 0 as k, ([[total_wires (map (@length nat) ins)]]) as tl. intros k tl. revert k Hw. induction HF as [|j a s ins (H1 & H2) HF IH]; intros k Hw Hq; [destruct Hq|].
    cbn [map bundles app combine] in Hq. inversion Hw as [|? ? W1 W2]; subst. destruct Hq as [Hq|Hq]; [|apply (IH _ W2 Hq)]. injection Hq as <- <-. rewrite seq_length. split; [exact H1|]. split; [exact H2|].
    destruct a; [congruence|]. discriminate. }
  destruct HQ as (Hi & Hb & Hl). assert (Hi' : i < length (tCols t)) by (rewrite <- ET in Hi; unfold infos in Hi; rewrite map_length in Hi; exact Hi).
  rewrite (@BitInjProofs.get_ok _ _ _ c0 Hi'). cbn [bind]. rewrite Forall_forall in HC. destruct (HC _ (nth_In _ c0 Hi')) as ((_ & Bc) & Bn & Bb & _).
  rewrite <- ET in Hb. unfold infos in Hb. rewrite (nth_indep _ i0 (info_of c0)) in Hb by (rewrite map_length; exact Hi').
  change (map (fun c => Info (cName c) (cType c) (cBits c)) (tCols t)) with (map info_of (tCols t)) in Hb. rewrite map_nth in Hb. cbn [info_of iBits] in Hb.
  unfold set_input_ok. destruct (Nat.eqb_spec (length l) 0) as [H0|_]; [destruct l; [congruence|discriminate]|]. rewrite Bc, <- Bb, Hb, Nat.eqb_refl. cbn [negb throw_if bind]. rewrite Bn, Nat.eqb_refl. reflexivity.
Qed.
Lemma gmw_runs_ok : 0 < n -> (forall g, In g (cGates (clCir cl)) -> gType g <> GOther) -> gmw_runs n (wCir w) = Ok tt.
Proof.
  intros Hn HG. destruct (where_init_ok HW) as (_ & HM & _). unfold gmw_runs. destruct (Nat.eqb_spec n 0); [lia|].
  destruct (existsb _ _) eqn:E; [|reflexivity]. exfalso. apply existsb_exists in E. destruct E as (g & Hg & E). pose proof (make_where_types HM) as ET.
  assert (H : In (gType g) (map gType (cGates (clCir cl)) ++ [GAnd])) by (rewrite <- ET; apply in_map, Hg). apply in_app_or in H. destruct H as [H|[H|[]]].
  - apply in_map_iff in H. destruct H as (g' & E' & Hg'). apply (HG g' Hg'). rewrite E'. destruct (gType g); congruence || discriminate.
  - rewrite <- H in E. discriminate.
Qed.
Lemma where_run_total mask t0 t1 : 0 < n -> shared_table n t0 t1 -> tCols t0 <> [] -> Forall (fun l => l <> []) (cIns (clCir cl)) ->
  (forall g, In g (cGates (clCir cl)) -> gType g <> GOther) ->
  infos t0 = cols -> cols = map (fun i => nth i cols i0) sel -> exists o, where_run w mask t0 t1 = Ok o.
Proof.
  intros Hn (C0 & C1 & CI & A0 & A1) Hne Hw HG ET ES. assert (EI : infos t1 = infos t0) by (symmetry; apply same_infos, CI).
  destruct (@where_inputs_total t0 C0 A0 Hne Hw) as (x0 & X0); [congruence|exact ET|].
  destruct (@where_inputs_total t1 C1 A1) as (x1 & X1); [|exact Hw|congruence|congruence|].
  - intros H. apply Forall2_length in CI. rewrite H in CI. destruct (tCols t0); [congruence|discriminate].
  - unfold where_run. rewrite X0, X1. cbn [bind]. destruct (where_init_ok HW) as (_ & _ & -> & _). rewrite (gmw_runs_ok Hn HG). cbn [bind]. eauto.
Qed.
End run.

Lemma nth_sel_id A (d : A) l s : NoDup l -> Forall (fun i => i < length l) s -> map (fun i => nth i l d) s = l -> s = seq 0 (length l).
Proof.
  intros ND HF E. assert (HL : length s = length l) by (apply (f_equal (@length A)) in E; rewrite map_length in E; exact E).
  apply nth_ext with (d := 0) (d' := 0); [rewrite seq_length; exact HL|]. intros k Hk. rewrite seq_nth by lia. cbn [Nat.add].
  rewrite NoDup_nth with (d := d) in ND. apply ND; [|lia|].
  - rewrite Forall_forall in HF. apply HF, nth_In, Hk.
  - transitivity (nth k (map (fun i => nth i l d) s) d); [|rewrite E; reflexivity]. symmetry. etransitivity; [apply nth_indep with (d' := nth 0 l d); rewrite map_length; exact Hk|]. exact (map_nth (fun i => nth i l d) s 0 k).
Qed.
Lemma map_nth_seq A (d : A) l : map (fun i => nth i l d) (seq 0 (length l)) = l.
Proof. induction l as [|x l IH]; [reflexivity|]. cbn [length seq map nth]. f_equal. rewrite <- seq_shift, map_map. exact IH. Qed.
