(* AggTree::apply: what a party receives hides the other party's shares. *)
From Verif Require Import Base GmwModel GmwSpec GmwPrivSpec GmwIoModel AggModel AggSpec AggCirModel AggCirSpec AggCirProofs AggCirRun AggTwoModel AggTwoSpec AggTwoRel AggTwoProofs AggTwoTree AggTwoDown AggTwoLeaf AggRunModel AggRunProofs AggTwoScan AggViewModel AggViewSpec AggViewHide AggViewRun AggViewLanes AggViewTree PropsAggCir.

Definition no_tape : tape := Tape (fun _ _ _ => 0%N) (fun _ _ _ => 0%N) (fun _ _ _ => false) (fun _ _ _ => false) [].
Lemma fits_iff (l : list tape) rs m : length l = m -> fits l rs <-> length rs = m /\ forall j x, nth_error rs j = Some x -> triples_for (tpCor (nth (0 + j) l no_tape)) x.
Proof.
  intros <-. cbn [Nat.add]. split.
  - induction 1 as [|t r l rs H _ [IH1 IH2]]; [split; [reflexivity|intros [|j] x E; discriminate]|]. split; [cbn [length]; lia|]. intros [|j] x E; cbn [nth_error nth] in *; [assert (r = x) as <- by congruence; exact H|exact (IH2 j x E)].
  - revert l. induction rs as [|r rs IH]; intros [|t l] [L H]; try discriminate; [constructor|]. constructor; [exact (H 0 r eq_refl)|]. apply IH. split; [cbn [length] in L; lia|]. intros j x E. exact (H (S j) x E).
Qed.

Lemma combine_nth_error {A B} (l : list A) (m : list B) j p : nth_error (combine l m) j = Some p -> nth_error l j = Some (fst p) /\ nth_error m j = Some (snd p).
Proof. revert m j. induction l as [|a l IH]; intros [|c m] [|j] E; cbn [combine nth_error] in *; try discriminate; [assert (p = (a, c)) as -> by congruence; auto|auto]. Qed.
Lemma map2_nth_error {A B C} (f : A -> B -> C) l m j x : nth_error (map2 f l m) j = Some x -> exists a c, nth_error l j = Some a /\ nth_error m j = Some c /\ x = f a c.
Proof. revert m j. induction l as [|a l IH]; intros [|c m] [|j] E; cbn [map2 nth_error] in *; try discriminate; [|auto]. exists a, c. repeat split. congruence. Qed.

Lemma runs_good b mapped c ins outs F lvs n me ot : runnable c ins outs -> computes c F -> Forall (fun n => 0 < n) ins -> Forall (fun n => 0 < n) outs -> outs <> [] ->
  levels_of c lvs -> 0 < n -> looks n lvs me ot -> good_run b n ins outs F (triples_for (tpCor me)) (lane_run b mapped n c lvs me ot).
Proof.
  intros HR HF P1 P2 NE HL Hn HK. split; [|exact (@lanes_hiding mapped c ins outs F lvs n HR HF P1 P2 NE HL Hn b me ot HK)].
  intros r Hr x0 x1 x L HX. destruct (@gmw_lanes_ok mapped c ins outs F lvs n _ _ HR HF P1 P2 NE HL Hn (looks_tapes b HK Hr) x0 x1 x L HX) as (y0 & y1 & E & HY).
  exists y0, y1. split; [|exact HY]. rewrite lanes_erase in E. unfold lane_run. destruct b; exact E.
Qed.

(* the lists of runs of agg_msg, seen from the party that looks *)
Lemma run_lists {P} (body : nat -> mrun -> P * P -> outcome ((P * P) * messages)) (b : bool) mapped (size : nat -> nat) c lvs (me ot : list tape) rs m s : length me = m -> length ot = m -> length rs = m ->
  steps body 0 (map (fun p => gmw_lanes_msg mapped (size (fst p)) c lvs (fst (snd p)) (snd (snd p))) (combine (seq 0 m) (combine (if b then me else map2 with_cor ot rs) (if b then map2 with_cor ot rs else me)))) s =
  steps (fun j r => body j (lane_run b mapped (size j) c lvs (nth j me no_tape) (nth j ot no_tape) r)) 0 rs s.
Proof.
  intros L1 L2 L3. apply steps_same.
  { rewrite map_length, combine_length, seq_length. destruct b; rewrite combine_length, map2_length; lia. }
  intros j x r Hx Hr t. cbn [Nat.add]. rewrite nth_error_map in Hx. destruct (nth_error (combine (seq 0 m) _) j) as [p|] eqn:Ep; [|discriminate].
  assert (x = gmw_lanes_msg mapped (size (fst p)) c lvs (fst (snd p)) (snd (snd p))) as -> by (cbn [option_map] in Hx; congruence). clear Hx.
  apply combine_nth_error in Ep. destruct Ep as [E1 E2]. assert (Ej : fst p = j).
  { pose proof (nth_error_lt E1) as L. rewrite seq_length in L. rewrite (nth_error_nth' _ 0) in E1 by (rewrite seq_length; exact L). rewrite seq_nth in E1 by exact L. assert (0 + j = fst p) by congruence. lia. }
  rewrite Ej. apply combine_nth_error in E2. destruct E2 as [E2 E3]. unfold lane_run. destruct b.
  - rewrite (nth_error_nth _ _ no_tape E2). apply map2_nth_error in E3. destruct E3 as (o & r' & F1 & F2 & ->). rewrite (nth_error_nth _ _ no_tape F1). assert (r' = r) as -> by congruence. reflexivity.
  - rewrite (nth_error_nth _ _ no_tape E3). apply map2_nth_error in E2. destruct E2 as (o & r' & F1 & F2 & ->). rewrite (nth_error_nth _ _ no_tape F1). assert (r' = r) as -> by congruence. reflexivity.
Qed.

(* loading gives shares of a plain computation that goes through *)
Lemma load_ready k f ty sh src0 src1 src ctrl0 ctrl1 ctrl : word_op k f -> 2 <= length src -> length src = length ctrl -> (ty = Suffix \/ nth_error ctrl 0 = Some false) ->
  F3 (word_shares k) src0 src1 src -> F3 bit_shares ctrl0 ctrl1 ctrl -> tree_sizes (length src) = Ok sh ->
  exists l0 l1, two_load (repeat false k) ty sh src0 ctrl0 = Ok l0 /\ two_load (repeat false k) ty sh src1 ctrl1 = Ok l1 /\ JU k (gnorm k f) ty sh 0 (l0, l1).
Proof.
  intros W H2 EL HC HS HB Es.
  assert (FG : forall a b, length a = k -> length b = k -> gnorm k f a b = f a b) by (intros a b A B; apply gnorm_eq; assumption).
  destruct (@plain_ok k f (gnorm k f) FG (proj1 W) ([], false) ([], false) ty src ctrl _ H2 (plain_scan W (word_vals HS) H2 EL HC)) as (sh' & Es' & _ & a & b & la & lb & u & d & E1 & E2 & E3 & E4 & E5 & E6 & E7).
  assert (sh' = sh) by congruence. subst sh'.
  pose proof (@o3_flagged _ _ (has_pre ty) _ _ _ ([], []) ([], []) ([], []) (fun _ => @load_pre_3 k (sN16 sh) _ _ _ _ _ _ HS HB) (fun _ => @rs_nil k)) as O1.
  pose proof (@o3_flagged _ _ (has_suf ty) _ _ _ ([], []) ([], []) ([], []) (fun _ => @load_suf_3 k (sN16 sh) _ _ _ _ _ _ HS HB) (fun _ => @rs_nil k)) as O2.
  destruct (O1 _ E1) as (a0 & a1 & A0 & A1 & RA). destruct (O2 _ E2) as (b0 & b1 & B0 & B1 & RB). clear O1 O2.
  pose proof (@o3_flagged _ _ (has_pre ty) _ _ _ [] [] [] (fun _ => @up_init_3 k sh _ _ _ RA) (fun _ => f3_nil _)) as O1.
  pose proof (@o3_flagged _ _ (has_suf ty) _ _ _ [] [] [] (fun _ => @up_init_3 k sh _ _ _ RB) (fun _ => f3_nil _)) as O2.
  destruct (O1 _ E3) as (la0 & la1 & LA0 & LA1 & RLA). destruct (O2 _ E4) as (lb0 & lb1 & LB0 & LB1 & RLB). clear O1 O2.
  exists ((a0, b0), ((la0, []), (lb0, []))), ((a1, b1), ((la1, []), (lb1, []))).
  split; [unfold two_load; refine (eq_trans (f_equal (fun z => bind z _) A0) _); cbn [bind]; refine (eq_trans (f_equal (fun z => bind z _) B0) _); cbn [bind]; refine (eq_trans (f_equal (fun z => bind z _) LA0) _); cbn [bind]; refine (eq_trans (f_equal (fun z => bind z _) LB0) _); cbn [bind]; reflexivity|].
  split; [unfold two_load; refine (eq_trans (f_equal (fun z => bind z _) A1) _); cbn [bind]; refine (eq_trans (f_equal (fun z => bind z _) B1) _); cbn [bind]; refine (eq_trans (f_equal (fun z => bind z _) LA1) _); cbn [bind]; refine (eq_trans (f_equal (fun z => bind z _) LB1) _); cbn [bind]; reflexivity|].
  exists a, b, ((la, []), (lb, [])), u, d, (scan ty f (repeat false k) src ctrl). cbn [fst snd]. split; [split; assumption|]. split; [split; split; cbn [fst snd]; try assumption; apply f3_nil|].
  rewrite Nat.sub_0_r. split; [exact E5|]. split; [exact E6|]. exact E7.
Qed.

Section Full.
Variables (k : nat) (f : list bool -> list bool -> list bool) (op : operator) (mux : multiplexer) (ty : agg_type) (cu cd cl : circuit) (lu ld ll : list level).
Hypothesis Hk : 0 < k.
Hypothesis OP : operator_ok k f op.
Hypothesis MX : multiplexer_ok k mux.
Hypothesis W : word_op k f.
Hypothesis Ecu : upstream_cir op mux k ty = Ok cu.
Hypothesis Ecd : downstream_cir op k ty = Ok cd.
Hypothesis Ecl : leaf_cir op mux k ty = Ok cl.
Hypothesis Lu : levels_of cu lu.
Hypothesis Ld : levels_of cd ld.
Hypothesis Ll : levels_of cl ll.
Variable sh : shape.
Variable n : nat.
Hypothesis H2 : 2 <= n.
Hypothesis Es : tree_sizes n = Ok sh.
Let top := length (sSizes sh) - 1.
Let sz := fun lvl => nth lvl (sSizes sh) 0 / 2.

Theorem runs_hiding b upm upo dnm dno lfm lfo : tapes_for lu ld ll sh upm upo dnm dno lfm lfo ->
  hiding b (tree_got b) (fun r => (fits upm (fst (fst r)) /\ fits dnm (snd (fst r))) /\ triples_for (tpCor lfm) (snd r)) (JU k (gnorm k f) ty sh 0) (fun _ => True)
    (fun r s => tree_msg (repeat false k) ty sh
      (map (fun p => gmw_lanes_msg true (sz (fst p)) cu lu (fst (snd p)) (snd (snd p))) (combine (seq 0 top) (combine (if b then upm else map2 with_cor upo (fst (fst r))) (if b then map2 with_cor upo (fst (fst r)) else upm))))
      (map (fun p => gmw_lanes_msg true (sz (top - fst p - 1)) cd ld (fst (snd p)) (snd (snd p))) (combine (seq 0 top) (combine (if b then dnm else map2 with_cor dno (snd (fst r))) (if b then map2 with_cor dno (snd (fst r)) else dnm))))
      (gmw_lanes_msg false (sN16 sh / 2) cl ll (if b then lfm else with_cor lfo (snd r)) (if b then with_cor lfo (snd r) else lfm)) s).
Proof using All.
  intros (U1 & U2 & D1 & D2 & HU & HD & HL). fold top in U1, U2, D1, D2, HU, HD. fold sz in HU, HD. set (o := (repeat false k, false)).
  destruct (@C71_up k f op mux ty OP MX) as (c1 & E1 & R1 & F1). assert (c1 = cu) by congruence. subst c1.
  destruct (@C71_down k f op ty o o OP) as (c2 & E2 & R2 & F2). assert (c2 = cd) by congruence. subst c2.
  destruct (@C71_leaf k f op mux ty OP MX) as (c3 & E3 & R3 & F3'). assert (c3 = cl) by congruence. subst c3.
  destruct (up_pos ty Hk) as (A1 & A2 & A3). destruct (down_pos ty Hk) as (B1 & B2 & B3). destruct (lf_pos ty Hk) as (C1 & C2 & C3).
  assert (FG : forall a b, length a = k -> length b = k -> gnorm k f a b = f a b) by (intros a c A B; apply gnorm_eq; assumption).
  assert (NT : forall (l : list tape) j, j < length l -> nth_error l j = Some (nth j l no_tape)) by (intros l j; apply nth_error_nth').
  pose proof (@tree_hiding k f (gnorm k f) FG (proj1 W) o o ty sh b (list (list triple))
    (fun j => lane_run b true (sz j) cu lu (nth j upm no_tape) (nth j upo no_tape)) (fun j => lane_run b true (sz (top - j - 1)) cd ld (nth j dnm no_tape) (nth j dno no_tape)) (lane_run b false (sN16 sh / 2) cl ll lfm lfo)
    (fun j => triples_for (tpCor (nth j upm no_tape))) (fun j => triples_for (tpCor (nth j dnm no_tape))) (triples_for (tpCor lfm))) as T.
  destruct T as [T1 T2].
  { intros lvl Hl. fold top in Hl. apply (runs_good b true R1 F1 A1 A2 A3 Lu (level_pos H2 Es Hl)). apply (HU lvl); apply NT; lia. }
  { intros i Hi. fold top in Hi. fold top. apply (runs_good b true R2 F2 B1 B2 B3 Ld); [apply (level_pos H2 Es); fold top; lia|]. apply (HD i); apply NT; lia. }
  { apply (runs_good b false R3 F3' C1 C2 C3 Ll (leaf_pos H2 Es) HL). }
  assert (VT : forall r, (fits upm (fst (fst r)) /\ fits dnm (snd (fst r))) /\ triples_for (tpCor lfm) (snd r) <-> valid_tree sh (fun j => triples_for (tpCor (nth j upm no_tape))) (fun j => triples_for (tpCor (nth j dnm no_tape))) (triples_for (tpCor lfm)) r).
  { intros r. unfold valid_tree. fold top. rewrite <- (fits_iff (fst (fst r)) U1), <- (fits_iff (snd (fst r)) D1). reflexivity. }
  assert (EQ : forall r s, (fits upm (fst (fst r)) /\ fits dnm (snd (fst r))) /\ triples_for (tpCor lfm) (snd r) -> forall q, q = tree_msg (repeat false k) ty sh
      (map (fun p => gmw_lanes_msg true (sz (fst p)) cu lu (fst (snd p)) (snd (snd p))) (combine (seq 0 top) (combine (if b then upm else map2 with_cor upo (fst (fst r))) (if b then map2 with_cor upo (fst (fst r)) else upm))))
      (map (fun p => gmw_lanes_msg true (sz (top - fst p - 1)) cd ld (fst (snd p)) (snd (snd p))) (combine (seq 0 top) (combine (if b then dnm else map2 with_cor dno (snd (fst r))) (if b then map2 with_cor dno (snd (fst r)) else dnm))))
      (gmw_lanes_msg false (sN16 sh / 2) cl ll (if b then lfm else with_cor lfo (snd r)) (if b then with_cor lfo (snd r) else lfm)) s ->
      q = do u <- steps (fun j r => up_msg (repeat false k) ty sh j (lane_run b true (sz j) cu lu (nth j upm no_tape) (nth j upo no_tape) r)) 0 (fst (fst r)) s;
     do d <- steps (fun j r => down_msg (repeat false k) ty sh j (lane_run b true (sz (top - j - 1)) cd ld (nth j dnm no_tape) (nth j dno no_tape) r)) 0 (snd (fst r)) (turn (fst (fst u)), turn (snd (fst u)));
     do l <- leaf_msg (repeat false k) ty sh (lane_run b false (sN16 sh / 2) cl ll lfm lfo (snd r)) (fst d);
     Ok (fst l, (snd u, snd d, snd l))).
  { intros r s [[V1 V2] V3] q ->. unfold tree_msg. apply (fits_iff _ U1) in V1. apply (fits_iff _ D1) in V2.
    rewrite (@run_lists _ (up_msg (repeat false k) ty sh) b true sz cu lu upm upo (fst (fst r)) top s U1 U2 (proj1 V1)). destruct (steps _ 0 (fst (fst r)) s) as [u| | |]; try reflexivity. cbn [bind].
    rewrite (@run_lists _ (down_msg (repeat false k) ty sh) b true (fun i => sz (top - i - 1)) cd ld dnm dno (snd (fst r)) top _ D1 D2 (proj1 V2)). destruct (steps _ 0 (snd (fst r)) _) as [d| | |]; try reflexivity. cbn [bind].
    unfold lane_run. destruct b; reflexivity. }
  split.
  - intros r s V HJ. destruct (T1 r s (proj1 (VT r) V) HJ) as (q & t & E & _). exists q, t. split; [|exact I]. rewrite <- E. exact (EQ r s V _ eq_refl).
  - intros r s s' q t V HJ HJ' Eo E. rewrite (EQ r s V _ eq_refl) in E. destruct (T2 r s s' q t (proj1 (VT r) V) HJ HJ' Eo E) as (r' & q' & V' & E' & Eo' & U).
    apply VT in V'. exists r', q'. split; [exact V'|]. split; [rewrite (EQ r' s' V' _ eq_refl); exact E'|]. split; [exact Eo'|].
    intros r2 q2 t2 V2 EE VW. rewrite (EQ r2 s' V2 _ eq_refl) in EE. apply (U r2 q2 t2 (proj1 (VT r2) V2) EE). exact VW.
Qed.
End Full.
