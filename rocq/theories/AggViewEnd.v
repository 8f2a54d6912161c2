(* The whole of AggTree::apply with its messages: results and hiding, for either party. *)
From Verif Require Import Base GmwModel GmwSpec GmwPrivSpec GmwIoModel AggModel AggSpec AggCirModel AggCirSpec AggCirProofs AggCirRun AggTwoModel AggTwoSpec AggTwoRel AggTwoProofs AggTwoTree AggRunModel AggRunProofs AggTwoScan AggViewModel AggViewSpec AggViewHide AggViewRun AggViewLanes AggViewTree AggViewFull AggViewErase PropsAggCir PropsAggTwo.

Lemma with_same t : with_cor t (tpCor t) = t.
Proof. destruct t; reflexivity. Qed.
Lemma with_list l : map2 with_cor l (map tpCor l) = l.
Proof. induction l as [|t l IH]; cbn [map map2]; [reflexivity|]. rewrite with_same, IH. reflexivity. Qed.
Lemma own_pair {A} (b : bool) (x x' y y' : A) : own b (if b then (x, y) else (y, x)) = own b (if b then (x', y') else (y', x')) <-> x = x'.
Proof. destruct b; reflexivity. Qed.

Section End.
Variables (k : nat) (f : list bool -> list bool -> list bool) (op : operator) (mux : multiplexer) (ty : agg_type) (cu cd cl : circuit) (lu ld ll : list level).
Hypothesis Hk : 0 < k.
Hypothesis OP : operator_ok k f op.
Hypothesis MX : multiplexer_ok k mux.
Hypothesis W : word_op k f.
Hypothesis Ecu : upstream_cir op mux k ty = Ok cu.
Hypothesis Ecd : downstream_cir op k ty = Ok cd.
Hypothesis Ecl : leaf_cir op mux k ty = Ok cl.
Hypothesis Lu : levels_of cu lu.
Hypothesis Ld : levels_of cd ld.
Hypothesis Ll : levels_of cl ll.

(* the protocol with the looking party's data first *)
Definition agg_side (b : bool) upm upo dnm dno lfm lfo (srcm srco : list (list bool)) (ctrlm ctrlo : list bool) :=
  agg_msg ty (repeat false k) cu cd cl lu ld ll (if b then upm else upo) (if b then upo else upm) (if b then dnm else dno) (if b then dno else dnm) (if b then lfm else lfo) (if b then lfo else lfm)
    (if b then srcm else srco) (if b then srco else srcm) (if b then ctrlm else ctrlo) (if b then ctrlo else ctrlm).

Definition loadable (b : bool) (sh : shape) (srcm srco : list (list bool)) (ctrlm ctrlo : list bool) (src : list (list bool)) (ctrl : list bool) : Prop :=
  2 <= length src /\ length src = length ctrl /\ (ty = Suffix \/ nth_error ctrl 0 = Some false) /\
  F3 (word_shares k) (if b then srcm else srco) (if b then srco else srcm) src /\ F3 bit_shares (if b then ctrlm else ctrlo) (if b then ctrlo else ctrlm) ctrl /\ tree_sizes (length src) = Ok sh.

(* the protocol is the tree on what the parties load *)
Lemma side_load b sh srcm srco ctrlm ctrlo src ctrl : loadable b sh srcm srco ctrlm ctrlo src ctrl -> exists m o, two_load (repeat false k) ty sh srcm ctrlm = Ok m /\ JU k (gnorm k f) ty sh 0 (if b then (m, o) else (o, m)) /\
  forall upm upo dnm dno lfm lfo, agg_side b upm upo dnm dno lfm lfo srcm srco ctrlm ctrlo =
    tree_msg (repeat false k) ty sh
      (map (fun p => gmw_lanes_msg true (nth (fst p) (sSizes sh) 0 / 2) cu lu (fst (snd p)) (snd (snd p))) (combine (seq 0 (length (sSizes sh) - 1)) (combine (if b then upm else upo) (if b then upo else upm))))
      (map (fun p => gmw_lanes_msg true (nth (length (sSizes sh) - 1 - fst p - 1) (sSizes sh) 0 / 2) cd ld (fst (snd p)) (snd (snd p))) (combine (seq 0 (length (sSizes sh) - 1)) (combine (if b then dnm else dno) (if b then dno else dnm))))
      (gmw_lanes_msg false (sN16 sh / 2) cl ll (if b then lfm else lfo) (if b then lfo else lfm)) (if b then (m, o) else (o, m)).
Proof using W.
  intros (H2 & EL & HC & HS & HB & Es). destruct (@load_ready k f ty sh _ _ src _ _ ctrl W H2 EL HC HS HB Es) as (l0 & l1 & E0 & E1 & HJ).
  destruct (f3_len HS) as [A0 A1]. destruct (f3_len HB) as [B0 B1].
  exists (if b then l0 else l1), (if b then l1 else l0).
  assert (EP : (if b then (if b then l0 else l1, if b then l1 else l0) else (if b then l1 else l0, if b then l0 else l1)) = (l0, l1)) by (destruct b; reflexivity). rewrite EP.
  split; [destruct b; assumption|]. split; [exact HJ|]. intros. unfold agg_side, agg_msg. rewrite A0, Es. cbn [bind]. cbv zeta.
  rewrite A1, B0, B1, EL, Nat.eqb_refl. cbn [negb throw_if bind]. rewrite E0. cbn [bind]. rewrite E1. cbn [bind]. reflexivity.
Qed.

Theorem side_hides b sh upm upo dnm dno lfm lfo srcm srco srco' ctrlm ctrlo ctrlo' src src' ctrl ctrl' :
  loadable b sh srcm srco ctrlm ctrlo src ctrl -> loadable b sh srcm srco' ctrlm ctrlo' src' ctrl' ->
  tapes_for lu ld ll sh upm upo dnm dno lfm lfo -> fits upm (map tpCor upo) -> fits dnm (map tpCor dno) -> triples_for (tpCor lfm) (tpCor lfo) ->
  exists ru rd rl q q' tr, fits upm ru /\ fits dnm rd /\ triples_for (tpCor lfm) rl /\
    agg_side b upm upo dnm dno lfm lfo srcm srco ctrlm ctrlo = Ok (q, tr) /\
    agg_side b upm (map2 with_cor upo ru) dnm (map2 with_cor dno rd) lfm (with_cor lfo rl) srcm srco' ctrlm ctrlo' = Ok (q', tr) /\ own b q' = own b q /\
    forall ru2 rd2 rl2 q2 tr2, fits upm ru2 -> fits dnm rd2 -> triples_for (tpCor lfm) rl2 ->
      agg_side b upm (map2 with_cor upo ru2) dnm (map2 with_cor dno rd2) lfm (with_cor lfo rl2) srcm srco' ctrlm ctrlo' = Ok (q2, tr2) -> tree_got b tr2 = tree_got b tr ->
      ru2 = ru /\ rd2 = rd /\ rl2 = rl.
Proof using All.
  intros L L' HT FU FD FL. destruct (side_load L) as (m & o & Em & HJ & EQ). destruct (side_load L') as (m' & o' & Em' & HJ' & EQ'). assert (m' = m) by congruence. subst m'. clear Em'.
  destruct L as (H2 & _ & _ & _ & _ & Es). pose proof (@runs_hiding k f op mux ty cu cd cl lu ld ll Hk OP MX W Ecu Ecd Ecl Lu Ld Ll sh (length src) H2 Es b upm upo dnm dno lfm lfo HT) as [R1 R2].
  pose proof (conj (conj FU FD) FL) as V. pose (r0 := (map tpCor upo, map tpCor dno, tpCor lfo)).
  destruct (R1 r0 _ V HJ) as (q & tr & E & _). destruct (R2 r0 _ _ q tr V HJ HJ' ltac:(apply own_pair; reflexivity) E) as (((ru & rd) & rl) & q' & ((V1 & V2) & V3) & E' & EO & U). cbn [fst snd] in *.
  exists ru, rd, rl, q, q', tr. split; [exact V1|]. split; [exact V2|]. split; [exact V3|].
  split; [rewrite EQ; unfold r0 in E; cbn [fst snd] in E; rewrite !with_list, with_same in E; exact E|]. split; [rewrite EQ'; exact E'|]. split; [exact EO|].
  intros ru2 rd2 rl2 q2 tr2 F1 F2 F3' E2 G. rewrite EQ' in E2. pose proof (U (ru2, rd2, rl2) q2 tr2 (conj (conj F1 F2) F3') E2 G) as X. assert (fst (fst (ru2, rd2, rl2)) = ru /\ snd (fst (ru2, rd2, rl2)) = rd /\ snd (ru2, rd2, rl2) = rl) by (rewrite X; auto). exact H.
Qed.

Theorem side_shares b sh upm upo dnm dno lfm lfo srcm srco ctrlm ctrlo src ctrl :
  loadable b sh srcm srco ctrlm ctrlo src ctrl ->
  tapes_for lu ld ll sh upm upo dnm dno lfm lfo -> fits upm (map tpCor upo) -> fits dnm (map tpCor dno) -> triples_for (tpCor lfm) (tpCor lfo) ->
  exists q tr, agg_side b upm upo dnm dno lfm lfo srcm srco ctrlm ctrlo = Ok (q, tr) /\ F3 (word_shares k) (fst q) (snd q) (scan ty f (repeat false k) src ctrl).
Proof using All.
  intros (H2 & EL & HC & HS & HB & Es) (U1 & U2 & D1 & D2 & HU & HD & HL) FU FD FL.
  destruct (f3_len HS) as [A0 A1]. set (top := length (sSizes sh) - 1) in *.
  assert (LK : forall n lvs m o, looks n lvs m o -> triples_for (tpCor m) (tpCor o) -> tapes_ok n lvs (if b then m else o) (if b then o else m)).
  { intros n lvs m o HK HF. pose proof (looks_tapes b HK HF) as X. rewrite with_same in X. exact X. }
  assert (NB : forall (A : Type) (x y : list A) d j, nth j (if b then x else y) d = if b then nth j x d else nth j y d) by (intros; destruct b; reflexivity).
  assert (NF : forall l m j, fits l (map tpCor m) -> j < length m -> triples_for (tpCor (nth j l no_tape)) (tpCor (nth j m no_tape))).
  { intros l m j HF. revert j. remember (map tpCor m) as rs eqn:E. revert m E. induction HF as [|t r l rs H _ IH]; intros [|o m] E [|j] Hj; cbn [map length nth] in *; try discriminate; try lia.
    - assert (r = tpCor o) as <- by congruence. exact H.
    - apply IH; [congruence|lia]. }
  destruct (@C72_tree k f op mux ty cu cd cl lu ld ll (fun l => nth l (if b then upm else upo) no_tape) (fun l => nth l (if b then upo else upm) no_tape) (fun l => nth (top - l - 1) (if b then dnm else dno) no_tape) (fun l => nth (top - l - 1) (if b then dno else dnm) no_tape)
    (if b then lfm else lfo) (if b then lfo else lfm) _ _ src _ _ ctrl sh Hk OP MX W Ecu Ecd Ecl Lu Ld Ll H2 EL HC HS HB Es) as (o0 & o1 & E & HR).
  - intros lvl Hl. fold top in Hl. rewrite !NB. apply LK; [apply (HU lvl); apply nth_error_nth'; lia|apply NF; [exact FU|lia]].
  - intros lvl Hl. fold top in Hl. rewrite !NB. apply LK; [|apply NF; [exact FD|lia]].
    pose proof (HD (top - lvl - 1) (nth (top - lvl - 1) dnm no_tape) (nth (top - lvl - 1) dno no_tape)) as X. replace (top - (top - lvl - 1) - 1) with lvl in X by lia. apply X; apply nth_error_nth'; lia.
  - apply LK; assumption.
  - rewrite (@agg_erase ty (repeat false k) cu cd cl lu ld ll _ _ _ _ _ _ _ _ _ _ sh) in E; [|rewrite A0; exact Es|destruct b; assumption..].
    apply bind_inv in E. destruct E as ((q & tr) & E & Eq). cbn [fst] in Eq. assert (q = (o0, o1)) as -> by congruence. exists (o0, o1), tr. split; [exact E|exact HR].
Qed.
End End.
