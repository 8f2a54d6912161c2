(* The circuits of a group by, one after the other: what a party receives in them hides the other's rows. *)
From Verif Require Import Base Words PrfModel PrfProofs PermModel PermCorModel PermCorProofs KeyMultModel KeyMultProofs ShuffleModel ShuffleSpec GmwModel GmwSpec GmwPrivSpec GmwProofs GmwIoModel GmwIoSpec BitInjProofs RadixModel RadixSpec AggModel AggSpec AggProofs AggCirModel AggCirSpec AggCirProofs AggCirBuild AggCirAdd AggCirRun
  AggTwoModel AggTwoSpec AggTwoRel AggTwoTree AggRunModel AggRunProofs AggTwoScan AggViewModel AggViewSpec AggViewHide AggViewLanes AggViewTree AggViewFull AggViewErase AggViewEnd TableModel TableSpec TrimProofs TableProofs OmJoinModel OmJoinSpec PackProofs OmJoinProofs CtrlProofs WhereProofs JoinRunModel JoinRunSpec JoinRunCtl JoinRunStages JoinRunChain GroupByModel GroupBySpec GroupByArith GroupByProofs
  TableOpsSpec StableSortProofs HexProofs BinFileProofs CompressProofs GroupByRunModel GroupByRunSpec GroupByRunStages GroupByRunSum JoinMsgSpec JoinMsgRows JoinMsgStages GroupByMsgModel GroupByMsgSpec PropsAggCir PropsAggTwo PropsAggView PropsGroupByRun.

Lemma leaf_old w old old' rows : gb_leaf w w old rows = gb_leaf w w old' rows.
Proof. unfold gb_leaf. apply map_ext. intros i. rewrite Nat.sub_diag. reflexivity. Qed.
Lemma sum_old gl ws W jl jt o0 o1 o0' o1' p d : fold_right Nat.add 0 ws = 8 * W -> sum_run gl ws W jl jt o0 o1 p d = sum_run gl ws W jl jt o0' o1' p d.
Proof.
  intros E. unfold sum_run. rewrite E. replace (div_ceil (8 * W) 8) with W by (unfold div_ceil; lia). cbv zeta.
  do 6 (match goal with |- bind ?x _ = bind ?x _ => destruct x as [?| | |]; try reflexivity; cbn [bind] end).
  rewrite (leaf_old W o0 o0'), (leaf_old W o1 o1'). reflexivity.
Qed.

Section Stages.
Variables (n C W ck kc fo ks : nat) (ws : list nat) (gl : gb_lib) (jl : join_levels) (b : bool) (me ot : side) (base : cors).
Hypothesis Hn : 2 <= n.
Hypothesis HW : 0 < W.
Hypothesis Ews : fold_right Nat.add 0 ws = 8 * W.
Hypothesis HC : W <= C.
Hypothesis Hks : 0 < ks.
Hypothesis Ekc : kc = div_ceil ks 8.
Hypothesis Hck : ck + kc <= C.
Hypothesis Hfo : fo < C.
Hypothesis Hgl : gb_lib_ok (8 * W) gl.
Hypothesis Hjl : gb_levels_fit gl ws ks jl.
Hypothesis Hs : side_looks n jl me ot.
Hypothesis Hbase : side_fits me base.
Notation pr x y := (if b then (x, y) else (y, x)).
Notation tC r := (pr (sdC me) (with_cor (sdC ot) r)).
Notation tF r := (pr (sdF me) (with_cor (sdF ot) r)).
Notation jtD r := (both b me (side_with ot (fst (fst base), r, snd base))).
Definition cut (z : list (list N)) := map (fun i => slice (nth i z []) ck kc) (seq 0 n).
Definition bit (z : list (list N)) := map (fun i => N.odd (nth fo (nth i z []) 0%N)) (seq 0 n).

Notation st0 := (list (list N)).
Notation st1 := (list (list N) * list N)%type.
Notation st2 := (list (list N) * list N * list (list N))%type.
Notation st3 := (list (list N) * list N * list (list N) * list N)%type.
Definition in0 (s : st0 * st0) : Prop := rows_ok n C (fst s) /\ rows_ok n C (snd s).
Definition in1 (q : st1 * st1) : Prop := let '((z0, p0), (z1, p1)) := q in in0 (z0, z1) /\ length p0 = n /\ length p1 = n.
Definition in2 (q : st2 * st2) : Prop := let '((z0, p0, u0), (z1, p1, u1)) := q in in1 ((z0, p0), (z1, p1)) /\ rows_ok n W u0 /\ rows_ok n W u1.
Definition in3 (q : st3 * st3) : Prop := let '((z0, p0, u0, f0), (z1, p1, u1, f1)) := q in in2 ((z0, p0, u0), (z1, p1, u1)) /\ length f0 = n /\ length f1 = n /\ bytes f0 /\ bytes f1.
Definition do1 (r : list (list triple)) (s : st0 * st0) : outcome ((st1 * st1) * messages) :=
  do c <- control_run ks 0 (jlCtrl jl) (tC r) (cut (fst s), cut (snd s));
  do p0 <- set (fst (fst c)) 0 0%N; do p1 <- set (snd (fst c)) 0 0%N;
  Ok (((fst s, p0), (snd s, p1)), snd c).
Definition do2 (r : (list (list (list triple)) * list (list (list triple))) * list (list triple)) (q : st1 * st1) : outcome ((st2 * st2) * (list messages * list messages * messages)) :=
  let '((z0, p0), (z1, p1)) := q in
  do u <- sum_run gl ws W jl (jtD r) [] [] (p0, p1) (z0, z1);
  Ok (((z0, p0, fst (fst u)), (z1, p1, snd (fst u))), snd u).
Definition do3 (r : list (list triple)) (q : st2 * st2) : outcome ((st3 * st3) * messages) :=
  let '((z0, p0, u0), (z1, p1, u1)) := q in
  do f <- gb_flags_run (jlFlag jl) (tF r) (p0, p1) (bit z0) (bit z1);
  Ok (((z0, p0, u0, fst (fst f)), (z1, p1, u1, snd (fst f))), snd f).

Lemma run_pr' (c : circuit) lvs cols (m o : tape) r x0 x1 : gmw_rows n c lvs cols (fst (pr m (with_cor o r))) (snd (pr m (with_cor o r))) x0 x1 = rows_run b n c lvs cols m o r x0 x1.
Proof. unfold rows_run. destruct b; reflexivity. Qed.
Lemma own_map' {A B} (f : A -> B) x0 x1 y0 y1 : own b (x0, x1) = own b (y0, y1) -> own b (f x0, f x1) = own b (f y0, f y1).
Proof. destruct b; cbn [own fst snd]; intros ->; reflexivity. Qed.
Lemma tapes_any r : side_fits me r -> tapes_fit n jl (both b me (side_with ot r)).
Proof. intros H. apply (@tapes_side b n jl me ot r Hs H). Qed.

Lemma cut_ok z : rows_ok n C z -> rows_ok n kc (cut z).
Proof. intros H. apply (cut_rows H Hck). Qed.

Lemma do1_hiding : hiding b (got b) (triples_for (tpCor (sdC me))) in0 in1 do1.
Proof using All.
  assert (OK : forall r s, triples_for (tpCor (sdC me)) r -> in0 s -> exists q t, do1 r s = Ok (q, t) /\ in1 q).
  { intros r [z0 z1] Hr (H0 & H1). cbn [fst snd] in *. assert (HF : side_fits me (r, snd (fst base), snd base)) by (destruct Hbase as (_ & B2 & B3); split; [exact Hr|]; split; [exact B2|exact B3]).
    pose proof (tapes_any HF) as (P0 & P1 & _ & _ & T1 & _). change (jtpCtrl (both b me (side_with ot (r, snd (fst base), snd base)))) with (tC r) in *. pose proof Hjl as (LC & _).
    destruct (@control_any n kc ks 0 (jlCtrl jl) (tC r) (cut z0) (cut z1)) as (o0 & o1 & t1 & p0 & p1 & R1 & Lo0 & S0 & S1 & Lp0 & Lp1 & _); try assumption; try lia; try (apply cut_ok; assumption).
    eexists. exists t1. split; [unfold do1; cbn [fst snd]; rewrite R1; cbn [bind fst snd]; rewrite S0, S1; cbn [bind]; reflexivity|].
    unfold in1, in0. cbn [fst snd]. auto. }
  split; [exact OK|]. intros r [z0 z1] [z0' z1'] q t Hr (H0 & H1) (H0' & H1') Eo E. cbn [fst snd] in *.
  destruct (control_circuit_ok Hks) as (gs & m & Ec & _ & _). destruct (control_runnable Hks Ec) as (HR & HF & _). destruct Hjl as (HL & _). specialize (HL _ Ec).
  set (sk := fun z : list (list N) => repeat 0%N kc :: map (fun r => slice r 0 kc) (cut z)). set (inp := fun z : list (list N) => [firstn n (sk z); skipn 1 (sk z)]).
  match type of Ec with _ = Ok ?x => set (c := x) in * end.
  assert (LCu : forall z, length (cut z) = n) by (intros z; unfold cut; rewrite map_length; apply seq_length).
  assert (TW : forall z, two n (inp z)).
  { intros z. exists (firstn n (sk z)), (skipn 1 (sk z)). split; [reflexivity|]. unfold sk. rewrite firstn_length, skipn_length. cbn [length]. rewrite map_length, LCu. lia. }
  assert (EQ : forall r z0 z1, rows_ok n C z0 -> rows_ok n C z1 -> control_run ks 0 (jlCtrl jl) (tC r) (cut z0, cut z1) =
    do y <- rows_run b n c (jlCtrl jl) (div_ceil ks 8) (sdC me) (sdC ot) r (inp z0) (inp z1); Ok ((map (hd 0%N) (fst (fst y)), map (hd 0%N) (snd (fst y))), snd y)).
  { intros r' a0 a1 A0 A1. unfold control_run. rewrite Ec. cbn [bind fst snd]. rewrite <- Ekc. rewrite (@skeys_rows n kc), (@skeys_rows n kc) by (try (apply cut_ok; assumption); lia). cbn [bind]. rewrite LCu. rewrite run_pr'. reflexivity. }
  destruct Hs as (P1 & P2 & _ & _ & LC & _).
  unfold do1 in E. cbn [fst snd] in E. rewrite EQ in E by assumption. apply bind_inv in E. destruct E as (yy & E & EE). apply bind_inv in E. destruct E as ((y & t1) & E & E1). cbn [fst snd] in E1. injection E1 as <-. cbn [fst snd] in EE.
  apply bind_inv in EE. destruct EE as (p0 & G0 & EE). apply bind_inv in EE. destruct EE as (p1 & G1 & EE). injection EE as <- <-.
  destruct (@rows_hiding c ks (same_low ks) (jlCtrl jl) n HR HF HL ltac:(lia) Hks b (sdC me) (sdC ot) r (inp z0, inp z1) (inp z0', inp z1') y t1 LC P1 P2 Hr) as (r' & y' & Hr' & E' & EO & U); cbn [fst snd]; try apply TW; try exact E.
  { apply (own_map' inp), Eo. }
  cbn [fst snd] in E', U. destruct (OK r' (z0', z1') Hr') as (q' & t' & Q' & _); [split; [exact H0'|exact H1']|].
  exists r', q'. split; [exact Hr'|]. pose proof Q' as Q2. unfold do1 in Q2. cbn [fst snd] in Q2. rewrite EQ, E' in Q2 by assumption. cbn [bind fst snd] in Q2.
  apply bind_inv in Q2. destruct Q2 as (p0' & G0' & Q2). apply bind_inv in Q2. destruct Q2 as (p1' & G1' & Q2). injection Q2 as <- <-. split; [exact Q'|]. split.
  { clear - Eo EO G0 G1 G0' G1'. unfold own in *. destruct b; cbn [fst snd] in *; rewrite EO in *; rewrite <- Eo; congruence. }
  intros r2 q2 t2 Hr2 E2 V. unfold do1 in E2. cbn [fst snd] in E2. rewrite EQ in E2 by assumption. apply bind_inv in E2. destruct E2 as (yy & E2 & EE). apply bind_inv in E2. destruct E2 as ((y2 & t3) & E2 & E3). injection E3 as <-. cbn [fst snd] in EE.
  apply bind_inv in EE. destruct EE as (? & _ & EE). apply bind_inv in EE. destruct EE as (? & _ & EE). injection EE as _ <-. exact (U r2 y2 t3 Hr2 E2 V).
Qed.

Lemma bit_len z : length (bit z) = n.
Proof. unfold bit. rewrite map_length. apply seq_length. Qed.

Lemma do3_hiding : hiding b (got b) (triples_for (tpCor (sdF me))) in2 in3 do3.
Proof using All.
  assert (OK : forall r s, triples_for (tpCor (sdF me)) r -> in2 s -> exists q t, do3 r s = Ok (q, t) /\ in3 q).
  { intros r [[[z0 p0] u0] [[z1 p1] u1]] Hr HI. pose proof HI as ((_ & L0 & L1) & _). assert (HF : side_fits me (fst base, r)) by (destruct Hbase as (B1 & B2 & _); split; [exact B1|]; split; [exact B2|exact Hr]).
    pose proof (tapes_any HF) as (_ & _ & P2 & P3 & _ & T2 & _). change (jtpFlag (both b me (side_with ot (fst base, r)))) with (tF r) in *. pose proof Hjl as (_ & _ & _ & _ & LF).
    destruct (@flags_any n (jlFlag jl) (tF r) p0 p1 (bit z0) (bit z1)) as (mk & t3 & Lm & R3); try assumption; try lia; try apply bit_len.
    destruct (@gb_flags_ok n mk p0 p1 (bit z0) (bit z1) Lm L0 L1 (bit_len z0) (bit_len z1)) as (f0 & f1 & EF & La & Lb & Ba & Bb & _). rewrite EF in R3.
    eexists. exists t3. split; [unfold do3; rewrite R3; cbn [bind fst snd]; reflexivity|]. unfold in3. auto. }
  split; [exact OK|]. intros r [[[z0 p0] u0] [[z1 p1] u1]] [[[z0' p0'] u0'] [[z1' p1'] u1']] q t Hr HI HI' Eo E. pose proof HI as ((_ & L0 & L1) & _). pose proof HI' as ((_ & L0' & L1') & _).
  destruct flag_good as [HR HF]. pose proof Hjl as (_ & _ & _ & _ & HL). destruct Hs as (_ & _ & P1 & P2 & _ & LF & _).
  set (one := map (fun x : N => [x])). set (inp := fun (p : list N) (z : list (list N)) => [one p; map (fun b => [N.b2n b]) (bit z)]).
  assert (TW : forall p z, length p = n -> two n (inp p z)).
  { intros p z Lp. exists (one p), (map (fun b => [N.b2n b]) (bit z)). split; [reflexivity|]. unfold one. rewrite !map_length, bit_len. split; [assumption|reflexivity]. }
  assert (EQ : forall r p0 p1 z0 z1, gb_flags_run (jlFlag jl) (tF r) (p0, p1) (bit z0) (bit z1) =
    do y <- rows_run b n flag_circuit (jlFlag jl) (div_ceil 1 8) (sdF me) (sdF ot) r (inp p0 z0) (inp p1 z1); Ok ((map (hd 0%N) (fst (fst y)), map (hd 0%N) (snd (fst y))), snd y)).
  { intros r' a0 a1 v0 v1. unfold gb_flags_run. cbn [fst snd]. rewrite bit_len, run_pr'. reflexivity. }
  unfold do3 in E. rewrite EQ in E. apply bind_inv in E. destruct E as (yy & E & EE). apply bind_inv in E. destruct E as ((y & t1) & E & E1). cbn [fst snd] in E1. injection E1 as <-. cbn [fst snd] in EE. injection EE as <- <-.
  destruct (@rows_hiding flag_circuit 1 nand_fun (jlFlag jl) n HR HF HL ltac:(lia) ltac:(lia) b (sdF me) (sdF ot) r (inp p0 z0, inp p1 z1) (inp p0' z0', inp p1' z1') y t1 LF P1 P2 Hr) as (r' & y' & Hr' & E' & EO & U); cbn [fst snd]; try (apply TW; assumption); try exact E.
  { clear - Eo. destruct b; cbn [own fst snd] in *; congruence. }
  cbn [fst snd] in E', U. destruct (OK r' ((z0', p0', u0'), (z1', p1', u1')) Hr' HI') as (q' & t' & Q' & _).
  exists r', q'. split; [exact Hr'|]. pose proof Q' as Q2. unfold do3 in Q2. rewrite EQ, E' in Q2. cbn [bind fst snd] in Q2. injection Q2 as <- <-. split; [exact Q'|]. split.
  { clear - Eo EO. unfold own in *. destruct b; cbn [fst snd] in *; rewrite EO in *; congruence. }
  intros r2 q2 t2 Hr2 E2 V. unfold do3 in E2. rewrite EQ in E2. apply bind_inv in E2. destruct E2 as (yy & E2 & EE). apply bind_inv in E2. destruct E2 as ((y2 & t3) & E2 & E3). cbn [fst snd] in E3.
  injection E3 as <-. cbn [fst snd] in EE. injection EE as _ <-. exact (U r2 y2 t3 Hr2 E2 V).
Qed.

Notation validD r := ((fits (sdU me) (fst (fst r)) /\ fits (sdD me) (snd (fst r))) /\ triples_for (tpCor (sdL me)) (snd r)).
Lemma do2_hiding : hiding b (tree_got b) (fun r => validD r) in1 in2 do2.
Proof using All.
  assert (OK : forall r s, validD r -> in1 s -> exists q t, do2 r s = Ok (q, t) /\ in2 q).
  { intros r [[z0 p0] [z1 p1]] ((R1 & R2) & R3) HI. pose proof HI as ((H0 & H1) & L0 & L1). cbn [fst snd] in *.
    assert (HF : side_fits me (fst (fst base), r, snd base)) by (destruct Hbase as (B1 & _ & B3); split; [exact B1|]; split; [split; [exact R1|]; split; [exact R2|exact R3]|exact B3]).
    destruct (@C79_sums n C W ws gl ks jl _ [] [] p0 p1 z0 z1 Hn HW Ews HC Hgl Hjl (tapes_any HF) L0 L1 H0 H1) as (a0 & a1 & tr & E & A0 & A1 & _).
    eexists. exists tr. split; [unfold do2; rewrite E; cbn [bind fst snd]; reflexivity|]. unfold in2. auto. }
  split; [exact OK|]. intros r [[z0 p0] [z1 p1]] [[z0' p0'] [z1' p1']] q t Hr HI HI' Eo E. pose proof HI as ((H0 & H1) & L0 & L1). pose proof HI' as ((H0' & H1') & L0' & L1'). cbn [fst snd] in H0, H1, H0', H1'.
  set (k := 8 * W). assert (Hk : 0 < k) by (unfold k; lia). pose proof Hgl as (HM & HA). pose proof Hjl as (_ & LU & LD & LL & _). pose proof Hs as (_ & _ & _ & _ & _ & _ & sh & Es & HT).
  pose proof (@C71_add (glAdd gl) ws HA) as [OP _]. pose proof (C72_add ws) as WO. rewrite Ews in *. fold k in HM, LU, LD, LL, OP, WO. set (op := add_circuit (glAdd gl) ws) in *.
  destruct (@C71_up k (add_fields ws) op (glMux gl) Suffix OP HM) as (cu & Eu & _). destruct (@C71_down k (add_fields ws) op Suffix ([], false) ([], false) OP) as (cd & Ed & _). destruct (@C71_leaf k (add_fields ws) op (glMux gl) Suffix OP HM) as (cl & El & _).
  assert (Els : div_ceil k 8 = W) by (unfold k, div_ceil; lia).
  pose (mine := fun A (x0 x1 : A) => if b then x0 else x1). pose (other := fun A (x0 x1 : A) => if b then x1 else x0).
  pose (v := fun z : list (list N) => map (row_bits k) (map (fun r => slice r 0 W) z)).
  assert (LD' : forall z0 z1 p0 p1, rows_ok n C z0 -> rows_ok n C z1 -> length p0 = n -> length p1 = n ->
    loadable k Suffix b sh (v (mine _ z0 z1)) (v (other _ z0 z1)) (map N.odd (mine _ p0 p1)) (map N.odd (other _ p0 p1)) (map (row_bits k) (xor_rows (map (fun r => slice r 0 W) z0) (map (fun r => slice r 0 W) z1))) (map2 xbit p0 p1)).
  { intros a0 a1 e0 e1 A0 A1 M0 M1. pose proof (rows_slice A0 HC) as V0. pose proof (rows_slice A1 HC) as V1. pose proof (xor_rows_ok V0 V1) as [LX _].
    pose proof (@rows_shares k n W _ _ V0 V1) as S1. pose proof (@ctrl_shares e0 e1 ltac:(congruence)) as S2.
    unfold loadable. rewrite map_length, LX, map2_length, M0, M1, Nat.min_id. split; [lia|]. split; [reflexivity|]. split; [left; reflexivity|]. unfold mine, other, v. split; [destruct b; exact S1|]. split; [destruct b; exact S2|exact Es]. }
  assert (EQ : forall r z0 z1 p0 p1, rows_ok n C z0 -> rows_ok n C z1 -> sum_run gl ws W jl (jtD r) [] [] (p0, p1) (z0, z1) =
    do y <- agg_side k Suffix cu cd cl (jlUp jl) (jlDown jl) (jlLeaf jl) b (sdU me) (map2 with_cor (sdU ot) (fst (fst r))) (sdD me) (map2 with_cor (sdD ot) (snd (fst r))) (sdL me) (with_cor (sdL ot) (snd r))
      (v (mine _ z0 z1)) (v (other _ z0 z1)) (map N.odd (mine _ p0 p1)) (map N.odd (other _ p0 p1)); Ok ((gb_leaf W W [] (map (bits_row W) (fst (fst y))), gb_leaf W W [] (map (bits_row W) (snd (fst y)))), snd y)).
  { intros r' a0 a1 e0 e1 A0 A1. unfold sum_run. rewrite Ews. fold k. rewrite Els. cbn [fst snd]. rewrite (rows_read A0 HC), (rows_read A1 HC). cbn [bind]. fold op. rewrite Eu. cbn [bind]. rewrite Ed. cbn [bind]. rewrite El. cbn [bind fst snd].
    unfold agg_side, both, side_with, mine, other, v. cbn [jtpUp jtpDown jtpLeaf sdU sdD sdL fst snd]. destruct b; reflexivity. }
  pose proof (LD' z0 z1 p0 p1 H0 H1 L0 L1) as LA. pose proof (LD' z0' z1' p0' p1' H0' H1' L0' L1') as LB.
  assert (EM : mine _ z0' z1' = mine _ z0 z1 /\ mine _ p0' p1' = mine _ p0 p1) by (clear - Eo; unfold mine, own in *; destruct b; cbn [fst snd] in Eo; split; congruence).
  destruct EM as (EM1 & EM2). rewrite EM1, EM2 in LB.
  destruct (side_load cu cd cl (jlUp jl) (jlDown jl) (jlLeaf jl) WO LA) as (lm & lo & Em & HJ & SQ). destruct (side_load cu cd cl (jlUp jl) (jlDown jl) (jlLeaf jl) WO LB) as (lm' & lo' & Em' & HJ' & SQ').
  assert (lm' = lm) by congruence. subst lm'. clear Em'.
  pose proof (@runs_hiding k (add_fields ws) op (glMux gl) Suffix cu cd cl (jlUp jl) (jlDown jl) (jlLeaf jl) Hk OP HM WO Eu Ed El (LU _ Eu) (LD _ Ed) (LL _ El) sh n Hn Es b _ _ _ _ _ _ HT) as [R1 R2].
  unfold do2 in E. rewrite EQ, SQ in E by assumption. apply bind_inv in E. destruct E as (yy & E & EE). apply bind_inv in E. destruct E as ((y & t1) & E & E1). cbn [fst snd] in E1. injection E1 as <-. cbn [fst snd] in EE. injection EE as <- <-.
  destruct (R2 r _ _ y t1 Hr HJ HJ' ltac:(apply own_pair; reflexivity) E) as (r' & y' & Hr' & E' & EO & U).
  destruct (OK r' ((z0', p0'), (z1', p1')) Hr' HI') as (q' & t' & Q' & _).
  exists r', q'. split; [exact Hr'|]. pose proof Q' as Q2. unfold do2 in Q2. rewrite EQ, EM1, EM2, SQ', E' in Q2 by assumption. cbn [bind fst snd] in Q2. injection Q2 as <- <-. split; [exact Q'|]. split.
  { clear - Eo EO. unfold own in *. destruct b; cbn [fst snd] in *; congruence. }
  intros r2 q2 t2 Hr2 E2 V. unfold do2 in E2. rewrite EQ, EM1, EM2, SQ' in E2 by assumption. apply bind_inv in E2. destruct E2 as (yy & E2 & EE). apply bind_inv in E2. destruct E2 as ((y2 & t3) & E2 & E3). cbn [fst snd] in E3. injection E3 as <-. cbn [fst snd] in EE. injection EE as _ <-. exact (U r2 y2 t3 Hr2 E2 V).
Qed.

(* all circuits *)
Definition cir (r : cors) (z : st0 * st0) : outcome ((st3 * st3) * cir_msgs) :=
  do y <- (do y <- do1 (fst (fst r)) z; do x <- do2 (snd (fst r)) (fst y); Ok (fst x, (snd y, snd x)));
  do x <- do3 (snd r) (fst y); Ok (fst x, (snd y, snd x)).
Lemma cir_hides :  (forall r z, side_fits me r -> in0 z -> exists q t, cir r z = Ok (q, t) /\ in3 q) /\
  forall r z z' q t, side_fits me r -> in0 z -> in0 z' -> own b z = own b z' -> cir r z = Ok (q, t) ->
  exists r' q', side_fits me r' /\ cir r' z' = Ok (q', t) /\ own b q' = own b q /\
    forall r2 q2 t2, side_fits me r2 -> cir r2 z' = Ok (q2, t2) -> cir_got b t2 = cir_got b t -> r2 = r'.
Proof using All.
  pose proof (seq_hiding (seq_hiding do1_hiding do2_hiding) do3_hiding) as [H0 H]. cbv beta in H, H0. split.
  { intros r z (F1 & (F2 & F3 & F4) & F5) Hz. apply H0; [|exact Hz]. split; [split; [exact F1|split; [split; [exact F2|exact F3]|exact F4]]|exact F5]. }
  intros r z z' q t (F1 & (F2 & F3 & F4) & F5) Hz Hz' Eo E.
  destruct (H r z z' q t) as (r' & q' & ((G1 & ((G2 & G3) & G4)) & G5) & E' & EO & U); [split; [split; [exact F1|split; [split; [exact F2|exact F3]|exact F4]]|exact F5]|exact Hz|exact Hz'|exact Eo|exact E|].
  exists r', q'. split; [split; [exact G1|]; split; [split; [exact G2|]; split; [exact G3|exact G4]|exact G5]|]. split; [exact E'|]. split; [exact EO|].
  intros r2 q2 t2 (K1 & (K2 & K3 & K4) & K5) E2 V. apply (U r2 q2 t2); [split; [split; [exact K1|split; [split; [exact K2|exact K3]|exact K4]]|exact K5]|exact E2|exact V].
Qed.
End Stages.
