(* The circuits of a join, one after the other: what a party receives in them hides the other's rows. *)
From Verif Require Import Base Words PrfModel PermModel PermCorModel PermViewModel KeyMultModel ShuffleModel ShuffleSpec GmwModel GmwSpec GmwPrivSpec GmwProofs GmwIoModel GmwIoSpec AggModel AggSpec AggProofs AggCirModel AggCirSpec AggCirProofs AggCirBuild AggCirAdd AggCirRun
  AggTwoModel AggTwoSpec AggTwoRel AggTwoTree AggRunModel AggRunProofs AggTwoScan AggViewModel AggViewSpec AggViewHide AggViewLanes AggViewTree AggViewFull AggViewErase AggViewEnd TableModel TableSpec TrimProofs TableProofs OmJoinModel OmJoinSpec OmJoinProofs JoinViewModel JoinPrivSpec JoinPrivacy CtrlProofs
  BitInjProofs WhereProofs HexProofs BinFileProofs CompressProofs PackProofs JoinRunModel JoinRunSpec JoinRunCtl JoinRunStages JoinRunChain JoinMsgSpec JoinMsgRows PropsAggCir PropsAggTwo PropsAggView.

Lemma fits_len (l : list tape) r : fits l r -> length l = length r.
Proof. apply Forall2_length. Qed.
Lemma with_len (l : list tape) r : length l = length r -> length (map2 with_cor l r) = length l.
Proof. intros H. rewrite map2_length. lia. Qed.

Lemma tapes_side b n jl m o r : side_looks n jl m o -> side_fits m r -> tapes_fit n jl (both b m (side_with o r)).
Proof.
  intros (P1 & P2 & P3 & P4 & LC & LF & sh & Es & U1 & U2 & D1 & D2 & HU & HD & HL) (FC & (FU & FD & FL) & FF).
  destruct r as [[rc [[ru rd] rl]] rf]. cbn [fst snd] in *.
  assert (LU : length (map2 with_cor (sdU o) ru) = length (sSizes sh) - 1) by (rewrite map2_length, U2, <- (fits_len FU), U1; apply Nat.min_id).
  assert (LD : length (map2 with_cor (sdD o) rd) = length (sSizes sh) - 1) by (rewrite map2_length, D2, <- (fits_len FD), D1; apply Nat.min_id).
  assert (EL : forall (me ot : list tape) (rr : list (list (list triple))) (lvs : list level) (szf : nat -> nat), fits me rr -> (forall j x y, nth_error me j = Some x -> nth_error ot j = Some y -> looks (szf j) lvs x y) ->
    forall j x y, nth_error (if b then me else map2 with_cor ot rr) j = Some x -> nth_error (if b then map2 with_cor ot rr else me) j = Some y -> tapes_ok (szf j) lvs x y).
  { clear. intros me ot rr lvs szf HF HK j x y Hx Hy.
    assert (M : forall j z, nth_error (map2 with_cor ot rr) j = Some z -> exists t s, nth_error ot j = Some t /\ nth_error rr j = Some s /\ z = with_cor t s).
    { clear. revert rr. induction ot as [|t ot IH]; intros [|s rr] [|j] z H; cbn [map2 nth_error] in *; try discriminate; [exists t, s; split; [reflexivity|]; split; congruence|apply (IH _ _ _ H)]. }
    assert (F : forall j t s, nth_error me j = Some t -> nth_error rr j = Some s -> triples_for (tpCor t) s).
    { clear - HF. induction HF as [|t r l l' H _ IH]; intros [|j] u s A B; cbn [nth_error] in *; try discriminate; [congruence|apply (IH _ _ _ A B)]. }
    destruct b.
    - destruct (M j y Hy) as (t & s & A & B & ->). apply (looks_tapes true (HK j x t Hx A) (F j x s Hx B)).
    - destruct (M j x Hx) as (t & s & A & B & ->). apply (looks_tapes false (HK j y t Hy A) (F j y s Hy B)). }
  unfold tapes_fit, both, side_with. cbn [sdC sdU sdD sdL sdF jtpCtrl jtpUp jtpDown jtpLeaf jtpFlag fst snd].
  pose proof (looks_tapes b LC FC) as TC. pose proof (looks_tapes b LF FF) as TF. pose proof (looks_tapes b HL FL) as TL.
  pose proof (EL _ _ _ _ (fun lvl => nth lvl (sSizes sh) 0 / 2) FU HU) as TU. pose proof (EL _ _ _ _ (fun i => nth (length (sSizes sh) - 1 - i - 1) (sSizes sh) 0 / 2) FD HD) as TD.
  destruct b; cbn [fst snd] in *; (split; [assumption|]); (split; [assumption|]); (split; [assumption|]); (split; [assumption|]); (split; [assumption|]); (split; [assumption|]); exists sh; (split; [assumption|]); cbv zeta;
    (split; [assumption|]); (split; [assumption|]); (split; [assumption|]); (split; [assumption|]); (split; [assumption|]); (split; [assumption|]); assumption.
Qed.

Section Stages.
Variables (n w bits flag cap : nat) (lb : join_lib) (jl : join_levels) (b : bool) (me ot : side) (base : cors).
Hypothesis Hn : 2 <= n.
Hypothesis Hn32 : (N.of_nat n <= 2 ^ 32)%N.
Hypothesis Hb : 0 < bits.
Hypothesis Hw : flag + 1 + div_ceil bits 8 <= w.
Hypothesis Hcap : 4 + w + (flag + 1) <= cap.
Hypothesis Hcap' : (N.of_nat cap < 2 ^ 64)%N.
Hypothesis Hlb : lib_ok w lb.
Hypothesis Hjl : levels_fit lb w bits jl.
Hypothesis Hs : side_looks n jl me ot.
Hypothesis Hbase : side_fits me base.
Notation outv := (outv n bits flag).
Notation cbv := (cbv n bits flag).

Definition pr {A} (x y : A) : A * A := if b then (x, y) else (y, x).
Definition tC (r : list (list triple)) := pr (sdC me) (with_cor (sdC ot) r).
Definition tF (r : list (list triple)) := pr (sdF me) (with_cor (sdF ot) r).
Definition jtD (r : (list (list (list triple)) * list (list (list triple))) * list (list triple)) : join_tapes := both b me (side_with ot (fst (fst base), r, snd base)).

(* the control bits: the rows, the bytes that Gmw returns, the control bytes *)
Notation st0 := (list (list N)).
Notation st1 := (list (list N) * list N * list N)%type.
Notation st2 := (list N * list N * list (list N))%type.
Notation st3 := (list N * list (list N) * list (list N))%type.
Definition in0 (s : st0 * st0) : Prop := lens n w (fst s) /\ lens n w (snd s) /\ rows_ok n w (xor_rows (fst s) (snd s)).
Definition in1 (q : st1 * st1) : Prop := let '((z0, o0, p0), (z1, o1, p1)) := q in
  in0 (z0, z1) /\ length p0 = n /\ length p1 = n /\ map2 xbit p0 p1 = cbv (xor_rows z0 z1).
Definition in2 (q : st2 * st2) : Prop := let '((o0, p0, u0), (o1, p1, u1)) := q in length p0 = n /\ length p1 = n /\ rows_ok n w u0 /\ rows_ok n w u1.
Definition do1 (r : list (list triple)) (s : st0 * st0) : outcome ((st1 * st1) * messages) :=
  do c <- control_run bits (flag + 1) (jlCtrl jl) (tC r) s;
  do p0 <- set (fst (fst c)) 0 0%N; do p1 <- set (snd (fst c)) 0 0%N;
  Ok (((fst s, fst (fst c), p0), (snd s, snd (fst c), p1)), snd c).
Definition do2 (r : (list (list (list triple)) * list (list (list triple))) * list (list triple)) (q : st1 * st1) : outcome ((st2 * st2) * (list messages * list messages * messages)) :=
  let '((z0, o0, p0), (z1, o1, p1)) := q in
  do u <- dup_run (lbMux lb) w jl (jtD r) (p0, p1) (z0, z1);
  Ok (((o0, p0, fst (fst u)), (o1, p1, snd (fst u))), snd u).
Definition do3 (r : list (list triple)) (q : st2 * st2) : outcome ((st3 * st3) * messages) :=
  let '((o0, p0, u0), (o1, p1, u1)) := q in
  do f <- flags_run (lbAnd lb) flag (jlFlag jl) (tF r) (p0, p1) (u0, u1);
  Ok (((o0, u0, fst (fst f)), (o1, u1, snd (fst f))), snd f).

Lemma run_pr (c : circuit) lvs cols (m o : tape) r x0 x1 : gmw_rows n c lvs cols (fst (pr m (with_cor o r))) (snd (pr m (with_cor o r))) x0 x1 = rows_run b n c lvs cols m o r x0 x1.
Proof. unfold rows_run, pr. destruct b; reflexivity. Qed.
Lemma own_map {A B} (f : A -> B) x0 x1 y0 y1 : own b (x0, x1) = own b (y0, y1) -> own b (f x0, f x1) = own b (f y0, f y1).
Proof. destruct b; cbn [own fst snd]; intros ->; reflexivity. Qed.

Lemma do1_hiding : hiding b (got b) (triples_for (tpCor (sdC me))) in0 in1 do1.
Proof using All.
  assert (OK : forall r s, triples_for (tpCor (sdC me)) r -> in0 s -> exists q t, do1 r s = Ok (q, t) /\ in1 q).
  { intros r [z0 z1] Hr (H0 & H1 & HV). cbn [fst snd] in *. assert (HF : side_fits me (r, snd (fst base), snd base)) by (destruct Hbase as (_ & B2 & B3); split; [exact Hr|]; split; [exact B2|exact B3]).
    pose proof (@tapes_side b n jl me ot _ Hs HF) as HT.
    destruct (@control_ok n w bits flag cap lb jl _ Hn Hn32 Hb Hw Hcap Hcap' Hlb Hjl HT z0 z1 H0 H1) as (o0 & o1 & tr & E & Lo & Eo). change (jtpCtrl (both b me (side_with ot (r, snd (fst base), snd base)))) with (tC r) in E.
    assert (LX : length (xor_rows z0 z1) = n) by apply HV. assert (LV := outv_len Hn Hn32 Hb Hw Hcap Hcap' LX). assert (Lo1 : length o1 = n) by (rewrite Eo, map2_length, Lo, LV; apply Nat.min_id).
    assert (ST : forall o, length o = n -> set (map N.b2n o) 0 0%N = Ok (upd (map N.b2n o) 0 0%N)) by (intros o L; unfold set; rewrite map_length, L, (proj2 (Nat.ltb_lt _ _)) by lia; reflexivity).
    eexists. exists tr. split; [unfold do1; rewrite E; cbn [bind fst snd]; rewrite (ST o0 Lo), (ST o1 Lo1); cbn [bind]; reflexivity|].
    unfold in1. split; [split; [exact H0|]; split; [exact H1|exact HV]|]. rewrite !upd_length, !map_length. split; [exact Lo|]. split; [exact Lo1|]. rewrite Eo. apply (set_xbit Hn Hn32 Hb Hw Hcap Hcap'); assumption. }
  split; [exact OK|]. intros r [z0 z1] [z0' z1'] q t Hr (H0 & H1 & HV) (H0' & H1' & HV') Eo E. cbn [fst snd] in *.
  destruct (control_circuit_ok Hb) as (gs & m & Ec & _ & _). destruct (control_runnable Hb Ec) as (HR & HF & _). destruct Hjl as (HL & _). specialize (HL _ Ec).
  set (size := div_ceil bits 8). set (sk := fun z : list (list N) => repeat 0%N size :: map (fun r => slice r (flag + 1) size) z). set (inp := fun z : list (list N) => [firstn n (sk z); skipn 1 (sk z)]).
  match type of Ec with _ = Ok ?x => set (c := x) in * end.
  assert (TW : forall z, lens n w z -> two n (inp z)).
  { intros z [Lz _]. exists (firstn n (sk z)), (skipn 1 (sk z)). split; [reflexivity|]. unfold sk. rewrite firstn_length, skipn_length. cbn [length]. rewrite map_length, Lz. lia. }
  assert (EQ : forall r z0 z1, lens n w z0 -> lens n w z1 -> control_run bits (flag + 1) (jlCtrl jl) (tC r) (z0, z1) =
    do y <- rows_run b n c (jlCtrl jl) size (sdC me) (sdC ot) r (inp z0) (inp z1); Ok ((map (hd 0%N) (fst (fst y)), map (hd 0%N) (snd (fst y))), snd y)).
  { intros r' a0 a1 A0 A1. unfold control_run. rewrite Ec. cbn [bind fst snd]. fold size. rewrite (@skeys_lens n w), (@skeys_lens n w) by assumption. cbn [bind]. rewrite (proj1 A0). unfold tC. rewrite run_pr. reflexivity. }
  destruct Hs as (P1 & P2 & _ & _ & LC & _).
  unfold do1 in E. rewrite EQ in E by assumption. apply bind_inv in E. destruct E as (yy & E & EE). apply bind_inv in E. destruct E as ((y & t1) & E & E1). cbn [fst snd] in E1. injection E1 as <-. cbn [fst snd] in EE.
  apply bind_inv in EE. destruct EE as (p0 & G0 & EE). apply bind_inv in EE. destruct EE as (p1 & G1 & EE). injection EE as <- <-.
  destruct (@rows_hiding c bits (same_low bits) (jlCtrl jl) n HR HF HL ltac:(lia) Hb b (sdC me) (sdC ot) r (inp z0, inp z1) (inp z0', inp z1') y t1 LC P1 P2 Hr) as (r' & y' & Hr' & E' & EO & U); cbn [fst snd]; try (apply TW; assumption); try exact E.
  { apply (own_map inp), Eo. }
  cbn [fst snd] in E', U. fold size in E', U. destruct (OK r' (z0', z1') Hr') as (q' & t' & Q' & _); [split; [exact H0'|]; split; [exact H1'|exact HV']|].
  exists r', q'. split; [exact Hr'|]. pose proof Q' as Q2. unfold do1 in Q2. rewrite EQ, E' in Q2 by assumption. cbn [bind fst snd] in Q2.
  apply bind_inv in Q2. destruct Q2 as (p0' & G0' & Q2). apply bind_inv in Q2. destruct Q2 as (p1' & G1' & Q2). injection Q2 as <- <-. split; [exact Q'|]. split.
  { clear - Eo EO G0 G1 G0' G1'. unfold own in *. destruct b; cbn [fst snd] in *; rewrite EO in *; rewrite <- Eo; congruence. }
  intros r2 q2 t2 Hr2 E2 V. unfold do1 in E2. rewrite EQ in E2 by assumption. apply bind_inv in E2. destruct E2 as (yy & E2 & EE). apply bind_inv in E2. destruct E2 as ((y2 & t3) & E2 & E3). injection E3 as <-. cbn [fst snd] in EE.
  apply bind_inv in EE. destruct EE as (? & _ & EE). apply bind_inv in EE. destruct EE as (? & _ & EE). injection EE as _ <-. exact (U r2 y2 t3 Hr2 E2 V).
Qed.

Lemma do3_hiding : hiding b (got b) (triples_for (tpCor (sdF me))) in2 (fun _ => True) do3.
Proof using All.
  assert (OK : forall r s, triples_for (tpCor (sdF me)) r -> in2 s -> exists q t, do3 r s = Ok (q, t) /\ True).
  { intros r [[[o0 p0] u0] [[o1 p1] u1]] Hr (L0 & L1 & HU0 & HU1). assert (HF : side_fits me (fst base, r)) by (destruct Hbase as (B1 & B2 & _); split; [exact B1|]; split; [exact B2|exact Hr]).
    pose proof (@tapes_side b n jl me ot _ Hs HF) as HT.
    destruct (@flags_ok n w bits flag cap lb jl _ Hn Hn32 Hb Hw Hcap Hcap' Hlb Hjl HT u0 u1 p0 p1 HU0 HU1 L0 L1) as (mk & R & tr & _ & E & ER). change (jtpFlag (both b me (side_with ot (fst base, r)))) with (tF r) in E.
    rewrite ER in E. cbn [bind] in E. eexists. exists tr. split; [unfold do3; rewrite E; cbn [bind]; reflexivity|exact I]. }
  split; [exact OK|]. intros r [[[o0 p0] u0] [[o1 p1] u1]] [[[o0' p0'] u0'] [[o1' p1'] u1']] q t Hr (L0 & L1 & HU0 & HU1) (L0' & L1' & HU0' & HU1') Eo E.
  destruct Hlb as (_ & HR & HF). destruct Hjl as (_ & _ & _ & _ & HL). destruct Hs as (_ & _ & P1 & P2 & _ & LF & _).
  set (one := map (fun x : N => [x])). set (inp := fun (p : list N) (u : list (list N)) => [one p; one (map (fun r => nth flag r 0%N) u)]).
  assert (TW : forall p u, length p = n -> rows_ok n w u -> two n (inp p u)).
  { intros p u Lp [Lu _]. exists (one p), (one (map (fun r => nth flag r 0%N) u)). split; [reflexivity|]. unfold one. rewrite !map_length. split; assumption. }
  assert (HG : forall d0, rows_ok n w d0 -> mapM (fun r => get r flag) d0 = Ok (map (fun r => nth flag r 0%N) d0)).
  { intros d0 [_ HF']. apply mapM_ok. intros x Hx. rewrite Forall_forall in HF'. apply get_ok. rewrite (proj1 (HF' x Hx)). lia. }
  assert (EQ : forall r p0 p1 u0 u1, rows_ok n w u0 -> rows_ok n w u1 -> flags_run (lbAnd lb) flag (jlFlag jl) (tF r) (p0, p1) (u0, u1) =
    do y <- rows_run b n (lbAnd lb) (jlFlag jl) (div_ceil 1 8) (sdF me) (sdF ot) r (inp p0 u0) (inp p1 u1);
    do r0 <- put_bytes flag u0 (map (hd 0%N) (fst (fst y))); do r1 <- put_bytes flag u1 (map (hd 0%N) (snd (fst y))); Ok ((r0, r1), snd y)).
  { intros r' a0 a1 v0 v1 A0 A1. unfold flags_run. cbn [fst snd]. rewrite (HG _ A0), (HG _ A1). cbn [bind]. rewrite (proj1 A0). unfold tF. rewrite run_pr. reflexivity. }
  unfold do3 in E. rewrite EQ in E by assumption. apply bind_inv in E. destruct E as (yy & E & EE). apply bind_inv in E. destruct E as ((y & t1) & E & E1). cbn [fst snd] in E1.
  apply bind_inv in E1. destruct E1 as (f0 & G0 & E1). apply bind_inv in E1. destruct E1 as (f1 & G1 & E1). injection E1 as <-. cbn [fst snd] in EE. injection EE as <- <-.
  destruct (@rows_hiding (lbAnd lb) 1 and_fun (jlFlag jl) n HR HF HL ltac:(lia) ltac:(lia) b (sdF me) (sdF ot) r (inp p0 u0, inp p1 u1) (inp p0' u0', inp p1' u1') y t1 LF P1 P2 Hr) as (r' & y' & Hr' & E' & EO & U); cbn [fst snd]; try (apply TW; assumption); try exact E.
  { clear - Eo. destruct b; cbn [own fst snd] in *; congruence. }
  cbn [fst snd] in E', U. destruct (OK r' ((o0', p0', u0'), (o1', p1', u1')) Hr') as (q' & t' & Q' & _); [split; [exact L0'|]; split; [exact L1'|]; split; [exact HU0'|exact HU1']|].
  exists r', q'. split; [exact Hr'|]. pose proof Q' as Q2. unfold do3 in Q2. rewrite EQ, E' in Q2 by assumption. cbn [bind fst snd] in Q2.
  apply bind_inv in Q2. destruct Q2 as (yy & Q2 & Q3). apply bind_inv in Q2. destruct Q2 as (f0' & G0' & Q2). apply bind_inv in Q2. destruct Q2 as (f1' & G1' & Q2). injection Q2 as <-. cbn [fst snd] in Q3. injection Q3 as <- <-. split; [exact Q'|]. split.
  { clear - Eo EO G0 G1 G0' G1'. unfold own in *. destruct b; cbn [fst snd] in *; rewrite EO in *; congruence. }
  intros r2 q2 t2 Hr2 E2 V. unfold do3 in E2. rewrite EQ in E2 by assumption. apply bind_inv in E2. destruct E2 as (yy & E2 & EE). apply bind_inv in E2. destruct E2 as ((y2 & t3) & E2 & E3). cbn [fst snd] in E3.
  apply bind_inv in E3. destruct E3 as (? & _ & E3). apply bind_inv in E3. destruct E3 as (? & _ & E3). injection E3 as <-. cbn [fst snd] in EE. injection EE as _ <-. exact (U r2 y2 t3 Hr2 E2 V).
Qed.

Notation validD r := ((fits (sdU me) (fst (fst r)) /\ fits (sdD me) (snd (fst r))) /\ triples_for (tpCor (sdL me)) (snd r)).
Lemma do2_hiding : hiding b (tree_got b) (fun r => validD r) in1 in2 do2.
Proof using All.
  assert (OK : forall r s, validD r -> in1 s -> exists q t, do2 r s = Ok (q, t) /\ in2 q).
  { intros r [[[z0 o0] p0] [[z1 o1] p1]] ((R1 & R2) & R3) ((H0 & H1 & HV) & L0 & L1 & EX). cbn [fst snd] in *.
    assert (HF : side_fits me (fst (fst base), r, snd base)) by (destruct Hbase as (B1 & _ & B3); split; [exact B1|]; split; [split; [exact R1|]; split; [exact R2|exact R3]|exact B3]).
    pose proof (@tapes_side b n jl me ot _ Hs HF) as HT.
    destruct (@dup_ok' n w bits flag cap lb jl _ Hn Hn32 Hb Hw Hcap Hcap' Hlb Hjl HT z0 z1 p0 p1 H0 H1 HV L0 L1 EX) as (u0 & u1 & tr & E & HU0 & EU1). fold (jtD r) in E.
    eexists. exists tr. split; [unfold do2; rewrite E; cbn [bind fst snd]; reflexivity|]. unfold in2. split; [exact L0|]. split; [exact L1|]. split; [exact HU0|]. rewrite EU1. apply xor_rows_ok; [exact HU0|apply (duv_ok Hn Hn32 Hb Hw Hcap Hcap' HV)]. }
  split; [exact OK|]. intros r [[[z0 o0] p0] [[z1 o1] p1]] [[[z0' o0'] p0'] [[z1' o1'] p1']] q t Hr ((H0 & H1 & HV) & L0 & L1 & EX) ((H0' & H1' & HV') & L0' & L1' & EX') Eo E. cbn [fst snd] in H0, H1, HV, H0', H1', HV'.
  set (k := 8 * w). assert (Hk : 0 < k) by (unfold k; lia). destruct Hlb as (HM & _). destruct Hjl as (_ & LU & LD & LL & _). destruct Hs as (_ & _ & _ & _ & _ & _ & sh & Es & HT).
  destruct (@C71_up k (fun a b => a) dup_circuit (lbMux lb) Prefix (@dup_ok k) HM) as (cu & Eu & _). destruct (@C71_down k (fun a b => a) dup_circuit Prefix ([], false) ([], false) (@dup_ok k)) as (cd & Ed & _).
  destruct (@C71_leaf k (fun a b => a) dup_circuit (lbMux lb) Prefix (@dup_ok k) HM) as (cl & El & _).
  assert (LC0 : forall V, length V = n -> nth_error (cbv V) 0 = Some false).
  { intros V LV. unfold JoinPrivacy.cbv. assert (Lo := outv_len Hn Hn32 Hb Hw Hcap Hcap' LV). destruct (JoinPrivacy.outv n bits flag V) as [|x o]; [cbn [length] in Lo; lia|reflexivity]. }
  (* what both parties load *)
  pose (mine := fun A (x0 x1 : A) => if b then x0 else x1). pose (other := fun A (x0 x1 : A) => if b then x1 else x0).
  assert (LD' : forall z0 z1 p0 p1, lens n w z0 -> lens n w z1 -> rows_ok n w (xor_rows z0 z1) -> length p0 = n -> length p1 = n -> map2 xbit p0 p1 = cbv (xor_rows z0 z1) ->
    loadable k Prefix b sh (map (row_bits k) (mine _ z0 z1)) (map (row_bits k) (other _ z0 z1)) (map N.odd (mine _ p0 p1)) (map N.odd (other _ p0 p1)) (map (row_bits k) (xor_rows z0 z1)) (cbv (xor_rows z0 z1))).
  { intros a0 a1 e0 e1 A0 A1 AV M0 M1 AX. assert (LX : length (xor_rows a0 a1) = n) by apply AV. assert (LV := cbv_len Hn Hn32 Hb Hw Hcap Hcap' LX). pose proof (@tapes_side b n jl me ot _ (ltac:(assumption) : side_looks n jl me ot) Hbase) as HT0.
    pose proof (@lens_rows_bits n w bits flag cap lb jl _ Hn Hn32 Hb Hw Hcap Hcap' ltac:(assumption) ltac:(assumption) HT0 a0 a1 A0 A1) as S1. fold k in S1.
    pose proof (@bits_shares n w bits flag cap lb jl _ Hn Hn32 Hb Hw Hcap Hcap' ltac:(assumption) ltac:(assumption) HT0 e0 e1 ltac:(congruence)) as S2. rewrite AX in S2.
    unfold loadable. rewrite map_length, LX, LV. split; [lia|]. split; [reflexivity|]. split; [right; apply LC0, LX|]. unfold mine, other. split; [destruct b; exact S1|]. split; [destruct b; exact S2|exact Es]. }
  assert (EQ : forall r z0 z1 p0 p1, dup_run (lbMux lb) w jl (jtD r) (p0, p1) (z0, z1) =
    do y <- agg_side k Prefix cu cd cl (jlUp jl) (jlDown jl) (jlLeaf jl) b (sdU me) (map2 with_cor (sdU ot) (fst (fst r))) (sdD me) (map2 with_cor (sdD ot) (snd (fst r))) (sdL me) (with_cor (sdL ot) (snd r))
      (map (row_bits k) (mine _ z0 z1)) (map (row_bits k) (other _ z0 z1)) (map N.odd (mine _ p0 p1)) (map N.odd (other _ p0 p1)); Ok ((map (bits_row w) (fst (fst y)), map (bits_row w) (snd (fst y))), snd y)).
  { intros r' a0 a1 e0 e1. unfold dup_run. fold k. rewrite Eu. cbn [bind]. rewrite Ed. cbn [bind]. rewrite El. cbn [bind fst snd]. unfold agg_side, jtD, both, side_with, mine, other. cbn [jtpUp jtpDown jtpLeaf sdU sdD sdL fst snd].
    destruct b; reflexivity. }
  pose proof (LD' z0 z1 p0 p1 H0 H1 HV L0 L1 EX) as LA. pose proof (LD' z0' z1' p0' p1' H0' H1' HV' L0' L1' EX') as LB.
  assert (EM : mine _ z0' z1' = mine _ z0 z1 /\ mine _ p0' p1' = mine _ p0 p1 /\ mine _ o0' o1' = mine _ o0 o1) by (clear - Eo; unfold mine, own in *; destruct b; cbn [fst snd] in Eo; (split; [congruence|]); split; congruence).
  destruct EM as (EM1 & EM2 & EM3). rewrite EM1, EM2 in LB.
  assert (W : word_op k (fun a _ : list bool => a)) by apply dup_word.
  destruct (side_load cu cd cl (jlUp jl) (jlDown jl) (jlLeaf jl) W LA) as (lm & lo & Em & HJ & SQ). destruct (side_load cu cd cl (jlUp jl) (jlDown jl) (jlLeaf jl) W LB) as (lm' & lo' & Em' & HJ' & SQ').
  assert (lm' = lm) by congruence. subst lm'. clear Em'.
  pose proof (@runs_hiding k (fun a _ => a) dup_circuit (lbMux lb) Prefix cu cd cl (jlUp jl) (jlDown jl) (jlLeaf jl) Hk (@dup_ok k) HM W Eu Ed El (LU _ Eu) (LD _ Ed) (LL _ El) sh n Hn Es b _ _ _ _ _ _ HT) as [R1 R2].
  unfold do2 in E. rewrite EQ, SQ in E. apply bind_inv in E. destruct E as (yy & E & EE). apply bind_inv in E. destruct E as ((y & t1) & E & E1). cbn [fst snd] in E1. injection E1 as <-. cbn [fst snd] in EE. injection EE as <- <-.
  destruct (R2 r _ _ y t1 Hr HJ HJ' ltac:(apply own_pair; reflexivity) E) as (r' & y' & Hr' & E' & EO & U).
  destruct (OK r' ((z0', o0', p0'), (z1', o1', p1')) Hr') as (q' & t' & Q' & _); [split; [split; [exact H0'|split; [exact H1'|exact HV']]|]; split; [exact L0'|]; split; [exact L1'|exact EX']|].
  exists r', q'. split; [exact Hr'|]. pose proof Q' as Q2. unfold do2 in Q2. rewrite EQ, EM1, EM2, SQ', E' in Q2. cbn [bind fst snd] in Q2. injection Q2 as <- <-. split; [exact Q'|]. split.
  { clear - EM2 EM3 EO. unfold own, mine in *. destruct b; cbn [fst snd] in *; congruence. }
  intros r2 q2 t2 Hr2 E2 V. unfold do2 in E2. rewrite EQ, EM1, EM2, SQ' in E2. apply bind_inv in E2. destruct E2 as (yy & E2 & EE). apply bind_inv in E2. destruct E2 as ((y2 & t3) & E2 & E3). cbn [fst snd] in E3. injection E3 as <-. cbn [fst snd] in EE. injection EE as _ <-. exact (U r2 y2 t3 Hr2 E2 V).
Qed.

(* all circuits *)
Definition cir (r : cors) (z : st0 * st0) : outcome ((st3 * st3) * cir_msgs) :=
  do y <- (do y <- do1 (fst (fst r)) z; do x <- do2 (snd (fst r)) (fst y); Ok (fst x, (snd y, snd x)));
  do x <- do3 (snd r) (fst y); Ok (fst x, (snd y, snd x)).
Lemma cir_hides r z z' q t : side_fits me r -> in0 z -> in0 z' -> own b z = own b z' -> cir r z = Ok (q, t) ->
  exists r' q', side_fits me r' /\ cir r' z' = Ok (q', t) /\ own b q' = own b q /\
    forall r2 q2 t2, side_fits me r2 -> cir r2 z' = Ok (q2, t2) -> cir_got b t2 = cir_got b t -> r2 = r'.
Proof using All.
  intros (F1 & (F2 & F3 & F4) & F5) Hz Hz' Eo E. pose proof (seq_hiding (seq_hiding do1_hiding do2_hiding) do3_hiding) as [_ H]. cbv beta in H.
  destruct (H r z z' q t) as (r' & q' & ((G1 & ((G2 & G3) & G4)) & G5) & E' & EO & U); [split; [split; [exact F1|split; [split; [exact F2|exact F3]|exact F4]]|exact F5]|exact Hz|exact Hz'|exact Eo|exact E|].
  exists r', q'. split; [split; [exact G1|]; split; [split; [exact G2|]; split; [exact G3|exact G4]|exact G5]|]. split; [exact E'|]. split; [exact EO|].
  intros r2 q2 t2 (K1 & (K2 & K3 & K4) & K5) E2 V. apply (U r2 q2 t2); [split; [split; [exact K1|split; [split; [exact K2|exact K3]|exact K4]]|exact K5]|exact E2|exact V].
Qed.
End Stages.
