(* C77: a join whose output is opened shows the party that gets it no more than the join. *)
From Verif Require Import Base Words PermModel PermSpec PermCorModel PermCorSpec PermViewModel ShuffleModel ShuffleSpec ExtractSpec KeyMultModel RadixModel RadixSpec SortViewModel SortPrivSpec GenPermViewModel GenPermPrivSpec GenPermPrivacy GmwModel GmwSpec GmwPrivSpec GmwIoModel.
From Verif Require Import AggModel AggSpec AggCirModel AggCirSpec AggRunModel AggViewModel AggViewSpec TableModel TableIOModel TableSpec TableProofs TrimProofs OmJoinModel OmJoinSpec JoinViewModel JoinPrivSpec JoinRunModel JoinRunSpec JoinMsgSpec JoinMsgStages TableOpenModel TableOpenSpec TableOpenProofs JoinOpenSpec PropsSortPriv PropsJoinPriv PropsJoinRun PropsJoinMsg.

Lemma paired_more {X R V W} (ok : R -> Prop) (view : X -> R -> outcome V) (view' : X -> R -> outcome W) (g : V -> W) x x' :
  (forall r v, ok r -> view x r = Ok v -> view' x r = Ok (g v)) -> (forall r v, ok r -> view x' r = Ok v -> view' x' r = Ok (g v)) -> paired ok view x x' -> paired ok view' x x'.
Proof.
  intros G G' (rel & H1 & H2 & H3 & H4 & H5). exists rel. split; [|split; [exact H2|]; split; [exact H3|]; split; [exact H4|exact H5]].
  intros r r' H. destruct (H1 _ _ H) as (A & B & v & E & E'). split; [exact A|]. split; [exact B|]. exists (g v). split; [apply (G _ _ A E)|apply (G' _ _ B E')].
Qed.
Lemma xor_rows_comm : forall a b, xor_rows a b = xor_rows b a.
Proof.
  induction a as [|x a IH]; intros [|y b]; try reflexivity. unfold xor_rows in *. cbn [map2]. rewrite IH. f_equal. clear. revert y. induction x as [|e x IH]; intros [|f y]; try reflexivity. cbn [map2]. rewrite IH, N.lxor_comm. reflexivity.
Qed.
Lemma shares_sym n t0 t1 fl cols : shares_of n t0 t1 fl cols -> shares_of n t1 t0 fl cols.
Proof.
  intros (C0 & C1 & HI & L0 & L1 & EF & EC). split; [exact C1|]. split; [exact C0|]. split; [|split; [exact L1|]; split; [exact L0|]; split].
  - clear - HI. induction HI as [|a b l l' (A & B & C) HF IH]; constructor; [|exact IH]. split; [|split]; symmetry; assumption.
  - rewrite <- EF. generalize (tAct t1) as u, (tAct t0) as v. clear. induction u as [|x u IH]; intros [|y v]; try reflexivity. cbn [map2]. rewrite IH, N.lxor_comm. reflexivity.
  - rewrite <- EC. clear - HI C0 C1. induction HI as [|a b l l' S HF IH]; [reflexivity|]. apply Forall_cons_iff in C0, C1. destruct C0 as [A1 A2], C1 as [B1 B2]. cbn [map2]. rewrite (IH A2 B2). f_equal.
    unfold xor_col, with_rows, shared_rows. rewrite xor_rows_comm. destruct S as (E1 & E2 & E3), A1 as ((_ & EA) & _ & BA & _), B1 as ((_ & EB) & _ & BB & _). rewrite EA, EB, <- BA, <- BB, E1, E2, E3. reflexivity.
Qed.
Lemma cols_facts nR L R s0 s1 : Forall2 same_sel s0 s1 -> map cName (map2 (om_col nR L R) s0 s1) = map (fun s => cName (oCol s)) s0 /\ map cBits (map2 (om_col nR L R) s0 s1) = map (fun s => cBits (oCol s)) s0 /\ length (map2 (om_col nR L R) s0 s1) = length s0.
Proof. induction 1 as [|a b l l' H HF (I1 & I2 & I3)]; [repeat split|]. cbn [map map2 length]. rewrite I1, I2, I3. repeat split. Qed.
Lemma fine_shares enc kb nL nR q0 q1 t0 t1 : 0 < nR -> queries_ok nL nR kb q0 q1 -> join_fine enc kb nL nR q0 q1 -> shares_of nR t0 t1 (tAct (join_table nR q0 q1)) (tCols (join_table nR q0 q1)) ->
  openable nR t0 t1 /\ opened nR t0 t1 = join_table nR q0 q1 /\ openable nR t1 t0 /\ opened nR t1 t0 = join_table nR q0 q1.
Proof.
  intros Hn (_ & _ & HS) (_ & _ & NE & ND & HB) SH. destruct (cols_facts nR (left_keys q0 q1) (right_keys q0 q1) HS) as (E1 & E2 & E3).
  assert (NB : Forall (fun c => 0 < cBits c) (tCols (join_table nR q0 q1))).
  { apply Forall_forall. intros c Hc. apply (in_map cBits) in Hc. cbn [join_table tCols] in Hc. rewrite E2 in Hc. apply in_map_iff in Hc. destruct Hc as (s & <- & Hs). rewrite Forall_forall in HB. apply (HB s Hs). }
  assert (NC : forall t t', shares_of nR t t' (tAct (join_table nR q0 q1)) (tCols (join_table nR q0 q1)) -> tCols t <> []).
  { intros t t' (_ & _ & _ & _ & _ & _ & EC) E. rewrite E in EC. cbn [map2 join_table tCols] in EC. rewrite <- EC in E3. destruct (qSel q0); [apply NE; reflexivity|discriminate E3]. }
  assert (ND' : NoDup (map cName (tCols (join_table nR q0 q1)))) by (cbn [join_table tCols]; rewrite E1; exact ND).
  destruct (shares_open Hn (NC _ _ SH) SH ND' NB) as [A B]. pose proof (shares_sym SH) as SH'. destruct (shares_open Hn (NC _ _ SH') SH' ND' NB) as [A' B']. split; [exact A|]. split; [exact B|]. split; [exact A'|exact B'].
Qed.

(* The two parties run the join and open its output to party 0 (party 1): it gets the join. *)
Theorem C77_opens L capS cap nL nR kb enc lb q0 q1 rd jl jt empty q : enc_ok enc kb nL nR -> join_sizes L capS cap nL nR kb q0 -> queries_ok nL nR kb q0 q1 ->
  run_fits L (key_bits kb nL nR) (nL + nR) capS cap rd -> lib_ok (om_width q0 + div_ceil kb 8) lb -> levels_fit lb (om_width q0 + div_ceil kb 8) (key_bits kb nL nR) jl -> tapes_fit (nL + nR) jl jt -> join_fine enc kb nL nR q0 q1 ->
  exists y ms0 ms1, om_join_run lb L enc q0 q1 rd jl jt = Ok y /\
    open_remote empty (snd (jtOut (fst y))) = Ok ms0 /\ open_local empty (fst (jtOut (fst y))) (ms0 ++ q) = Ok (join_table nR q0 q1, q) /\
    open_remote empty (fst (jtOut (fst y))) = Ok ms1 /\ open_local empty (snd (jtOut (fst y))) (ms1 ++ q) = Ok (join_table nR q0 q1, q).
Proof.
  intros HE HS HQ HF HL HV HT HJ. pose proof HJ as (HB & HA & _). destruct (C74_join HE HS HQ HF HL HV HT HB HA) as (tr & msgs & E & SH). destruct HS as (_ & HnR & _). destruct (fine_shares HnR HQ HJ SH) as (O0 & E0 & O1 & E1).
  destruct (open_ok empty HnR q O0) as (ms0 & A0 & B0). destruct (open_ok empty HnR q O1) as (ms1 & A1 & B1). exists (tr, msgs), ms0, ms1. cbn [fst snd]. rewrite E0 in B0. rewrite E1 in B1. split; [exact E|]. split; [exact A0|]. split; [exact B0|]. split; [exact A1|exact B1].
Qed.
Print Assumptions C77_opens.

(* Without validate, what party 0 sees of the join and of the opening is the same over party 1's randomness and
   correlations for all shares of party 1 that lead to the same join. *)
Theorem C77_party0 L capS cap nL nR kb enc lb q0 q1 q1' rd0 jl me ot empty : enc_ok enc kb nL nR -> join_sizes L capS cap nL nR kb q0 -> queries_ok nL nR kb q0 q1 -> queries_ok nL nR kb q0 q1' ->
  lib_ok (om_width q0 + div_ceil kb 8) lb -> levels_fit lb (om_width q0 + div_ceil kb 8) (key_bits kb nL nR) jl -> side_looks (nL + nR) jl me ot ->
  join_fine enc kb nL nR q0 q1 -> join_fine enc kb nL nR q0 q1' -> join_table nR q0 q1 = join_table nR q0 q1' ->
  paired (fun x => run_fits L (key_bits kb nL nR) (nL + nR) capS cap (fst x) /\ same_run0 rd0 (fst x) /\ side_fits me (snd x))
    (fun q x => do y <- om_join_run lb L enc q0 q (fst x) jl (both true me (side_with ot (snd x))); see_open0 empty y) q1 q1'.
Proof.
  intros HE HS HQ HQ' HL HV Hs HJ HJ' EQ. refine (@paired_more _ _ _ _ _ _ _ (fun v => (v, open_sim (snd v) (join_table nR q0 q1), join_table nR q0 q1)) q1 q1' _ _ (@C75_party0 L capS cap nL nR kb enc lb q0 q1 q1' rd0 jl me ot HE HS HQ HQ' HL HV Hs)).
  all: intros r v (HF & _ & Hr) Ev; cbv beta in *.
  - pose proof HJ as (HB & HA & _). destruct (C74_join HE HS HQ HF HL HV (tapes_side true Hs Hr) HB HA) as (tr & msgs & E & SH). rewrite E in Ev |- *. cbn [bind] in Ev |- *. apply Ok_inj' in Ev. subst v.
    destruct HS as (_ & HnR & _). destruct (fine_shares HnR HQ HJ SH) as (O0 & E0 & _). destruct (open_ok empty HnR [] O0) as (ms & A & B). rewrite app_nil_r, E0 in B. pose proof (sim_ok empty HnR O0) as SI. rewrite E0 in SI.
    unfold see_open0, run_see0. cbn [fst snd]. destruct (jtOut tr) as [t0 t1] eqn:ET. cbn [fst snd] in *. rewrite A in SI |- *. cbn [bind]. rewrite B. cbn [bind fst snd]. apply Ok_inj' in SI. rewrite <- SI. reflexivity.
  - pose proof HJ' as (HB & HA & _). destruct (C74_join HE HS HQ' HF HL HV (tapes_side true Hs Hr) HB HA) as (tr & msgs & E & SH). rewrite E in Ev |- *. cbn [bind] in Ev |- *. apply Ok_inj' in Ev. subst v.
    destruct HS as (_ & HnR & _). destruct (fine_shares HnR HQ' HJ' SH) as (O0 & E0 & _). destruct (open_ok empty HnR [] O0) as (ms & A & B). rewrite app_nil_r, E0 in B. pose proof (sim_ok empty HnR O0) as SI. rewrite E0 in SI. rewrite <- EQ in SI, B.
    unfold see_open0, run_see0. cbn [fst snd]. destruct (jtOut tr) as [t0 t1] eqn:ET. cbn [fst snd] in *. rewrite A in SI |- *. cbn [bind]. rewrite B. cbn [bind fst snd]. apply Ok_inj' in SI. rewrite <- SI. reflexivity.
Qed.
Print Assumptions C77_party0.

(* the same for party 1 *)
Theorem C77_party1 L capS cap nL nR kb enc lb q0 q0' q1 rd0 jl me ot empty : enc_ok enc kb nL nR -> join_sizes L capS cap nL nR kb q0 -> queries_ok nL nR kb q0 q1 -> queries_ok nL nR kb q0' q1 ->
  lib_ok (om_width q0 + div_ceil kb 8) lb -> levels_fit lb (om_width q0 + div_ceil kb 8) (key_bits kb nL nR) jl -> side_looks (nL + nR) jl me ot ->
  join_fine enc kb nL nR q0 q1 -> join_fine enc kb nL nR q0' q1 -> join_table nR q0 q1 = join_table nR q0' q1 ->
  paired (fun x => run_fits L (key_bits kb nL nR) (nL + nR) capS cap (fst x) /\ same_run1 rd0 (fst x) /\ side_fits me (snd x))
    (fun q x => do y <- om_join_run lb L enc q q1 (fst x) jl (both false me (side_with ot (snd x))); see_open1 empty y) q0 q0'.
Proof.
  intros HE HS HQ HQ' HL HV Hs HJ HJ' EQ. pose proof (JoinHides.same_sizes HQ HQ' HS) as HS'. destruct (JoinHides.same_width HQ HQ') as [_ Ew]. change (om_width q0' + div_ceil kb 8 = om_width q0 + div_ceil kb 8) in Ew.
  refine (@paired_more _ _ _ _ _ _ _ (fun v => (v, open_sim (snd v) (join_table nR q0 q1), join_table nR q0 q1)) q0 q0' _ _ (@C75_party1 L capS cap nL nR kb enc lb q0 q0' q1 rd0 jl me ot HE HS HQ HQ' HL HV Hs)).
  all: intros r v (HF & _ & Hr) Ev; cbv beta in *.
  - pose proof HJ as (HB & HA & _). destruct (C74_join HE HS HQ HF HL HV (tapes_side false Hs Hr) HB HA) as (tr & msgs & E & SH). rewrite E in Ev |- *. cbn [bind] in Ev |- *. apply Ok_inj' in Ev. subst v.
    destruct HS as (_ & HnR & _). destruct (fine_shares HnR HQ HJ SH) as (_ & _ & O0 & E0). destruct (open_ok empty HnR [] O0) as (ms & A & B). rewrite app_nil_r, E0 in B. pose proof (sim_ok empty HnR O0) as SI. rewrite E0 in SI.
    unfold see_open1, run_see1. cbn [fst snd]. destruct (jtOut tr) as [t0 t1] eqn:ET. cbn [fst snd] in *. rewrite A in SI |- *. cbn [bind]. rewrite B. cbn [bind fst snd]. apply Ok_inj' in SI. rewrite <- SI. reflexivity.
  - pose proof HJ' as (HB & HA & _). rewrite <- Ew in HL, HV. destruct (C74_join HE HS' HQ' HF HL HV (tapes_side false Hs Hr) HB HA) as (tr & msgs & E & SH). rewrite E in Ev |- *. cbn [bind] in Ev |- *. apply Ok_inj' in Ev. subst v.
    destruct HS as (_ & HnR & _). destruct (fine_shares HnR HQ' HJ' SH) as (_ & _ & O0 & E0). destruct (open_ok empty HnR [] O0) as (ms & A & B). rewrite app_nil_r, E0 in B. pose proof (sim_ok empty HnR O0) as SI. rewrite E0 in SI. rewrite <- EQ in SI, B.
    unfold see_open1, run_see1. cbn [fst snd]. destruct (jtOut tr) as [t0 t1] eqn:ET. cbn [fst snd] in *. rewrite A in SI |- *. cbn [bind]. rewrite B. cbn [bind fst snd]. apply Ok_inj' in SI. rewrite <- SI. reflexivity.
Qed.
Print Assumptions C77_party1.

(* The left row has key 7 and value 62, or key 4 and another value; no right row has either key.  The party that gets the
   output sees the same join of the two. *)
Definition jo_q1 := jr_q 9 2 7 7.   Definition jo_q1' := jr_q 200 1 7 7.   Definition jo_q0' := jr_q 14 6 1 2.
Lemma jo_queries a b : a = jr_q0 \/ a = jo_q0' -> b = jo_q1 \/ b = jo_q1' -> queries_ok 1 2 3 a b.
Proof.
  intros Ha Hb. assert (Q : forall x, x = jr_q0 \/ x = jo_q0' \/ x = jo_q1 \/ x = jo_q1' -> query_ok 1 2 3 x).
  { intros x [->|[->|[->| ->]]]; (split; [PropsOmJoin.col_ok|]; split; [PropsOmJoin.col_ok|]; split; [reflexivity|]; split; [reflexivity|]; constructor; [PropsOmJoin.col_ok|]; constructor; [PropsOmJoin.col_ok|constructor]). }
  split; [apply Q; tauto|]. split; [apply Q; tauto|]. destruct Ha as [->| ->], Hb as [->| ->]; repeat constructor.
Qed.
Lemma jo_fine a b k : left_keys a b ++ right_keys a b = [[k]; [6]; [5]]%N -> k = 7%N \/ k = 4%N -> map (fun s => (cName (oCol s), cBits (oCol s))) (qSel a) = [([3%N], 8); ([2%N], 3)] -> join_fine (fun x => x) 3 1 2 a b.
Proof.
  intros EK HK ES. split; [|split; [|split; [|split]]].
  - unfold all_keys. rewrite EK. destruct HK as [->| ->]; repeat constructor.
  - rewrite EK. destruct HK as [->| ->];
      intros x y [<-|[<-|[<-|[]]]] [<-|[<-|[<-|[]]]] H; try reflexivity; exfalso; unfold agree in H; pose proof (H 0) as H0; pose proof (H 1) as H1; vm_compute in H0, H1;
      (assert (true = false) by (first [apply H0; repeat constructor|symmetry; apply H0; repeat constructor|apply H1; repeat constructor|symmetry; apply H1; repeat constructor]); discriminate).
  - intros E. rewrite E in ES. discriminate ES.
  - replace (map (fun s => cName (oCol s)) (qSel a)) with [[3]; [2]]%N; [constructor; [intros [H|[]]; discriminate H|]; constructor; [intros []|constructor]|].
    apply (f_equal (map fst)) in ES. rewrite map_map in ES. symmetry. exact ES.
  - apply (f_equal (map snd)) in ES. rewrite map_map in ES. cbn [map snd] in ES. apply Forall_forall. intros s Hs. apply (in_map (fun s => cBits (oCol s))) in Hs. rewrite ES in Hs. destruct Hs as [<-|[<-|[]]]; lia.
Qed.
Example C77_ex : queries_ok 1 2 3 jr_q0 jo_q1 /\ queries_ok 1 2 3 jr_q0 jo_q1' /\ queries_ok 1 2 3 jo_q0' jo_q1 /\ join_sizes 2 16 16 1 2 3 jr_q0 /\
  join_fine (fun x => x) 3 1 2 jr_q0 jo_q1 /\ join_fine (fun x => x) 3 1 2 jr_q0 jo_q1' /\ join_fine (fun x => x) 3 1 2 jo_q0' jo_q1 /\
  join_table 2 jr_q0 jo_q1 = join_table 2 jr_q0 jo_q1' /\ join_table 2 jr_q0 jo_q1 = join_table 2 jo_q0' jo_q1 /\ left_keys jr_q0 jo_q1 = [[7]]%N /\ left_keys jr_q0 jo_q1' = [[4]]%N /\ left_keys jo_q0' jo_q1 = [[4]]%N /\
  (do y <- om_join_run jr_lib 2 (fun x => x) jr_q0 jo_q1 (jrSort jp_rd, jrPerm jp_rd) jr_jl (both true jm_0 (side_with jm_1 (jm_cors jm_1))); do v <- see_open0 Throw y; Ok (snd v)) =
    Ok (Tab [0; 0]%N [PropsOmJoin.ex_col 3 8 [[0]; [0]]%N; PropsOmJoin.ex_col 2 3 [[6]; [5]]%N]) /\
  (do y <- om_join_run jr_lib 2 (fun x => x) jr_q0 jr_q1 (jrSort jp_rd, jrPerm jp_rd) jr_jl (both true jm_0 (side_with jm_1 (jm_cors jm_1))); do v <- see_open1 Throw y; Ok (snd v)) =
    Ok (Tab [1; 0]%N [PropsOmJoin.ex_col 3 8 [[62]; [0]]%N; PropsOmJoin.ex_col 2 3 [[6]; [5]]%N]).
Proof.
  split; [apply jo_queries; tauto|]. split; [apply jo_queries; tauto|]. split; [apply jo_queries; tauto|]. split; [exact (proj1 (proj2 C75_ex))|].
  split; [apply (@jo_fine _ _ 7); [vm_compute; reflexivity|left; reflexivity|reflexivity]|]. split; [apply (@jo_fine _ _ 4); [vm_compute; reflexivity|right; reflexivity|reflexivity]|]. split; [apply (@jo_fine _ _ 4); [vm_compute; reflexivity|right; reflexivity|reflexivity]|].
  do 6 (split; [vm_compute; reflexivity|]). vm_compute. reflexivity.
Qed.
