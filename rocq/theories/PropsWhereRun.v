(* C78: Where with the run of its circuit on the parties' shares. *)
From Verif Require Import Base Words PermModel PermSpec PermCorModel KeyMultModel ShuffleModel ShuffleSpec GmwModel GmwSpec GmwPrivSpec GmwProofs GmwIoModel AggModel AggCirRun AggRunModel AggRunProofs AggViewModel AggViewSpec AggViewLanes TableModel TableSpec TableProofs OmJoinModel OmJoinSpec ExtractModel ExtractSpec
  JoinRunModel JoinRunSpec JoinMsgSpec WhereModel WhereSpec WhereProofs WhereRunModel WhereRunSpec WhereRunProofs PropsExtract PropsAggView TableOpenModel TableOpenSpec TableOpenProofs PropsWhere PropsJoinMsg PropsJoinOpen.

(* the circuit that Where sets up for a clause has a levelling: every gate alone *)
Theorem C78_levels n cols sel cl rem w : WhereSpec.runnable cl -> where_init n cols sel cl rem = Ok w -> levels_of (wCir w) (map (fun g => ([g], count_nonlinear [g])) (cGates (wCir w))).
Proof. intros HR HW. destruct (where_init_ok HW) as (_ & HM & _). exact (clause_levels HR HM). Qed.
Print Assumptions C78_levels.

(* With the table it was set up for, columns in order: the run of the circuit returns, whatever the correlations, the
   uninitialised memory and the bits past the last row, and it returns what the model of C35 does for some mask. *)
Theorem C78_run n cols sel cl rem w lvs tp0 tp1 t0 t1 : WhereSpec.runnable cl -> where_init n cols sel cl rem = Ok w ->
  map (fun i => nth i cols (Info [] 0 0)) sel = cols -> cols <> [] -> 0 < n -> levels_of (wCir w) lvs ->
  tapes_ok n lvs tp0 tp1 -> pad_zero tp0 -> pad_zero tp1 -> shared_table n t0 t1 -> infos t0 = cols ->
  exists mask o tr, length mask = n /\ where_msg w lvs tp0 tp1 t0 t1 = Ok (o, tr) /\ where_run w mask t0 t1 = Ok o.
Proof.
  intros HR HW HS Hne Hn HL HT P0 P1 SH EI. destruct (@where_msg_ok n cols sel cl rem w lvs HR HW HS Hne Hn HL tp0 tp1 t0 t1 HT P0 P1 SH EI) as (m & o0 & o1 & tr & A & B & C).
  exists m, (o0, o1), tr. auto.
Qed.
Print Assumptions C78_run.

(* The outputs are shares of the table with its columns unchanged, and a row is active if it was and meets the clause. *)
Theorem C78_where n cols sel cl rem w lvs tp0 tp1 t0 t1 : WhereSpec.runnable cl -> clFlag cl = FWire -> where_init n cols sel cl rem = Ok w ->
  map (fun i => nth i cols (Info [] 0 0)) sel = cols -> cols <> [] -> 0 < n -> levels_of (wCir w) lvs ->
  tapes_ok n lvs tp0 tp1 -> pad_zero tp0 -> pad_zero tp1 -> shared_table n t0 t1 -> infos t0 = cols ->
  exists o0 o1 tr, where_msg w lvs tp0 tp1 t0 t1 = Ok ((o0, o1), tr) /\ tCols o0 = tCols t0 /\ tCols o1 = tCols t1 /\ shared_table n o0 o1 /\
    map2 N.lxor (tAct o0) (tAct o1) = map (fun r => N.b2n (is_active t0 t1 r && clause_on cl (selected sel t0 t1 r))) (seq 0 n).
Proof.
  intros HR HF HW HS Hne Hn HL HT P0 P1 SH EI. destruct (C78_run HR HW HS Hne Hn HL HT P0 P1 SH EI) as (m & (o0 & o1) & tr & Lm & A & B). exists o0, o1, tr. split; [exact A|].
  exact (C35_where_partial (proj1 HR) HF HW SH Lm B).
Qed.
Print Assumptions C78_where.

(* Party 0 (b) or party 1 looks: its output and the messages it receives are the same over the correlations of the other
   party for all tables of which it has the same share. *)
Theorem C78_hides b n cols sel cl rem w lvs me ot x x' : WhereSpec.runnable cl -> where_init n cols sel cl rem = Ok w ->
  map (fun i => nth i cols (Info [] 0 0)) sel = cols -> cols <> [] -> 0 < n -> levels_of (wCir w) lvs ->
  looks n lvs me ot -> pad_zero me -> pad_zero ot -> where_in n cols x -> where_in n cols x' -> own b x = own b x' ->
  paired (triples_for (tpCor me)) (where_see w lvs b me ot) x x'.
Proof. intros HR HW HS Hne Hn HL HLk Pm Po HX HX' Eo. exact (where_paired HR HW HS Hne Hn HL HX HX' Eo HLk Pm Po). Qed.
Print Assumptions C78_hides.

(* The output opened to either party is the table with the flags of the rows that meet the clause; the other rows are
   opened too, with flag 0. *)
Theorem C78_opens (b : bool) n cols sel cl rem w lvs empty tp0 tp1 x q : WhereSpec.runnable cl -> clFlag cl = FWire -> where_init n cols sel cl rem = Ok w ->
  map (fun i => nth i cols (Info [] 0 0)) sel = cols -> cols <> [] -> 0 < n -> levels_of (wCir w) lvs ->
  tapes_ok n lvs tp0 tp1 -> pad_zero tp0 -> pad_zero tp1 -> where_in n cols x -> NoDup (map iName cols) ->
  exists y, where_msg w lvs tp0 tp1 (fst x) (snd x) = Ok y /\
    open_remote empty (own (negb b) (fst y)) = Ok (open_sim (own b (fst y)) (filtered n cl sel x)) /\
    open_local empty (own b (fst y)) (open_sim (own b (fst y)) (filtered n cl sel x) ++ q) = Ok (filtered n cl sel x, q).
Proof.
  intros HR HF HW HS Hne Hn HL HT P0 P1 (SH & EI) ND. destruct (C78_where HR HF HW HS Hne Hn HL HT P0 P1 SH EI) as (o0 & o1 & tr & E & E0 & E1 & (C0 & C1 & CI & A0 & A1) & EF). exists ((o0, o1), tr). split; [exact E|]. cbn [fst snd].
  assert (S : shares_of n o0 o1 (tAct (filtered n cl sel x)) (tCols (filtered n cl sel x))).
  { split; [exact C0|]. split; [exact C1|]. split; [exact CI|]. split; [exact A0|]. split; [exact A1|]. split; [exact EF|]. rewrite E0, E1. reflexivity. }
  assert (EN : forall l l', Forall2 same_info l l' -> map info_of (map2 xor_col l l') = map info_of l).
  { clear. induction 1 as [|a a' l l' H HF IH]; [reflexivity|]. cbn [map2 map]. rewrite IH. reflexivity. }
  assert (EM : map info_of (tCols (filtered n cl sel x)) = cols). { cbn [filtered tCols]. destruct SH as (_ & _ & SI & _). rewrite (EN _ _ SI). exact EI. }
  assert (N1 : NoDup (map cName (tCols (filtered n cl sel x)))) by (rewrite <- EM, map_map in ND; exact ND).
  assert (N2 : Forall (fun c => 0 < cBits c) (tCols (filtered n cl sel x))).
  { apply Forall_forall. intros c Hc. apply (in_map info_of) in Hc. rewrite EM in Hc. pose proof HR as (_ & HW' & _). destruct (where_init_ok HW) as (HB & _). rewrite <- HS in Hc. apply in_map_iff in Hc. destruct Hc as (i & Ec & Hi).
    change (cBits c) with (iBits (info_of c)). rewrite <- Ec. clear - HB HW' Hi. unfold WhereSpec.fits in HB. induction HB as [|j l s ins (H1 & H2) HB IH]; [destruct Hi|]. apply Forall_cons_iff in HW'. destruct HW' as [K1 K2]. destruct Hi as [<-|Hi]; [|exact (IH Hi K2)]. rewrite H2. destruct l; [congruence|cbn [length]; lia]. }
  assert (NC : forall t, map info_of (tCols t) = cols -> tCols t <> []) by (intros t Et H; apply Hne; rewrite <- Et, H; reflexivity).
  assert (I0 : map info_of (tCols o0) = cols) by (rewrite E0; exact EI). assert (I1 : map info_of (tCols o1) = cols) by (rewrite <- I0; symmetry; apply same_infos, CI).
  destruct (shares_open Hn (NC _ I0) S N1 N2) as [Oa Ob]. destruct (shares_open Hn (NC _ I1) (shares_sym S) N1 N2) as [Oa' Ob'].
  change (Tab _ _) with (filtered n cl sel x) in Ob, Ob'.
  destruct b; cbn [own negb fst snd].
  - pose proof (sim_ok empty Hn Oa) as Q. destruct (open_ok empty Hn q Oa) as (ms & A & B). rewrite Ob in Q, B. rewrite A in Q. assert (ms = open_sim o0 (filtered n cl sel x)) as -> by congruence. auto.
  - pose proof (sim_ok empty Hn Oa') as Q. destruct (open_ok empty Hn q Oa') as (ms & A & B). rewrite Ob' in Q, B. rewrite A in Q. assert (ms = open_sim o1 (filtered n cl sel x)) as -> by congruence. auto.
Qed.
Print Assumptions C78_opens.

(* With the opening, the party that gets the table sees the same for all shares of the other that lead to the same table. *)
Theorem C78_open_hides b n cols sel cl rem w lvs empty me ot x x' : WhereSpec.runnable cl -> clFlag cl = FWire -> where_init n cols sel cl rem = Ok w ->
  map (fun i => nth i cols (Info [] 0 0)) sel = cols -> cols <> [] -> 0 < n -> levels_of (wCir w) lvs ->
  looks n lvs me ot -> pad_zero me -> pad_zero ot -> where_in n cols x -> where_in n cols x' -> own b x = own b x' -> NoDup (map iName cols) -> filtered n cl sel x = filtered n cl sel x' ->
  paired (triples_for (tpCor me)) (where_see_open w lvs empty b me ot) x x'.
Proof.
  intros HR HF HW HS Hne Hn HL HLk Pm Po HX HX' Eo ND EQ.
  refine (@paired_more _ _ _ _ _ _ _ (fun v => (fst v, snd v, open_sim (fst v) (filtered n cl sel x), filtered n cl sel x)) x x' _ _ (C78_hides HR HW HS Hne Hn HL HLk Pm Po HX HX' Eo)).
  all: intros r v Hr Ev; pose proof (looks_tapes b HLk Hr) as TT; unfold where_see in Ev; unfold where_see_open.
  all: assert (Q0 : pad_zero (if b then me else with_cor ot r)) by (destruct b; [exact Pm|exact Po]); assert (Q1 : pad_zero (if b then with_cor ot r else me)) by (destruct b; [exact Po|exact Pm]).
  - destruct (@C78_opens b n cols sel cl rem w lvs empty _ _ x [] HR HF HW HS Hne Hn HL TT Q0 Q1 HX ND) as (y & E & A & B). rewrite E in Ev |- *. cbn [bind] in Ev |- *. rewrite A. cbn [bind]. rewrite app_nil_r in B. rewrite B. cbn [bind fst].
    assert (v = (own b (fst y), got b (snd y))) as -> by congruence. reflexivity.
  - destruct (@C78_opens b n cols sel cl rem w lvs empty _ _ x' [] HR HF HW HS Hne Hn HL TT Q0 Q1 HX' ND) as (y & E & A & B). rewrite E in Ev |- *. cbn [bind] in Ev |- *. rewrite A. cbn [bind]. rewrite app_nil_r in B. rewrite B. cbn [bind fst].
    assert (v = (own b (fst y), got b (snd y))) as -> by congruence. rewrite EQ. reflexivity.
Qed.
Print Assumptions C78_open_hides.

(* The table and the clause of C35_ex, and another share of party 1; memory that is not zero *)
Definition wr_w : where_st := match where_init 3 (infos ex_t0) [0; 1] ex_cl false with Ok w => w | _ => WhereSt 0 [] [] (Circuit 0 [] [] []) 0 end.
Definition wr_lvs : list level := map (fun g => ([g], count_nonlinear [g])) (cGates (wCir wr_w)).
Definition wr_0 : tape := jm_tape 2 true (5, 1)%N (3, 2)%N.
Definition wr_1 : tape := jm_tape 2 false (6, 5)%N (1, 3)%N.
Definition wr_u1 : table := Tab [1; 0; 1]%N [xcol [97]%N 9 [[17; 0]; [200; 1]; [9; 1]]%N; xcol [98]%N 8 [[33]; [255]; [4]]%N].
(* the share of party 1 with row 1, which does not meet the clause, already inactive *)
Definition wr_v1 : table := Tab [0; 1; 0]%N (tCols ex_u1).
Example C78_ex : WhereSpec.runnable ex_cl /\ clFlag ex_cl = FWire /\ where_init 3 (infos ex_t0) [0; 1] ex_cl false = Ok wr_w /\ map (fun i => nth i (infos ex_t0) (Info [] 0 0)) [0; 1] = infos ex_t0 /\
  levels_of (wCir wr_w) wr_lvs /\ tapes_ok 3 wr_lvs wr_0 wr_1 /\ pad_zero wr_0 /\ pad_zero wr_1 /\ looks 3 wr_lvs wr_0 wr_1 /\ looks 3 wr_lvs wr_1 wr_0 /\
  where_in 3 (infos ex_t0) (ex_t0, ex_u1) /\ where_in 3 (infos ex_t0) (ex_t0, wr_u1) /\
  where_in 3 (infos ex_t0) (ex_t0, wr_v1) /\ NoDup (map iName (infos ex_t0)) /\ filtered 3 ex_cl [0; 1] (ex_t0, ex_u1) = filtered 3 ex_cl [0; 1] (ex_t0, wr_v1) /\ triples_for (tpCor wr_0) (tpCor wr_1) /\
  (do y <- where_msg wr_w wr_lvs wr_0 wr_1 ex_t0 ex_u1; Ok (map2 N.lxor (tAct (fst (fst y))) (tAct (snd (fst y))))) = Ok [1; 0; 0]%N /\
  (do v <- where_see_open wr_w wr_lvs (Ok tt) true wr_0 wr_1 (ex_t0, ex_u1) (tpCor wr_1); Ok (snd v)) = Ok (Tab [1; 0; 0]%N [xcol [97]%N 9 [[17; 1]; [2; 1]; [67; 0]]%N; xcol [98]%N 8 [[6]; [6]; [133]]%N]).
Proof.
  assert (HW : where_init 3 (infos ex_t0) [0; 1] ex_cl false = Ok wr_w) by (vm_compute; reflexivity).
  assert (T : triples_for (tpCor wr_0) (tpCor wr_1)).
  { split; (constructor; [|constructor]); cbn [tpCor wr_0 wr_1 jm_tape seq flat_map app]; repeat constructor. }
  assert (L0 : looks 3 wr_lvs wr_0 wr_1) by (apply jm_looks; try reflexivity; vm_compute; reflexivity).
  split; [apply ex_runnable|]. split; [reflexivity|]. split; [exact HW|]. split; [reflexivity|]. split; [exact (C78_levels ex_runnable HW)|].
  split; [exact (looks_tapes true L0 T)|]. split; [intros i r j; reflexivity|]. split; [intros i r j; reflexivity|].
  split; [exact L0|]. split; [apply jm_looks; try reflexivity; vm_compute; reflexivity|].
  split; [split; [exact (proj1 (proj2 (proj2 C35_ex)))|reflexivity]|]. split; [split; [unfold shared_table; col_ok|reflexivity]|]. split; [split; [unfold shared_table; col_ok|reflexivity]|].
  split; [cbn; repeat constructor; cbn; intuition discriminate|]. split; [vm_compute; reflexivity|]. split; [exact T|]. split; vm_compute; reflexivity.
Qed.
