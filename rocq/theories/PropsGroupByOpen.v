(* C81: a group by whose output is opened shows the party that gets it no more than the opened table. *)
From Verif Require Import Base Words PermModel KeyMultModel ShuffleModel ShuffleSpec RadixModel RadixSpec GmwModel GmwSpec GmwPrivSpec GmwIoModel GmwIoSpec AggModel AggSpec AggCirModel AggCirSpec AggTwoTree AggRunModel AggViewModel AggViewSpec TableModel TableSpec TableOpsSpec TableProofs OmJoinModel OmJoinSpec GenPermPrivacy
  GroupByModel GroupBySpec GroupByArith GroupByLoad JoinRunModel JoinRunSpec JoinMsgSpec JoinMsgStages GroupByRunModel GroupByRunSpec GroupByMsgModel GroupByMsgSpec GroupByMsgProofs TableOpenModel TableOpenSpec TableOpenProofs GroupByOpenSpec PropsOmJoin PropsGroupBy PropsJoinRun PropsGroupByRun PropsJoinMsg PropsJoinOpen PropsGroupByMsg.

Lemma byte_pos b : 0 < b -> 0 < div_ceil b 8 * 8.
Proof. intros H. unfold div_ceil. assert (1 <= (b + 8 - 1) / 8) by (apply Nat.div_le_lower_bound; lia). lia. Qed.
Lemma table_facts n q0 q1 : Forall2 (fun s0 s1 : bool * column => same_info (snd s0) (snd s1)) (gAvg q0) (gAvg q1) -> 0 < cBits (gKey q0) -> Forall (fun s => 0 < cBits (snd s)) (gAvg q0) ->
  map cName (tCols (gb_table n q0 q1)) = cName (gKey q0) :: map (fun s => cName (snd s)) (gAvg q0) ++ [[67; 111; 117; 110; 116]%N] /\ Forall (fun c => 0 < cBits c) (tCols (gb_table n q0 q1)).
Proof.
  intros HF HK HB. cbn [gb_table tCols]. unfold gb_cols. generalize (gb_rest n (gb_keys q0 q1) (gb_act q0 q1)) as m. intros m. cbn [map]. rewrite map_app. cbn [map byte_col cName].
  assert (X : map cName (map2 (gb_sum_col m (seq 0 n)) (gAvg q0) (gAvg q1)) = map (fun s => cName (snd s)) (gAvg q0) /\ Forall (fun c => 0 < cBits c) (map2 (gb_sum_col m (seq 0 n)) (gAvg q0) (gAvg q1))).
  { clear HK. induction HF as [|a b l l' H HF IH]; [split; [reflexivity|constructor]|]. apply Forall_cons_iff in HB. destruct HB as [B1 B2], (IH B2) as [I1 I2]. cbn [map map2]. rewrite I1. split; [reflexivity|]. constructor; [|exact I2]. apply byte_pos, B1. }
  destruct X as [X1 X2]. rewrite X1. split; [reflexivity|]. constructor; [apply byte_pos, HK|]. apply Forall_app. split; [exact X2|]. constructor; [cbn; lia|constructor].
Qed.
Lemma open_step enc n kb gl q0 q1 sm um jl jt b empty q : 2 <= n -> gb_queries_ok n kb q0 q1 -> gb_enc_ok n kb enc ->
  rows_ok n (gb_width q0 + div_ceil (cBits (gKey q0)) 8 + div_ceil (gb_key_size q0) 8 + 1) sm -> rows_ok n (gb_width q0 + div_ceil (cBits (gKey q0)) 8 + 1) um ->
  Forall (fun s => cBits (snd s) mod 8 = 0) (gAvg q0) -> gb_lib_ok (fold_right Nat.add 0 (gb_sizes q0)) gl -> gb_levels_fit gl (gb_sizes q0) (gb_key_size q0) jl -> tapes_fit n jl jt -> gb_fine enc n kb q0 q1 ->
  exists y ms, gb_run_tr gl enc q0 q1 sm um jl jt = Ok y /\ open_remote empty (own (negb b) (gtOut (fst y))) = Ok ms /\ ms = open_sim (own b (gtOut (fst y))) (gb_table n q0 q1) /\
    open_local empty (own b (gtOut (fst y))) (ms ++ q) = Ok (gb_table n q0 q1, q).
Proof.
  intros Hn HQ HE Hsm Hum HB HL HJ HT (HG & HTo & ND & HK & HP). destruct (C79_shares Hn HQ HE Hsm Hum HB HG HTo HL HJ HT) as (t0 & t1 & msgs & E & SH).
  rewrite C80_same in E. destruct (gb_run_tr gl enc q0 q1 sm um jl jt) as [y| | |]; cbn [bind] in E; try discriminate E. apply Ok_inj' in E. assert (EO : gtOut (fst y) = (t0, t1)) by congruence. clear E.
  change (shares_of n t0 t1 (tAct (gb_table n q0 q1)) (tCols (gb_table n q0 q1))) in SH. destruct HQ as (_ & _ & _ & HS). destruct (table_facts n HS HK HP) as [TN TB]. rewrite <- TN in ND.
  assert (NC : forall t t', shares_of n t t' (tAct (gb_table n q0 q1)) (tCols (gb_table n q0 q1)) -> tCols t <> []).
  { intros t t' (_ & _ & _ & _ & _ & _ & EC) Et. rewrite Et in EC. discriminate EC. }
  assert (Hn0 : 0 < n) by lia. exists y.
  assert (G : forall t t', shares_of n t t' (tAct (gb_table n q0 q1)) (tCols (gb_table n q0 q1)) -> exists ms, open_remote empty t' = Ok ms /\ ms = open_sim t (gb_table n q0 q1) /\ open_local empty t (ms ++ q) = Ok (gb_table n q0 q1, q)).
  { intros t t' S. destruct (shares_open Hn0 (NC _ _ S) S ND TB) as [O EO']. change (Tab _ _) with (gb_table n q0 q1) in EO'. destruct (open_ok empty Hn0 q O) as (ms & A & B). pose proof (sim_ok empty Hn0 O) as SI. rewrite EO' in SI, B. exists ms. split; [exact A|]. split; [rewrite A in SI; apply Ok_inj' in SI; exact SI|exact B]. }
  rewrite EO. destruct b; cbn [negb own fst snd]; [destruct (G _ _ SH) as (ms & M)|destruct (G _ _ (shares_sym SH)) as (ms & M)]; exists ms; (split; [reflexivity|exact M]).
Qed.

(* The two parties run the group by and open its output to party 0 or party 1: it gets the table of all rows, every row
   with the sums of the rows from it on with its key and flag. *)
Theorem C81_opens enc n kb gl q0 q1 sm um jl jt empty q : 2 <= n -> gb_queries_ok n kb q0 q1 -> gb_enc_ok n kb enc ->
  rows_ok n (gb_width q0 + div_ceil (cBits (gKey q0)) 8 + div_ceil (gb_key_size q0) 8 + 1) sm -> rows_ok n (gb_width q0 + div_ceil (cBits (gKey q0)) 8 + 1) um ->
  Forall (fun s => cBits (snd s) mod 8 = 0) (gAvg q0) -> gb_lib_ok (fold_right Nat.add 0 (gb_sizes q0)) gl -> gb_levels_fit gl (gb_sizes q0) (gb_key_size q0) jl -> tapes_fit n jl jt -> gb_fine enc n kb q0 q1 ->
  exists y ms0 ms1, gb_run_tr gl enc q0 q1 sm um jl jt = Ok y /\
    open_remote empty (snd (gtOut (fst y))) = Ok ms0 /\ open_local empty (fst (gtOut (fst y))) (ms0 ++ q) = Ok (gb_table n q0 q1, q) /\
    open_remote empty (fst (gtOut (fst y))) = Ok ms1 /\ open_local empty (snd (gtOut (fst y))) (ms1 ++ q) = Ok (gb_table n q0 q1, q).
Proof.
  intros Hn HQ HE Hsm Hum HB HL HJ HT HF. destruct (@open_step enc n kb gl q0 q1 sm um jl jt true empty q Hn HQ HE Hsm Hum HB HL HJ HT HF) as (y & ms0 & E & A0 & _ & B0).
  destruct (@open_step enc n kb gl q0 q1 sm um jl jt false empty q Hn HQ HE Hsm Hum HB HL HJ HT HF) as (y' & ms1 & E' & A1 & _ & B1). rewrite E in E'. apply Ok_inj' in E'. subst y'. exists y, ms0, ms1. auto.
Qed.
Print Assumptions C81_opens.

(* What party 0 sees of the group by and of the opening is the same for all columns of party 1 that lead to the same table. *)
Theorem C81_party0 enc n kb gl jl me ot q0 q1 q1' empty : 2 <= n -> gb_enc_ok n kb enc -> gb_queries_ok n kb q0 q1 -> gb_queries_ok n kb q0 q1' -> Forall (fun s => cBits (snd s) mod 8 = 0) (gAvg q0) ->
  gb_lib_ok (fold_right Nat.add 0 (gb_sizes q0)) gl -> gb_levels_fit gl (gb_sizes q0) (gb_key_size q0) jl -> side_looks n jl me ot ->
  gb_fine enc n kb q0 q1 -> gb_fine enc n kb q0 q1' -> gb_table n q0 q1 = gb_table n q0 q1' ->
  paired (gb_coins_ok n q0 me) (fun q x => do y <- gb_run_tr gl enc q0 q (fst (fst x)) (snd (fst x)) jl (both true me (side_with ot (snd x))); gb_see_open true empty y) q1 q1'.
Proof.
  intros Hn HE HQ HQ' HB HL HJ Hs HF HF' EQ.
  refine (@paired_more _ _ _ _ _ _ _ (fun v => (v, open_sim (snd v) (gb_table n q0 q1), gb_table n q0 q1)) q1 q1' _ _ (@C80_hides_party0 enc n kb gl jl me ot q0 q1 q1' Hn HE HQ HQ' HB (proj1 HF) (proj1 HF') HL HJ Hs)).
  all: intros [[sm um] r] v (Hsm & Hum & Hr) Ev; cbv beta in *; cbn [fst snd] in *.
  - destruct (@open_step enc n kb gl q0 q1 sm um jl _ true empty [] Hn HQ HE Hsm Hum HB HL HJ (tapes_side true Hs Hr) HF) as (y & ms & E & A & S & B). rewrite E in Ev |- *. cbn [bind] in Ev |- *. apply Ok_inj' in Ev. subst v.
    rewrite app_nil_r in B. unfold gb_see_open, gb_see. destruct (gtOut (fst y)) as [t0 t1]. cbn [own negb fst snd] in *. rewrite A. cbn [bind]. rewrite B. cbn [bind fst snd]. rewrite <- S. reflexivity.
  - destruct (@open_step enc n kb gl q0 q1' sm um jl _ true empty [] Hn HQ' HE Hsm Hum HB HL HJ (tapes_side true Hs Hr) HF') as (y & ms & E & A & S & B). rewrite E in Ev |- *. cbn [bind] in Ev |- *. apply Ok_inj' in Ev. subst v.
    rewrite app_nil_r in B. rewrite <- EQ in S, B. unfold gb_see_open, gb_see. destruct (gtOut (fst y)) as [t0 t1]. cbn [own negb fst snd] in *. rewrite A. cbn [bind]. rewrite B. cbn [bind fst snd]. rewrite <- S. reflexivity.
Qed.
Print Assumptions C81_party0.

(* the same for party 1 *)
Theorem C81_party1 enc n kb gl jl me ot q0 q0' q1 empty : 2 <= n -> gb_enc_ok n kb enc -> gb_queries_ok n kb q0 q1 -> gb_queries_ok n kb q0' q1 -> Forall (fun s => cBits (snd s) mod 8 = 0) (gAvg q1) ->
  gb_lib_ok (fold_right Nat.add 0 (gb_sizes q1)) gl -> gb_levels_fit gl (gb_sizes q1) (gb_key_size q1) jl -> side_looks n jl me ot ->
  gb_fine enc n kb q0 q1 -> gb_fine enc n kb q0' q1 -> gb_table n q0 q1 = gb_table n q0' q1 ->
  paired (gb_coins_ok n q1 me) (fun q x => do y <- gb_run_tr gl enc q q1 (fst (fst x)) (snd (fst x)) jl (both false me (side_with ot (snd x))); gb_see_open false empty y) q0 q0'.
Proof.
  intros Hn HE HQ HQ' HB HL HJ Hs HF HF' EQ.
  assert (HA : forall a, Forall2 (fun s0 s1 : bool * column => same_info (snd s0) (snd s1)) a (gAvg q1) -> Forall (fun s => cBits (snd s) mod 8 = 0) a).
  { intros a F. clear - F HB. induction F as [|x y l l' (_ & _ & E) _ IH]; [constructor|]. apply Forall_cons_iff in HB. destruct HB as [H1 H2]. constructor; [rewrite E; exact H1|apply IH, H2]. }
  assert (G : forall p sm um r, gb_queries_ok n kb p q1 -> gb_fine enc n kb p q1 -> gb_coins_ok n q1 me ((sm, um), r) -> exists y ms, gb_run_tr gl enc p q1 sm um jl (both false me (side_with ot r)) = Ok y /\
    open_remote empty (fst (gtOut (fst y))) = Ok ms /\ ms = open_sim (snd (gtOut (fst y))) (gb_table n p q1) /\ open_local empty (snd (gtOut (fst y))) ms = Ok (gb_table n p q1, [])).
  { intros p sm um r Q F (Hsm & Hum & Hr). destruct (shape Q) as (Ek & Ek1 & EW & EZ & _ & Eks1). cbn [fst snd] in *. rewrite Eks1, EW, Ek1, <- Ek in Hsm. rewrite EW, Ek1, <- Ek in Hum.
    pose proof HL as HL'. rewrite EZ in HL'. pose proof HJ as HJ'. rewrite EZ, Eks1 in HJ'.
    destruct (@open_step enc n kb gl p q1 sm um jl _ false empty [] Hn Q HE Hsm Hum (HA _ (proj2 (proj2 (proj2 Q)))) HL' HJ' (tapes_side false Hs Hr) F) as (y & ms & E & A & S & B). rewrite app_nil_r in B. exists y, ms. auto. }
  refine (@paired_more _ _ _ _ _ _ _ (fun v => (v, open_sim (snd v) (gb_table n q0 q1), gb_table n q0 q1)) q0 q0' _ _ (@C80_hides_party1 enc n kb gl jl me ot q0 q0' q1 Hn HE HQ HQ' HB (proj1 HF) (proj1 HF') HL HJ Hs)).
  all: intros [[sm um] r] v Hc Ev; cbv beta in *; cbn [fst snd] in Ev |- *.
  - destruct (G _ _ _ _ HQ HF Hc) as (y & ms & E & A & S & B). rewrite E in Ev |- *. cbn [bind] in Ev |- *. apply Ok_inj' in Ev. subst v.
    unfold gb_see_open, gb_see. destruct (gtOut (fst y)) as [t0 t1]. cbn [own fst snd] in *. rewrite A. cbn [bind]. rewrite B. cbn [bind fst snd]. rewrite <- S. reflexivity.
  - destruct (G _ _ _ _ HQ' HF' Hc) as (y & ms & E & A & S & B). rewrite E in Ev |- *. cbn [bind] in Ev |- *. apply Ok_inj' in Ev. subst v.
    rewrite <- EQ in S, B. unfold gb_see_open, gb_see. destruct (gtOut (fst y)) as [t0 t1]. cbn [own fst snd] in *. rewrite A. cbn [bind]. rewrite B. cbn [bind fst snd]. rewrite <- S. reflexivity.
Qed.
Print Assumptions C81_party1.

Lemma mod_cancel a b T M : (a < M -> b < M -> (a + T) mod M = (b + T) mod M -> a = b)%N.
Proof.
  intros Ha Hb E. assert (HM : (M <> 0)%N) by lia. pose proof (N.div_mod (a + T) M HM) as X. pose proof (N.div_mod (b + T) M HM) as Y. rewrite E in X. set (r := ((b + T) mod M)%N) in *. set (u := ((a + T) / M)%N) in *. set (v := ((b + T) / M)%N) in *.
  destruct (N.lt_trichotomy u v) as [H|[H|H]]; [exfalso; nia|subst; nia|exfalso; nia].
Qed.
Lemma total_ext f f' l : Forall (fun j => f j = f' j) l -> total f l = total f' l.
Proof. induction 1 as [|j l E _ IH]; [reflexivity|]. cbn [total fold_right]. fold (total f l) (total f' l). rewrite E, IH. reflexivity. Qed.
Lemma chain n (m m' : nat -> list nat) f f' M : (forall i, i < n -> m' i = m i /\ exists l, m i = i :: l /\ Forall (fun j => i < j < n) l) -> (forall i, i < n -> (f i < M)%N /\ (f' i < M)%N) ->
  (forall i, i < n -> (total f (m i) mod M = total f' (m' i) mod M)%N) -> forall i, i < n -> f i = f' i.
Proof.
  intros HM HF HE. assert (G : forall d i, i < n -> n - i <= d -> f i = f' i).
  { induction d as [|d IH]; intros i Hi Hd; [lia|]. destruct (HM i Hi) as (E' & l & E & HL). pose proof (HE i Hi) as X. rewrite E', E in X. cbn [total fold_right] in X. fold (total f l) (total f' l) in X.
    rewrite (@total_ext f f' l) in X by (apply Forall_forall; intros j Hj; rewrite Forall_forall in HL; apply HL in Hj; apply IH; lia). destruct (HF i Hi) as [F1 F2]. apply (mod_cancel F1 F2 X). }
  intros i Hi. apply (G (n - i) i Hi). lia.
Qed.
Lemma rest_all n G A A' i : i < n -> (forall i, i < n -> A i = true) -> (forall i, i < n -> A' i = true) -> gb_rest n G A' i = gb_rest n G A i /\ exists l, gb_rest n G A i = i :: l /\ Forall (fun j => i < j < n) l.
Proof.
  intros Hi HA HA'. unfold gb_rest. split.
  - apply filter_ext_in. intros j Hj. apply in_seq in Hj. rewrite !HA, !HA' by lia. reflexivity.
  - replace (n - i) with (S (n - S i)) by lia. cbn [seq filter]. assert (E : same_key G i i = true) by (apply JoinProofs.row_eq_iff; reflexivity). rewrite E, HA by exact Hi. cbn [andb Bool.eqb].
    eexists. split; [reflexivity|]. apply Forall_forall. intros j Hj. apply filter_In in Hj. destruct Hj as [Hj _]. apply in_seq in Hj. lia.
Qed.
Lemma col_shared n a b : col_ok n a -> col_ok n b -> same_info a b -> rows_ok n (div_ceil (cBits a) 8) (shared_rows a b).
Proof.
  intros ((RA & EA) & NA & BA & _) ((RB & EB) & NB & BB & _) (_ & _ & E3). rewrite NA, EA, <- BA in RA. rewrite NB, EB, <- BB, <- E3 in RB. apply (TrimProofs.xor_rows_ok RA RB).
Qed.
Lemma rows_same n w a b : rows_ok n w a -> rows_ok n w b -> (forall i, i < n -> le_num (nth i a []) = le_num (nth i b [])) -> a = b.
Proof.
  intros (LA & FA) (LB & FB) H. apply (nth_ext _ _ [] []); [congruence|]. intros i Hi. rewrite LA in Hi. rewrite Forall_forall in FA, FB.
  destruct (FA (nth i a [])) as [A1 A2]; [apply nth_In; lia|]. destruct (FB (nth i b [])) as [B1 B2]; [apply nth_In; lia|]. apply JoinProofs.le_num_inj; [congruence|exact A2|exact B2|apply H, Hi].
Qed.

(* When all rows are active the opened table has everything: two inputs with the same opened table have the same keys and
   the same values in every row. *)
Theorem C81_all_active_shows n kb q0 q1 p0 p1 : gb_queries_ok n kb q0 q1 -> gb_queries_ok n kb p0 p1 -> (forall i, i < n -> gb_act q0 q1 i = true) -> (forall i, i < n -> gb_act p0 p1 i = true) ->
  gb_table n q0 q1 = gb_table n p0 p1 ->
  gb_keys q0 q1 = gb_keys p0 p1 /\ map2 (fun s0 s1 => shared_rows (snd s0) (snd s1)) (gAvg q0) (gAvg q1) = map2 (fun s0 s1 => shared_rows (snd s0) (snd s1)) (gAvg p0) (gAvg p1).
Proof.
  intros ((KQ0 & EQ0 & AQ0 & _) & (KQ1 & _ & AQ1 & _) & IQ & SQ) ((KP0 & EP0 & AP0 & _) & (KP1 & _ & AP1 & _) & IP & SP) HA HA' E.
  pose proof (f_equal (fun t => bRows (cDat (hd (gKey q0) (tCols t)))) E) as EK. pose proof (f_equal (fun t => tl (tCols t)) E) as ES. clear E. unfold gb_table, gb_cols, byte_col in EK. cbv zeta in EK. cbn [tCols hd cDat bRows] in EK. unfold gb_table, gb_cols in ES. cbv zeta in ES. cbn [tCols tl] in ES.
  assert (EG : gb_keys q0 q1 = gb_keys p0 p1).
  { pose proof (PackProofs.rows_map_nth (col_shared KQ0 KQ1 IQ)) as L1. pose proof (PackProofs.rows_map_nth (col_shared KP0 KP1 IP)) as L2. unfold gb_keys in *. congruence. }
  split; [exact EG|]. rewrite <- EG in ES. apply app_inj_tail in ES. destruct ES as [ES _].
  assert (HM : forall i, i < n -> gb_rest n (gb_keys q0 q1) (gb_act p0 p1) i = gb_rest n (gb_keys q0 q1) (gb_act q0 q1) i /\ exists l, gb_rest n (gb_keys q0 q1) (gb_act q0 q1) i = i :: l /\ Forall (fun j => i < j < n) l) by (intros i Hi; apply rest_all; assumption).
  revert ES HM. generalize (gb_rest n (gb_keys q0 q1) (gb_act q0 q1)) as m, (gb_rest n (gb_keys q0 q1) (gb_act p0 p1)) as m'. intros m m' ES HM. clear - SQ SP AQ0 AQ1 AP0 AP1 ES HM.
  revert SP AP0 AP1 ES. generalize (gAvg p0) as u, (gAvg p1) as v. induction SQ as [|a b l l' S HF IH]; intros u v SP AP0 AP1 ES.
  - destruct SP as [|c d k k' T HG]; [reflexivity|discriminate ES].
  - destruct SP as [|c d k k' T HG]; [discriminate ES|]. apply Forall_cons_iff in AQ0, AQ1, AP0, AP1. destruct AQ0 as [[_ a0] AQ0], AQ1 as [[_ b0] AQ1], AP0 as [[_ c0] AP0], AP1 as [[_ d0] AP1]. cbn [map2] in ES |- *.
    pose proof (f_equal (hd (snd a)) ES) as EH. apply (f_equal (@tl column)) in ES. cbn [hd tl] in EH, ES. f_equal; [|exact (IH AQ0 AQ1 k k' HG AP0 AP1 ES)].
    pose proof (col_shared a0 b0 S) as R1. pose proof (col_shared c0 d0 T) as R2. unfold gb_sum_col, byte_col in EH. pose proof (f_equal (fun z => bCols (cDat z)) EH) as Ew. apply (f_equal (fun z => bRows (cDat z))) in EH. rename EH into ER. cbn [cDat bCols bRows] in Ew, ER. rewrite <- Ew in R2, ER.
    apply (rows_same R1 R2). apply (@chain n m m' _ _ (256 ^ N.of_nat (div_ceil (cBits (snd a)) 8))%N HM).
    + intros i Hi. destruct R1 as (L1 & F1), R2 as (L2 & F2). rewrite Forall_forall in F1, F2. destruct (F1 (nth i (shared_rows (snd a) (snd b)) [])) as [X1 X2]; [apply nth_In; lia|]. destruct (F2 (nth i (shared_rows (snd c) (snd d)) [])) as [Y1 Y2]; [apply nth_In; lia|].
      split; [rewrite <- X1 | rewrite <- Y1]; apply StableSortProofs.le_num_lt; assumption.
    + intros i Hi. rewrite <- !le_num_le_bytes. apply (f_equal (fun z => nth i z [])) in ER. rewrite !(fun f : nat -> list N => AggRunProofs.map_seq_nth f [] Hi) in ER. rewrite ER. reflexivity.
Qed.
Print Assumptions C81_all_active_shows.

(* Keys 5, 5, 5, 3.  The rows 0, 2 and 3 are active, with 10, 6 and 9, row 1 is not, with 4; or row 1 is active instead of
   row 2, and row 0 has 12. *)
Definition go_q (k : list (list N)) (v : list (list N)) (a : list N) : gb_query := GbQ (gcol 1 8 k) [(true, gcol 2 8 v)] a.
Definition go_q0 := go_q [[1]; [1]; [1]; [1]]%N [[7]; [0]; [3]; [1]]%N [1; 1; 1; 1]%N.
Definition go_q0' := go_q [[1]; [1]; [1]; [1]]%N [[1]; [0]; [3]; [1]]%N [1; 0; 0; 1]%N.
Definition go_q1 := go_q [[4]; [4]; [4]; [2]]%N [[13]; [4]; [5]; [8]]%N [0; 1; 0; 0]%N.
Definition go_q1' := go_q [[4]; [4]; [4]; [2]]%N [[11]; [4]; [5]; [8]]%N [0; 0; 1; 0]%N.
(* the values 10 and 6 exchanged *)
Definition go_q2 := go_q [[4]; [4]; [4]; [2]]%N [[1]; [4]; [9]; [8]]%N [0; 1; 0; 0]%N.
Lemma go_fine a b : gb_keys a b = [[5]; [5]; [5]; [3]]%N -> gb_act a b 3 = true -> (exists k v f, a = go_q k v f) -> gb_fine (fun x => x) 4 8 a b.
Proof.
  intros EK EA (k & v & f & ->). assert (HG : forall i, i < 4 -> (le_num (nth i (gb_keys (go_q k v f) b) []) < 2 ^ N.of_nat 8)%N) by (rewrite EK; intros i Hi; do 4 (destruct i as [|i]; [reflexivity|]); lia).
  split; [exact HG|]. split; [|split; [|split; [cbn; lia|repeat constructor; cbn; lia]]].
  - apply (@C33_told_key 4 8 2 _ _ (fun x => x) eq_refl ltac:(vm_compute; lia) HG). intros i j Hi Hj Fi Tj _. exists 3. split; [lia|]. rewrite EA, EK. do 3 (destruct i as [|i]; [reflexivity|]). assert (i = 0) by lia. subst i. rewrite EA in Fi. discriminate Fi.
  - cbn. constructor; [intros [H|[H|[]]]; discriminate H|]. constructor; [intros [H|[]]; discriminate H|]. constructor; [intros []|constructor].
Qed.
Lemma go_queries a b : (exists k v f, a = go_q k v f /\ gb_query_ok 4 8 a) -> (exists k v f, b = go_q k v f /\ gb_query_ok 4 8 b) -> gb_queries_ok 4 8 a b.
Proof. intros (k & v & f & -> & A) (k' & v' & f' & -> & B). split; [exact A|]. split; [exact B|]. split; [repeat split|repeat constructor]. Qed.
Ltac go_ok := apply go_queries; do 3 eexists; (split; [reflexivity|query_ok]).
Ltac go_fi := apply go_fine; [vm_compute; reflexivity|vm_compute; reflexivity|do 3 eexists; reflexivity].

(* "It shows no more than the grouped sums" is false: the sums of the rows that are not the first of their key are opened
   too.  Two inputs with the same answer and different opened tables; from this table one reads that row 2 has 6 or 10. *)
Theorem C81_sums_only_refuted : exists q0 q1 q1', gb_queries_ok 4 8 q0 q1 /\ gb_queries_ok 4 8 q0 q1' /\ gb_fine (fun x => x) 4 8 q0 q1 /\ gb_fine (fun x => x) 4 8 q0 q1' /\
  gb_cols (gb_members 4 (gb_keys q0 q1) (gb_act q0 q1)) (gb_leaders 4 (gb_keys q0 q1) (gb_act q0 q1)) q0 q1 = gb_cols (gb_members 4 (gb_keys q0 q1') (gb_act q0 q1')) (gb_leaders 4 (gb_keys q0 q1') (gb_act q0 q1')) q0 q1' /\
  map (fun c => bRows (cDat c)) (firstn 2 (tCols (gb_table 4 q0 q1))) = [[[5]; [5]; [5]; [3]]; [[16]; [4]; [6]; [9]]]%N /\
  map (fun c => bRows (cDat c)) (firstn 2 (tCols (gb_table 4 q0 q1'))) = [[[5]; [5]; [5]; [3]]; [[16]; [4]; [10]; [9]]]%N.
Proof.
  exists go_q0, go_q1, go_q2. split; [go_ok|]. split; [go_ok|]. split; [go_fi|]. split; [go_fi|]. split; [vm_compute; reflexivity|]. split; vm_compute; reflexivity.
Qed.
Print Assumptions C81_sums_only_refuted.

Example C81_ex : gb_enc_ok 4 8 (fun x => x) /\ gb_queries_ok 4 8 go_q0 go_q1 /\ gb_queries_ok 4 8 go_q0 go_q1' /\ gb_queries_ok 4 8 go_q0' go_q1 /\
  Forall (fun s => cBits (snd s) mod 8 = 0) (gAvg go_q0) /\ Forall (fun s => cBits (snd s) mod 8 = 0) (gAvg go_q1) /\
  gb_fine (fun x => x) 4 8 go_q0 go_q1 /\ gb_fine (fun x => x) 4 8 go_q0 go_q1' /\ gb_fine (fun x => x) 4 8 go_q0' go_q1 /\
  gb_table 4 go_q0 go_q1 = gb_table 4 go_q0 go_q1' /\ gb_table 4 go_q0 go_q1 = gb_table 4 go_q0' go_q1 /\
  tAct (gb_table 4 go_q0 go_q1) = [1; 0; 0; 1]%N /\ map (fun c => bRows (cDat c)) (firstn 2 (tCols (gb_table 4 go_q0 go_q1))) = [[[5]; [5]; [5]; [3]]; [[16]; [4]; [6]; [9]]]%N /\
  map (gb_act go_q0 go_q1) (seq 0 4) = [true; false; true; true] /\ map (gb_act go_q0 go_q1') (seq 0 4) = [true; true; false; true] /\
  gb_lib_ok (fold_right Nat.add 0 (gb_sizes go_q0)) gr_lib /\ gb_levels_fit gr_lib (gb_sizes go_q0) (gb_key_size go_q0) gr_jl /\ gb_sizes go_q1 = gb_sizes go_q0 /\ gb_key_size go_q1 = gb_key_size go_q0 /\
  side_looks 4 gr_jl gm_0 gm_1 /\ side_looks 4 gr_jl gm_1 gm_0 /\ tapes_fit 4 gr_jl gr_jt /\
  gb_coins_ok 4 go_q0 gm_0 ((grows 4 13 17, grows 4 11 200), jm_cors gm_1) /\ gb_coins_ok 4 go_q1 gm_1 ((grows 4 13 17, grows 4 11 200), jm_cors gm_0).
Proof.
  destruct C80_ex as (B & _ & _ & _ & _ & _ & _ & _ & _ & HL & HJ & _ & _ & S0 & S1 & K0 & K1).
  split; [exact B|]. split; [go_ok|]. split; [go_ok|]. split; [go_ok|]. split; [repeat constructor|]. split; [repeat constructor|]. split; [go_fi|]. split; [go_fi|]. split; [go_fi|].
  do 6 (split; [vm_compute; reflexivity|]). split; [exact HL|]. split; [exact HJ|]. split; [reflexivity|]. split; [reflexivity|]. split; [exact S0|]. split; [exact S1|]. split; [exact gr_tapes|]. split; [exact K0|exact K1].
Qed.
(* all four rows active, shared in two ways *)
Definition go_all := go_q [[4]; [4]; [4]; [2]]%N [[13]; [4]; [5]; [8]]%N [0; 0; 0; 0]%N.
Example C81_active_ex : gb_queries_ok 4 8 go_q0 go_all /\ gb_queries_ok 4 8 go_all go_q0 /\ (forall i, i < 4 -> gb_act go_q0 go_all i = true) /\ (forall i, i < 4 -> gb_act go_all go_q0 i = true) /\
  gb_table 4 go_q0 go_all = gb_table 4 go_all go_q0 /\ map (fun c => bRows (cDat c)) (firstn 2 (tCols (gb_table 4 go_q0 go_all))) = [[[5]; [5]; [5]; [3]]; [[20]; [10]; [6]; [9]]]%N /\
  map2 (fun s0 s1 => shared_rows (snd s0) (snd s1)) (gAvg go_q0) (gAvg go_all) = [[[10]; [4]; [6]; [9]]]%N.
Proof.
  split; [go_ok|]. split; [go_ok|]. split; [intros i Hi; do 4 (destruct i as [|i]; [reflexivity|]); lia|]. split; [intros i Hi; do 4 (destruct i as [|i]; [reflexivity|]); lia|]. split; [vm_compute; reflexivity|]. split; vm_compute; reflexivity.
Qed.
