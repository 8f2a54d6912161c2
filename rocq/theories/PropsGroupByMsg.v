(* C80: what a party sees in a group by with the runs of its circuits. *)
From Verif Require Import Base Words PermModel KeyMultModel ShuffleModel ShuffleSpec RadixModel RadixSpec GmwModel GmwSpec GmwPrivSpec GmwIoModel GmwIoSpec AggModel AggSpec AggCirModel AggCirSpec AggTwoTree AggRunModel AggViewModel AggViewSpec TableModel TableSpec TableOpsSpec TableProofs OmJoinModel OmJoinSpec
  GroupByModel GroupBySpec GroupByArith GroupByLoad JoinRunModel JoinRunSpec JoinMsgSpec GroupByRunModel GroupByRunSpec GroupByMsgModel GroupByMsgSpec GroupByMsgProofs PropsAggCir PropsAggView PropsOmJoin PropsGroupBy PropsJoinRun PropsGroupByRun PropsJoinMsg.

(* The run of C79, with the shares on the way. *)
Theorem C80_same gl enc q0 q1 sm um jl jt : gb_run_cir gl enc q0 q1 sm um jl jt = do y <- gb_run_tr gl enc q0 q1 sm um jl jt; Ok (gtOut (fst y), snd y).
Proof.
  unfold gb_run_cir, gb_run_tr. cbv zeta. repeat (match goal with |- bind ?x _ = bind (bind ?x _) _ => destruct x as [?| | |]; try reflexivity; cbn [bind] end).
Qed.
Print Assumptions C80_same.

(* Party 0 learns nothing of the other party's columns: its view is as likely for q1 as for q1'. *)
Theorem C80_hides_party0 enc n kb gl jl me ot q0 q1 q1' : 2 <= n -> gb_enc_ok n kb enc -> gb_queries_ok n kb q0 q1 -> gb_queries_ok n kb q0 q1' -> Forall (fun s => cBits (snd s) mod 8 = 0) (gAvg q0) ->
  (forall i, i < n -> (le_num (nth i (gb_keys q0 q1) []) < 2 ^ N.of_nat kb)%N) -> (forall i, i < n -> (le_num (nth i (gb_keys q0 q1') []) < 2 ^ N.of_nat kb)%N) ->
  gb_lib_ok (fold_right Nat.add 0 (gb_sizes q0)) gl -> gb_levels_fit gl (gb_sizes q0) (gb_key_size q0) jl -> side_looks n jl me ot ->
  paired (gb_coins_ok n q0 me) (fun q x => do y <- gb_run_tr gl enc q0 q (fst (fst x)) (snd (fst x)) jl (both true me (side_with ot (snd x))); Ok (gb_see true y)) q1 q1'.
Proof.
  intros Hn HE HQ HQ' HB HG HG' HL HJ HS. destruct (shape HQ) as (Ekb & _ & _ & _ & Eks & _). rewrite Eks in HJ.
  destruct (@gb_paired n kb (gb_width q0) (gb_sizes q0) enc gl jl true me ot Hn HE HL HJ HS (q0, q1) (q0, q1')) as (rel & R1 & R2 & R3 & R4 & R5).
  - unfold good. cbn [fst snd]. auto.
  - unfold good. cbn [fst snd]. auto.
  - reflexivity.
  - unfold gb_coins_ok. rewrite Eks, Ekb. exists rel. split; [exact R1|]. split; [exact R2|]. split; [exact R3|]. split; [exact R4|exact R5].
Qed.
Print Assumptions C80_hides_party0.

(* Nor does party 1. *)
Theorem C80_hides_party1 enc n kb gl jl me ot q0 q0' q1 : 2 <= n -> gb_enc_ok n kb enc -> gb_queries_ok n kb q0 q1 -> gb_queries_ok n kb q0' q1 -> Forall (fun s => cBits (snd s) mod 8 = 0) (gAvg q1) ->
  (forall i, i < n -> (le_num (nth i (gb_keys q0 q1) []) < 2 ^ N.of_nat kb)%N) -> (forall i, i < n -> (le_num (nth i (gb_keys q0' q1) []) < 2 ^ N.of_nat kb)%N) ->
  gb_lib_ok (fold_right Nat.add 0 (gb_sizes q1)) gl -> gb_levels_fit gl (gb_sizes q1) (gb_key_size q1) jl -> side_looks n jl me ot ->
  paired (gb_coins_ok n q1 me) (fun q x => do y <- gb_run_tr gl enc q q1 (fst (fst x)) (snd (fst x)) jl (both false me (side_with ot (snd x))); Ok (gb_see false y)) q0 q0'.
Proof.
  intros Hn HE HQ HQ' HB HG HG' HL HJ HS. destruct (shape HQ) as (Ekb & Ekb1 & EW & EZ & Eks & Eks1). destruct (shape HQ') as (Ekb' & _ & EW' & EZ' & Eks' & _). rewrite Eks1, Eks in HJ.
  assert (HA : forall a, Forall2 (fun s0 s1 : bool * column => same_info (snd s0) (snd s1)) a (gAvg q1) -> Forall (fun s => cBits (snd s) mod 8 = 0) a).
  { intros a F. clear - F HB. induction F as [|x y l l' (_ & _ & E) _ IH]; [constructor|]. apply Forall_cons_iff in HB. destruct HB as [H1 H2]. constructor; [rewrite E; exact H1|apply IH, H2]. }
  destruct (@gb_paired n kb (gb_width q1) (gb_sizes q1) enc gl jl false me ot Hn HE HL HJ HS (q0, q1) (q0', q1)) as (rel & R1 & R2 & R3 & R4 & R5).
  - unfold good. cbn [fst snd]. split; [exact HQ|]. split; [apply HA, HQ|]. auto.
  - unfold good. cbn [fst snd]. split; [exact HQ'|]. split; [apply HA, HQ'|]. auto.
  - reflexivity.
  - unfold gb_coins_ok. rewrite Eks1, Eks, Ekb1. exists rel. split; [exact R1|]. split; [exact R2|]. split; [exact R3|]. split; [exact R4|exact R5].
Qed.
Print Assumptions C80_hides_party1.

(* The columns of C79_ex, and others of the other party; the party that looks has exactly the correlations that its circuits use. *)
Definition gm_side (past : bool) (s u : triple) : side :=
  let t k := jm_tape k past s u in Sd (t 7) [t 145; t 145] [t 144; t 144] (t 288) (t 1).
Definition gm_0 : side := gm_side true (5, 1)%N (3, 2)%N.
Definition gm_1 : side := gm_side false (6, 5)%N (1, 3)%N.
Definition gm_q0 : gb_query := GbQ (gcol 1 8 [[7]; [7]; [7]; [3]]%N) [(true, gcol 2 8 [[0]; [0]; [9]; [10]]%N)] [1; 0; 0; 0]%N.
Definition gm_q1 : gb_query := GbQ (gcol 1 8 [[0]; [8]; [4]; [2]]%N) [(true, gcol 2 8 [[3]; [1]; [0]; [0]]%N)] [0; 0; 1; 0]%N.
Lemma gm_looks p p' s u s' u' : block128 (fst s) -> block128 (snd s) -> block128 (fst u) -> block128 (snd u) -> side_looks 4 gr_jl (gm_side p s u) (gm_side p' s' u').
Proof.
  intros B1 B2 B3 B4.
  assert (D1 : demand 1 (jlCtrl gr_jl) = 2 * 7) by (vm_compute; reflexivity). assert (D2 : demand 1 (jlUp gr_jl) = 2 * 145) by (vm_compute; reflexivity). assert (D3 : demand 1 (jlDown gr_jl) = 2 * 144) by (vm_compute; reflexivity).
  assert (D4 : demand 1 (jlLeaf gr_jl) = 2 * 288) by (vm_compute; reflexivity). assert (D5 : demand 1 (jlFlag gr_jl) = 2 * 1) by (vm_compute; reflexivity).
  do 4 (split; [intros i r j; reflexivity|]). split; [apply jm_looks; assumption|]. split; [apply jm_looks; assumption|].
  destruct (tree_sizes 4) as [sh| | |] eqn:E; [|vm_compute in E; discriminate E..]. exists sh. split; [reflexivity|].
  vm_compute in E. assert (ES : sh = Shape 4 4 true 0 [4; 2; 1]) by congruence. subst sh. unfold tapes_for. cbv zeta. cbn [sSizes sN16 length gm_side sdU sdD sdL].
  do 4 (split; [reflexivity|]).
  split; [|split; [|apply jm_looks; assumption]];
    (intros [|[|l]] a b; cbn [nth_error]; [intros Ea Eb|intros Ea Eb|destruct l; discriminate]; injection Ea as <-; injection Eb as <-; apply jm_looks; assumption).
Qed.
Lemma gm_fits p p' s u s' u' : triples_for [[s; u]] [[s'; u']] -> side_fits (gm_side p s u) (jm_cors (gm_side p' s' u')).
Proof.
  intros T. assert (K : forall k, triples_for (tpCor (jm_tape k p s u)) (tpCor (jm_tape k p' s' u'))).
  { intros k. destruct T as [T1 T2]. unfold ole_segs, blocks_segs in *. inversion T1 as [|? ? ? ? Q _]; subst. inversion T2 as [|? ? Q' _]; subst. inversion Q as [|? ? ? ? Qa Qb]; subst. inversion Qb as [|? ? ? ? Qc _]; subst. inversion Q' as [|? ? Qd Qe]; subst. inversion Qe as [|? ? Qf _]; subst.
    split; (constructor; [|constructor]); cbn [tpCor jm_tape]; (induction (seq 0 k) as [|i l IH]; [constructor|]); cbn [flat_map app]; (constructor; [assumption|]); (constructor; [assumption|exact IH]). }
  split; [apply K|]. split; [|apply K]. split; [|split; [|apply K]]; (constructor; [apply K|]; constructor; [apply K|constructor]).
Qed.
Lemma gm_queries a b : a = gq0 \/ a = gm_q0 -> b = gq1 \/ b = gm_q1 -> gb_queries_ok 4 8 a b.
Proof.
  intros Ha Hb. assert (Q : forall x, x = gq0 \/ x = gm_q0 \/ x = gq1 \/ x = gm_q1 -> gb_query_ok 4 8 x) by (intros x [->|[->|[->| ->]]]; query_ok).
  split; [apply Q; tauto|]. split; [apply Q; tauto|]. destruct Ha as [->| ->], Hb as [->| ->]; (split; [repeat split|repeat constructor]).
Qed.
(* The keys and the active rows that the columns share differ. *)
Example C80_ex : gb_enc_ok 4 8 (fun x => x) /\ gb_queries_ok 4 8 gq0 gq1 /\ gb_queries_ok 4 8 gq0 gm_q1 /\ gb_queries_ok 4 8 gm_q0 gq1 /\
  Forall (fun s => cBits (snd s) mod 8 = 0) (gAvg gq0) /\ Forall (fun s => cBits (snd s) mod 8 = 0) (gAvg gq1) /\
  gb_keys gq0 gq1 = [[5]; [9]; [5]; [7]]%N /\ gb_keys gq0 gm_q1 = [[1]; [1]; [1]; [1]]%N /\ gb_keys gm_q0 gq1 = [[3]; [7]; [7]; [7]]%N /\
  gb_lib_ok (fold_right Nat.add 0 (gb_sizes gq0)) gr_lib /\ gb_levels_fit gr_lib (gb_sizes gq0) (gb_key_size gq0) gr_jl /\ gb_sizes gq1 = gb_sizes gq0 /\ gb_key_size gq1 = gb_key_size gq0 /\
  side_looks 4 gr_jl gm_0 gm_1 /\ side_looks 4 gr_jl gm_1 gm_0 /\
  gb_coins_ok 4 gq0 gm_0 ((grows 4 13 17, grows 4 11 200), jm_cors gm_1) /\ gb_coins_ok 4 gq1 gm_1 ((grows 4 13 17, grows 4 11 200), jm_cors gm_0).
Proof.
  destruct C33_ex_hyp as (A & B & _). assert (HS : rows_ok 4 13 (grows 4 13 17)) by (apply (@grows_ok 4 13 17); reflexivity). assert (HU : rows_ok 4 11 (grows 4 11 200)) by (apply (@grows_ok 4 11 200); reflexivity).
  assert (HL : gb_lib_ok (fold_right Nat.add 0 (gb_sizes gq0)) gr_lib) by apply gr_lib_ok.
  assert (HJ : gb_levels_fit gr_lib (gb_sizes gq0) (gb_key_size gq0) gr_jl) by (apply C79_levels; [vm_compute; lia|vm_compute; lia|exact HL]).
  split; [exact B|]. split; [exact A|]. split; [apply gm_queries; tauto|]. split; [apply gm_queries; tauto|]. split; [repeat constructor|]. split; [repeat constructor|]. do 3 (split; [reflexivity|]).
  split; [exact HL|]. split; [exact HJ|]. split; [reflexivity|]. split; [reflexivity|]. split; [apply gm_looks; reflexivity|]. split; [apply gm_looks; reflexivity|].
  split; (split; [exact HS|]; split; [exact HU|]; apply gm_fits; split; [|]; repeat constructor).
Qed.
