(* Property C79: group by with the runs of its circuits. *)
From Verif Require Import Base Words PermModel KeyMultModel ShuffleModel ShuffleSpec RadixModel RadixSpec GmwModel GmwSpec GmwIoModel GmwIoSpec AggModel AggSpec AggCirModel AggCirSpec AggCirExamples AggCirRun AggTwoModel AggTwoSpec AggRunModel AggRunProofs AggViewModel TableModel TableSpec TableOpsSpec OmJoinModel OmJoinSpec OmJoinProofs PackProofs TableProofs GroupByProofs
  CtrlProofs GroupByModel GroupBySpec GroupByArith GroupByLoad GroupByTop JoinRunModel JoinRunSpec JoinRunCtl GroupByRunModel GroupByRunSpec GroupByRunStages GroupByRunSum GroupByRunProofs PropsAggCir PropsAggTwo PropsGroupBy PropsJoinRun.

(* one gate per level *)
Definition gb_one_gate (gl : gb_lib) (ws : list nat) (bits : nat) : join_levels :=
  let k := fold_right Nat.add 0 ws in
  let add := add_circuit (glAdd gl) ws in
  JL (gate_levels (control_circuit bits)) (gate_levels (upstream_cir add (glMux gl) k Suffix)) (gate_levels (downstream_cir add k Suffix)) (gate_levels (leaf_cir add (glMux gl) k Suffix)) (gate_levels (Ok flag_circuit)).
(* The circuits of a group by are built and can be cut into levels: the conditions on them below can be met *)
Theorem C79_levels gl ws bits : 0 < fold_right Nat.add 0 ws -> 0 < bits -> gb_lib_ok (fold_right Nat.add 0 ws) gl -> gb_levels_fit gl ws bits (gb_one_gate gl ws bits).
Proof.
  intros Hk Hb (HM & HA). assert (G : forall o c ins outs, o = Ok c -> runnable c ins outs -> Forall (fun n => 0 < n) outs -> outs <> [] -> lists_levels o (gate_levels o)).
  { intros o c ins outs -> R P NE c' E. assert (c' = c) as -> by congruence. apply (C71_levels R P NE). }
  pose proof (@C71_add (glAdd gl) ws HA) as [OP _]. set (k := fold_right Nat.add 0 ws) in *.
  destruct (@C71_up k (add_fields ws) _ (glMux gl) Suffix OP HM) as (cu & Eu & Ru & _). destruct (@C71_down k (add_fields ws) _ Suffix ([], false) ([], false) OP) as (cd & Ed & Rd & _).
  destruct (@C71_leaf k (add_fields ws) _ (glMux gl) Suffix OP HM) as (cl & El & Rl & _). destruct (control_circuit_ok Hb) as (gs & m & Ec & _ & _). destruct (control_runnable Hb Ec) as (Rc & _).
  split; [apply (G _ _ _ _ Ec Rc); [repeat constructor|discriminate]|]. split; [apply (G _ _ _ _ Eu Ru); [repeat constructor; exact Hk|discriminate]|]. split; [apply (G _ _ _ _ Ed Rd); [repeat constructor; exact Hk|discriminate]|].
  split; [apply (G _ _ _ _ El Rl); [repeat constructor; exact Hk|discriminate]|]. apply (G _ _ _ _ eq_refl (proj1 flag_good)); [repeat constructor|discriminate|reflexivity].
Qed.
Print Assumptions C79_levels.

(* The aggregation tree that runs the adders on shares outputs shares of the sums: row i is the sum, field by field, of
   the rows from i to the end of its block *)
Theorem C79_sums n C W ws gl bits jl jt old0 old1 p0 p1 D0 D1 : 2 <= n -> 0 < W -> fold_right Nat.add 0 ws = 8 * W -> W <= C -> gb_lib_ok (8 * W) gl -> gb_levels_fit gl ws bits jl -> tapes_fit n jl jt ->
  length p0 = n -> length p1 = n -> rows_ok n C D0 -> rows_ok n C D1 ->
  exists a0 a1 tr, sum_run gl ws W jl jt old0 old1 (p0, p1) (D0, D1) = Ok ((a0, a1), tr) /\ rows_ok n W a0 /\ rows_ok n W a1 /\
    xor_rows a0 a1 = map (fun i => le_bytes W (agg_range (padd ws) 0%N (map (fun r => le_num (slice r 0 W)) (xor_rows D0 D1)) i (blk_end (map2 xbit p0 p1) i))) (seq 0 n).
Proof.
  intros Hn HW Ews HC HL HJ HT L0 L1 H0 H1. rewrite <- Ews in HL. destruct (@sum_any n C W ws gl bits jl jt old0 old1 p0 p1 D0 D1 Hn HW Ews HC HL HJ HT L0 L1 H0 H1) as (A0 & [a0 a1] & tr & HA & R & M).
  exists a0, a1, tr. split; [exact R|].
  assert (HP : OmJoinProofs.pair_of n C (D0, D1) (fun i => nth i (xor_rows D0 D1) [])).
  { split; [exact H0|]. split; [exact H1|]. cbn [fst snd]. apply (PackProofs.rows_map_nth (TrimProofs.xor_rows_ok H0 H1)). }
  destruct (@GroupByProofs.gb_agg_ok n C W ws A0 old0 old1 p0 p1 (D0, D1) _ Hn Ews HC HA L0 L1 HP) as (a & E & P0 & P1 & P2). rewrite M in E. assert (a = (a0, a1)) as -> by congruence. cbn [fst snd] in *.
  split; [exact P0|]. split; [exact P1|]. rewrite P2. apply map_ext. intros i. do 2 f_equal. assert (LX : length (xor_rows D0 D1) = n) by apply (TrimProofs.xor_rows_ok H0 H1).
  rewrite <- (map_map (fun u => nth u (xor_rows D0 D1) []) (fun r => le_num (slice r 0 W))). f_equal. symmetry. apply (PackProofs.rows_map_nth (TrimProofs.xor_rows_ok H0 H1)).
Qed.
Print Assumptions C79_sums.

(* The group by with the runs of its circuits does what the group by of C33 does with some shares of the results of the circuits *)
Theorem C79_run enc n kb gl q0 q1 sm um jl jt : 2 <= n -> gb_queries_ok n kb q0 q1 -> gb_enc_ok n kb enc ->
  rows_ok n (gb_width q0 + div_ceil (cBits (gKey q0)) 8 + div_ceil (gb_key_size q0) 8 + 1) sm -> rows_ok n (gb_width q0 + div_ceil (cBits (gKey q0)) 8 + 1) um ->
  Forall (fun s => cBits (snd s) mod 8 = 0) (gAvg q0) -> (forall i, i < n -> (le_num (nth i (gb_keys q0 q1) []) < 2 ^ N.of_nat kb)%N) ->
  gb_lib_ok (fold_right Nat.add 0 (gb_sizes q0)) gl -> gb_levels_fit gl (gb_sizes q0) (gb_key_size q0) jl -> tapes_fit n jl jt ->
  exists bc ba bf tr, gb_rand_ok n q0 (GbR sm bc ba bf um) /\
    gb_run_cir gl enc q0 q1 sm um jl jt = do t <- gb_run enc q0 q1 (GbR sm bc ba bf um); Ok (t, tr).
Proof. apply run_cir. Qed.
Print Assumptions C79_run.

(* The two output tables are shares of the result: a row is active if it is the first active row with its key, and has
   the sums and the number of the rows from it on with its key and flag *)
Theorem C79_shares enc n kb gl q0 q1 sm um jl jt : 2 <= n -> gb_queries_ok n kb q0 q1 -> gb_enc_ok n kb enc ->
  rows_ok n (gb_width q0 + div_ceil (cBits (gKey q0)) 8 + div_ceil (gb_key_size q0) 8 + 1) sm -> rows_ok n (gb_width q0 + div_ceil (cBits (gKey q0)) 8 + 1) um ->
  Forall (fun s => cBits (snd s) mod 8 = 0) (gAvg q0) -> (forall i, i < n -> (le_num (nth i (gb_keys q0 q1) []) < 2 ^ N.of_nat kb)%N) -> gb_told n kb (gb_keys q0 q1) (gb_act q0 q1) enc ->
  gb_lib_ok (fold_right Nat.add 0 (gb_sizes q0)) gl -> gb_levels_fit gl (gb_sizes q0) (gb_key_size q0) jl -> tapes_fit n jl jt ->
  exists t0 t1 msgs, gb_run_cir gl enc q0 q1 sm um jl jt = Ok ((t0, t1), msgs) /\
    shares_of n t0 t1 (map (fun i => N.b2n (gb_leader (gb_keys q0 q1) (gb_act q0 q1) i)) (seq 0 n)) (gb_cols (gb_rest n (gb_keys q0 q1) (gb_act q0 q1)) (seq 0 n) q0 q1).
Proof.
  intros Hn HQ HE Hsm Hum HB HG HTo HL HJ HT. destruct (run_cir Hn HQ HE Hsm Hum HB HG HL HJ HT) as (bc & ba & bf & tr & HR & E).
  destruct (@C33_shares_partial enc n kb q0 q1 _ Hn HQ HE HR HB HG HTo) as (t0 & t1 & E' & S). exists t0, t1, tr. split; [rewrite E, E'; reflexivity|exact S].
Qed.
Print Assumptions C79_shares.

(* opened, without the inactive rows: one row per key of the active rows with the sums and the number of all its active rows *)
Theorem C79_reveal enc n kb gl q0 q1 sm um jl jt : 2 <= n -> gb_queries_ok n kb q0 q1 -> gb_enc_ok n kb enc ->
  rows_ok n (gb_width q0 + div_ceil (cBits (gKey q0)) 8 + div_ceil (gb_key_size q0) 8 + 1) sm -> rows_ok n (gb_width q0 + div_ceil (cBits (gKey q0)) 8 + 1) um ->
  Forall (fun s => cBits (snd s) mod 8 = 0) (gAvg q0) -> (forall i, i < n -> (le_num (nth i (gb_keys q0 q1) []) < 2 ^ N.of_nat kb)%N) -> gb_told n kb (gb_keys q0 q1) (gb_act q0 q1) enc ->
  NoDup (cName (gKey q0) :: map (fun s => cName (snd s)) (gAvg q0) ++ [[67; 111; 117; 110; 116]%N]) ->
  gb_lib_ok (fold_right Nat.add 0 (gb_sizes q0)) gl -> gb_levels_fit gl (gb_sizes q0) (gb_key_size q0) jl -> tapes_fit n jl jt ->
  (do t <- gb_run_cir gl enc q0 q1 sm um jl jt; t_reveal (fst (fst t)) (snd (fst t)) true) =
  Ok (Tab [] (gb_cols (gb_members n (gb_keys q0 q1) (gb_act q0 q1)) (gb_leaders n (gb_keys q0 q1) (gb_act q0 q1)) q0 q1)).
Proof.
  intros Hn HQ HE Hsm Hum HB HG HTo ND HL HJ HT. destruct (run_cir Hn HQ HE Hsm Hum HB HG HL HJ HT) as (bc & ba & bf & tr & HR & E).
  destruct (@C33_shares_partial enc n kb q0 q1 _ Hn HQ HE HR HB HG HTo) as (t0 & t1 & E' & _). pose proof (@C33_reveal_partial enc n kb q0 q1 _ Hn HQ HE HR HB HG HTo ND) as X.
  rewrite E' in X. rewrite E, E'. exact X.
Qed.
Print Assumptions C79_reveal.

(* The four rows of C33_ex: the sums of 8 bits and the numbers of 64 bits are added by ripple carry adders of one gate per
   level, with memory that is not zero; 200 + 100 modulo 256 = 44 *)
Definition gr_lib : gb_lib := GLib lib_mux ripple_adder.
Definition gr_jl : join_levels := gb_one_gate gr_lib (gb_sizes gq0) (gb_key_size gq0).
Definition gr_jt : join_tapes := JT (jr_0 40, jr_1 40) ([jr_0 400; jr_0 401], [jr_1 400; jr_1 401]) ([jr_0 402; jr_0 403], [jr_1 402; jr_1 403]) (jr_0 404, jr_1 404) (jr_0 1, jr_1 1).
Lemma gr_lib_ok k : gb_lib_ok k gr_lib.
Proof. split; [apply lib_mux_ok|apply ripple_adder_ok]. Qed.
Lemma gr_tapes : tapes_fit 4 gr_jl gr_jt.
Proof.
  assert (DP : forall n lvs k, demand ((n + 127) / 128) lvs <= 2 * k -> tapes_ok n lvs (jr_0 k) (jr_1 k)).
  { intros n lvs k D. split; [|split].
    - constructor; [|constructor]. induction (seq 0 k) as [|i l IH]; [constructor|]. cbn [flat_map app]. constructor; [vm_compute; reflexivity|]. constructor; [vm_compute; reflexivity|exact IH].
    - constructor; [|constructor]. induction (seq 0 k) as [|i l IH]; [reflexivity|]. exact IH.
    - cbn [tpCor jr_0 jr_tape concat]. rewrite app_nil_r. assert (LF : forall l : list nat, length (flat_map (fun _ => [(5, 1); (3, 2)]%N) l) = 2 * length l) by (induction l as [|i l IH]; [reflexivity|]; cbn [flat_map app length]; rewrite IH; lia).
      rewrite LF, seq_length. exact D. }
  assert (DL : forall a b, Nat.leb a b = true -> a <= b) by (intros a b H; apply Nat.leb_le, H).
  assert (D1 : demand 1 (jlCtrl gr_jl) <= 80) by (apply DL; vm_compute; reflexivity). assert (D2 : demand 1 (jlUp gr_jl) <= 800) by (apply DL; vm_compute; reflexivity).
  assert (D3 : demand 1 (jlDown gr_jl) <= 800) by (apply DL; vm_compute; reflexivity). assert (D4 : demand 1 (jlLeaf gr_jl) <= 800) by (apply DL; vm_compute; reflexivity). assert (D5 : demand 1 (jlFlag gr_jl) <= 2) by (apply DL; vm_compute; reflexivity).
  split; [intros i r j; reflexivity|]. split; [intros i r j; reflexivity|]. split; [intros i r j; reflexivity|]. split; [intros i r j; reflexivity|].
  split; [apply DP; exact D1|]. split; [apply DP; exact D5|].
  destruct (tree_sizes 4) as [sh| | |] eqn:E; [|vm_compute in E; discriminate E..]. exists sh. split; [reflexivity|].
  vm_compute in E. assert (ES : sh = Shape 4 4 true 0 [4; 2; 1]) by congruence. subst sh. cbv zeta. cbn [sSizes sN16 length gr_jt jtpUp jtpDown jtpLeaf fst snd].
  do 4 (split; [reflexivity|]).
  split; [|split; [|apply DP; eapply Nat.le_trans; [exact D4|lia]]];
    (intros [|[|l]] a b; cbn [nth_error]; [intros Ea Eb|intros Ea Eb|destruct l; discriminate]; injection Ea as <-; injection Eb as <-; apply DP; (eapply Nat.le_trans; [(exact D2 || exact D3)|lia])).
Qed.
Example C79_ex : gb_queries_ok 4 8 gq0 gq1 /\ gb_enc_ok 4 8 (fun x => x) /\ rows_ok 4 (gb_width gq0 + 1 + 2 + 1) (grows 4 13 17) /\ rows_ok 4 (gb_width gq0 + 1 + 1) (grows 4 11 200) /\
  Forall (fun s => cBits (snd s) mod 8 = 0) (gAvg gq0) /\ (forall i, i < 4 -> (le_num (nth i (gb_keys gq0 gq1) []) < 2 ^ N.of_nat 8)%N) /\ gb_told 4 8 (gb_keys gq0 gq1) (gb_act gq0 gq1) (fun x => x) /\
  gb_lib_ok (fold_right Nat.add 0 (gb_sizes gq0)) gr_lib /\ gb_levels_fit gr_lib (gb_sizes gq0) (gb_key_size gq0) gr_jl /\ tapes_fit 4 gr_jl gr_jt /\
  (do t <- gb_run_cir gr_lib (fun x => x) gq0 gq1 (grows 4 13 17) (grows 4 11 200) gr_jl gr_jt; t_reveal (fst (fst t)) (snd (fst t)) true) =
    Ok (Tab [] [gcol 1 8 [[5]; [7]]%N; gcol 2 8 [[44]; [60]]%N; gcount [[2; 0; 0; 0; 0; 0; 0; 0]; [1; 0; 0; 0; 0; 0; 0; 0]]%N]).
Proof.
  destruct C33_ex_hyp as (A & B & _ & D & E & F & G). assert (HS : rows_ok 4 (gb_width gq0 + 1 + 2 + 1) (grows 4 13 17)) by (apply (@grows_ok 4 13 17); reflexivity). assert (HU : rows_ok 4 (gb_width gq0 + 1 + 1) (grows 4 11 200)) by (apply (@grows_ok 4 11 200); reflexivity).
  assert (HL : gb_lib_ok (fold_right Nat.add 0 (gb_sizes gq0)) gr_lib) by apply gr_lib_ok.
  assert (HJ : gb_levels_fit gr_lib (gb_sizes gq0) (gb_key_size gq0) gr_jl) by (apply C79_levels; [vm_compute; lia|vm_compute; lia|exact HL]).
  do 2 (split; [assumption|]). split; [exact HS|]. split; [exact HU|]. do 3 (split; [assumption|]). split; [exact HL|]. split; [exact HJ|]. split; [exact gr_tapes|].
  rewrite (@C79_reveal (fun x => x) 4 8 gr_lib gq0 gq1 (grows 4 13 17) (grows 4 11 200) gr_jl gr_jt ltac:(lia) A B HS HU D E F G HL HJ gr_tapes). vm_compute. reflexivity.
Qed.
(* the rows 1..4, the second and fourth with the control bit 1: blocks of two rows; sums of the first byte *)
Example C79_sums_ex : fold_right Nat.add 0 (gb_sizes gq0) = 8 * 9 /\ gb_lib_ok (8 * 9) gr_lib /\ gb_levels_fit gr_lib (gb_sizes gq0) (gb_key_size gq0) gr_jl /\ tapes_fit 4 gr_jl gr_jt /\
  let d0 := map (fun x => x :: repeat 0%N 8) [1; 2; 7; 4]%N in let d1 := map (fun x => x :: repeat 0%N 8) [0; 0; 4; 0]%N in rows_ok 4 9 d0 /\ rows_ok 4 9 d1 /\
  map2 xbit [1; 0; 1; 1]%N [1; 1; 1; 0]%N = [false; true; false; true] /\
  exists a0 a1 tr, sum_run gr_lib (gb_sizes gq0) 9 gr_jl gr_jt [] [] ([1; 0; 1; 1]%N, [1; 1; 1; 0]%N) (d0, d1) = Ok ((a0, a1), tr) /\ xor_rows a0 a1 = map (fun x => x :: repeat 0%N 8) [3; 2; 7; 4]%N.
Proof.
  assert (E9 : fold_right Nat.add 0 (gb_sizes gq0) = 8 * 9) by reflexivity. assert (HL : gb_lib_ok (8 * 9) gr_lib) by apply gr_lib_ok.
  assert (HJ : gb_levels_fit gr_lib (gb_sizes gq0) (gb_key_size gq0) gr_jl) by (apply C79_levels; [vm_compute; lia|vm_compute; lia|apply gr_lib_ok]).
  split; [exact E9|]. split; [exact HL|]. split; [exact HJ|]. split; [exact gr_tapes|]. intros d0 d1.
  assert (H0 : rows_ok 4 9 d0) by (split; [reflexivity|repeat constructor]). assert (H1 : rows_ok 4 9 d1) by (split; [reflexivity|repeat constructor]).
  split; [exact H0|]. split; [exact H1|]. split; [reflexivity|].
  destruct (@C79_sums 4 9 9 (gb_sizes gq0) gr_lib (gb_key_size gq0) gr_jl gr_jt [] [] [1; 0; 1; 1]%N [1; 1; 1; 0]%N d0 d1 ltac:(lia) ltac:(lia) E9 ltac:(lia) HL HJ gr_tapes eq_refl eq_refl H0 H1) as (a0 & a1 & tr & E & _ & _ & X).
  exists a0, a1, tr. split; [exact E|]. rewrite X. vm_compute. reflexivity.
Qed.
