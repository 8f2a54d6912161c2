(* C74: the whole join with the runs of its circuits. *)
From Verif Require Import Base Words PermModel PermSpec PermCorModel PermCorSpec PermViewModel ShuffleModel ShuffleSpec ExtractSpec KeyMultModel RadixModel RadixSpec SortViewModel SortPrivSpec GenPermViewModel GenPermPrivSpec GmwModel GmwSpec GmwIoModel.
From Verif Require Import AggModel AggSpec AggProofs AggCirModel AggCirSpec AggCirProofs AggCirBuild AggCirAdd AggCirExamples AggCirRun AggTwoModel AggTwoSpec AggRunModel AggRunProofs AggTwoScan AggViewModel TableModel TableSpec TableProofs OmJoinModel OmJoinSpec JoinViewModel JoinPrivSpec JoinPrivacy JoinRunModel JoinRunSpec JoinRunCtl JoinRunStages JoinRunChain JoinRunTop BitInjProofs PropsGmwIo OmJoinProofs CtrlProofs PropsAggCir PropsAggTwo PropsSortPriv PropsJoinPriv PropsOmJoin.

(* one gate in each level *)
Definition gate_levels (o : outcome circuit) : list level := match o with Ok c => map (fun g => ([g], count_nonlinear [g])) (cGates c) | _ => [] end.
Definition one_gate (lb : join_lib) (w bits : nat) : join_levels :=
  JL (gate_levels (control_circuit bits)) (gate_levels (upstream_cir dup_circuit (lbMux lb) (8 * w) Prefix)) (gate_levels (downstream_cir dup_circuit (8 * w) Prefix))
    (gate_levels (leaf_cir dup_circuit (lbMux lb) (8 * w) Prefix)) (gate_levels (Ok (lbAnd lb))).
(* Levels as the theorems need them exist. *)
Theorem C74_levels lb w bits : 0 < w -> 0 < bits -> lib_ok w lb -> levels_fit lb w bits (one_gate lb w bits).
Proof.
  intros Hw Hb (HM & HR & _). assert (G : forall o c ins outs, o = Ok c -> runnable c ins outs -> Forall (fun n => 0 < n) outs -> outs <> [] -> lists_levels o (gate_levels o)).
  { intros o c ins outs -> R P NE c' E. assert (c' = c) as -> by congruence. apply (C71_levels R P NE). }
  assert (Hk : 0 < 8 * w) by lia.
  destruct (@C71_up (8 * w) (fun a b => a) dup_circuit (lbMux lb) Prefix (@dup_ok (8 * w)) HM) as (cu & Eu & Ru & _). destruct (@C71_down (8 * w) (fun a b => a) dup_circuit Prefix ([], false) ([], false) (@dup_ok (8 * w))) as (cd & Ed & Rd & _).
  destruct (@C71_leaf (8 * w) (fun a b => a) dup_circuit (lbMux lb) Prefix (@dup_ok (8 * w)) HM) as (cl & El & Rl & _). destruct (control_circuit_ok Hb) as (gs & k & Ec & _ & _). destruct (control_runnable Hb Ec) as (Rc & _).
  split; [apply (G _ _ _ _ Ec Rc); [repeat constructor|discriminate]|]. split; [apply (G _ _ _ _ Eu Ru); [repeat constructor; exact Hk|discriminate]|]. split; [apply (G _ _ _ _ Ed Rd); [repeat constructor; exact Hk|discriminate]|].
  split; [apply (G _ _ _ _ El Rl); [repeat constructor; exact Hk|discriminate]|]. apply (G _ _ _ _ eq_refl HR); [repeat constructor|discriminate|reflexivity].
Qed.
Print Assumptions C74_levels.

(* The control bits that Gmw returns are shares of whether the key of a row and the one before agree (in the bits that
   the circuit compares, C32).  The bit of row 0 is overwritten later. *)
Theorem C74_control n w bits flag cap lb jl jt Z0 Z1 : 2 <= n -> (N.of_nat n <= 2 ^ 32)%N -> 0 < bits -> flag + 1 + div_ceil bits 8 <= w -> 4 + w + (flag + 1) <= cap -> (N.of_nat cap < 2 ^ 64)%N ->
  lib_ok w lb -> levels_fit lb w bits jl -> tapes_fit n jl jt -> rows_ok n w Z0 -> rows_ok n w Z1 ->
  let key i := slice (nth i (xor_rows Z0 Z1) []) (flag + 1) (div_ceil bits 8) in
  exists o0 o1 tr, control_run bits (flag + 1) (jlCtrl jl) (jtpCtrl jt) (Z0, Z1) = Ok ((map N.b2n o0, map N.b2n o1), tr) /\ length o0 = n /\ length o1 = n /\
    forall t, 0 < t < n -> xorb (nth t o0 false) (nth t o1 false) = true <-> agree (2 ^ Nat.log2 bits) (key (t - 1)) (key t).
Proof.
  intros Hn Hn32 Hb Hw Hcap Hcap' HL HJ HT H0 H1 key. pose proof (rows_lens H0) as L0. pose proof (rows_lens H1) as L1.
  destruct (@control_ok n w bits flag cap lb jl jt Hn Hn32 Hb Hw Hcap Hcap' HL HJ HT Z0 Z1 L0 L1) as (o0 & o1 & tr & E & Lo & Eo).
  assert (LX : length (xor_rows Z0 Z1) = n) by apply (xor_rows_lens L0 L1).
  assert (Lv : length (outv n bits flag (xor_rows Z0 Z1)) = n) by (eapply outv_len; eassumption).
  assert (Lo1 : length o1 = n) by (rewrite Eo, map2_length, Lo, Lv; apply Nat.min_id).
  pose proof (@control_v_ok n w bits flag Hb Hw Z0 Z1 (JM o0 [] []) L0 L1 Lo) as CV. cbv zeta in CV. cbn [jmCtrl] in CV. rewrite <- Eo in CV.
  exists o0, o1, tr. split; [exact E|]. split; [exact Lo|]. split; [exact Lo1|].
  destruct (@om_control_ok n w bits (flag + 1) o0 (Z0, Z1) (fun i => nth i (xor_rows Z0 Z1) [])) as (p0 & p1 & EO & _ & _ & HC); [exact Hb|lia|exact Hw|exact Lo|split; [exact H0|]; split; [exact H1|]|].
  { cbn [fst snd]. apply (@list_eq_nth _ []); [rewrite map_length, seq_length; exact LX|]. intros i Hi. rewrite LX in Hi. rewrite map_seq_nth by exact Hi. reflexivity. }
  unfold om_control_v in CV. unfold om_control in EO. destruct (control_circuit bits) as [ci| | |]; try discriminate CV. cbn [bind] in CV, EO. destruct (skeys (flag + 1) (div_ceil bits 8) (fst (Z0, Z1))) as [s0| | |]; try discriminate CV. cbn [bind] in CV, EO.
  destruct (skeys (flag + 1) (div_ceil bits 8) (snd (Z0, Z1))) as [s1| | |]; try discriminate CV. cbn [bind] in CV, EO. pose proof (f_equal (fun o => match o with Ok x => snd x | _ => [] end) CV) as CV'. cbn [snd] in CV'. rewrite CV' in EO.
  unfold set in EO. rewrite !map_length, Lo, Lo1, (proj2 (Nat.ltb_lt _ _)) in EO by lia. cbn [bind] in EO.
  assert (upd (map N.b2n o0) 0 0%N = p0 /\ upd (map N.b2n o1) 0 0%N = p1) as [<- <-] by (inversion EO; split; reflexivity).
  assert (NU : forall (o : list bool) t, length o = n -> 0 < t < n -> nth t (upd (map N.b2n o) 0 0%N) 0%N = N.b2n (nth t o false)).
  { intros [|x o] [|t] Ht Hl; cbn [length] in Ht; try lia. cbn [map upd nth]. change 0%N with (N.b2n false). apply map_nth. }
  intros t Ht. specialize (HC t ltac:(lia)). rewrite !NU in HC by assumption. assert (X : xbit (N.b2n (nth t o0 false)) (N.b2n (nth t o1 false)) = xorb (nth t o0 false) (nth t o1 false)) by (destruct (nth t o0 false), (nth t o1 false); reflexivity).
  rewrite X in HC. rewrite HC. split; [intros [_ A]; exact A|intros A; split; [lia|exact A]].
Qed.
Print Assumptions C74_control.

(* The join with the runs of its circuits does what the join of C70 does with some shares of the results of the circuits. *)
Theorem C74_run L capS cap nL nR kb enc lb q0 q1 rd jl jt : enc_ok enc kb nL nR -> join_sizes L capS cap nL nR kb q0 -> queries_ok nL nR kb q0 q1 ->
  run_fits L (key_bits kb nL nR) (nL + nR) capS cap rd -> lib_ok (om_width q0 + div_ceil kb 8) lb -> levels_fit lb (om_width q0 + div_ceil kb 8) (key_bits kb nL nR) jl -> tapes_fit (nL + nR) jl jt ->
  exists m tr msgs, join_fits L (key_bits kb nL nR) (nL + nR) capS cap (om_width q0 + div_ceil kb 8) (JR (fst rd) (snd rd) m) /\
    om_join_v L enc q0 q1 (JR (fst rd) (snd rd) m) = Ok tr /\ om_join_run lb L enc q0 q1 rd jl jt = Ok (tr, msgs).
Proof.
  intros HE HS HQ HF HL HV HT. destruct (run_ok HE HS HQ HF HL HV HT) as (m & tr & msgs & A & B & C & _). exists m, tr, msgs. split; [exact A|]. split; [exact B|exact C].
Qed.
Print Assumptions C74_run.

(* The two output tables are shares of the join: right row i is active if some left row has its key, and its left columns are those of that row. *)
Theorem C74_join L capS cap nL nR kb enc lb q0 q1 rd jl jt : enc_ok enc kb nL nR -> join_sizes L capS cap nL nR kb q0 -> queries_ok nL nR kb q0 q1 ->
  run_fits L (key_bits kb nL nR) (nL + nR) capS cap rd -> lib_ok (om_width q0 + div_ceil kb 8) lb -> levels_fit lb (om_width q0 + div_ceil kb 8) (key_bits kb nL nR) jl -> tapes_fit (nL + nR) jl jt ->
  Forall (fun x => (le_num x < 2 ^ N.of_nat (key_bits kb nL nR))%N) (all_keys enc kb nL nR q0 q1) -> told_apart enc kb nL nR (left_keys q0 q1 ++ right_keys q0 q1) ->
  exists tr msgs, om_join_run lb L enc q0 q1 rd jl jt = Ok (tr, msgs) /\
    shares_of nR (fst (jtOut tr)) (snd (jtOut tr)) (map (om_flag (left_keys q0 q1) (right_keys q0 q1)) (seq 0 nR)) (map2 (om_col nR (left_keys q0 q1) (right_keys q0 q1)) (qSel q0) (qSel q1)).
Proof.
  intros HE HS HQ HF HL HV HT HB HA. destruct (run_join HE HS HQ HF HL HV HT HB) as (tr & msgs & r & E & HR & EJ). exists tr, msgs. split; [exact E|]. destruct HS as (H1 & H2 & H3 & _).
  destruct (@C32_join_partial enc q0 q1 r nL nR kb H1 H2 H3 HQ HE HR HA) as (t0 & t1 & E' & S). rewrite E' in EJ. assert (jtOut tr = (t0, t1)) as -> by congruence. exact S.
Qed.
Print Assumptions C74_join.

(* opened, without the inactive rows: exactly the join *)
Theorem C74_reveal L capS cap nL nR kb enc lb q0 q1 rd jl jt : enc_ok enc kb nL nR -> join_sizes L capS cap nL nR kb q0 -> queries_ok nL nR kb q0 q1 ->
  run_fits L (key_bits kb nL nR) (nL + nR) capS cap rd -> lib_ok (om_width q0 + div_ceil kb 8) lb -> levels_fit lb (om_width q0 + div_ceil kb 8) (key_bits kb nL nR) jl -> tapes_fit (nL + nR) jl jt ->
  Forall (fun x => (le_num x < 2 ^ N.of_nat (key_bits kb nL nR))%N) (all_keys enc kb nL nR q0 q1) -> told_apart enc kb nL nR (left_keys q0 q1 ++ right_keys q0 q1) ->
  qSel q0 <> [] -> NoDup (map (fun s => cName (oCol s)) (qSel q0)) ->
  (do t <- om_join_run lb L enc q0 q1 rd jl jt; t_reveal (fst (jtOut (fst t))) (snd (jtOut (fst t))) true) =
  Ok (Tab [] (map2 (join_col nR (left_keys q0 q1) (right_keys q0 q1)) (qSel q0) (qSel q1))).
Proof.
  intros HE HS HQ HF HL HV HT HB HA NE ND. destruct (run_join HE HS HQ HF HL HV HT HB) as (tr & msgs & r & E & HR & EJ). destruct HS as (H1 & H2 & H3 & _).
  pose proof (@C32_reveal_partial enc q0 q1 r nL nR kb H1 H2 H3 HQ HE HR HA NE ND) as X. rewrite EJ in X. rewrite E. cbn [bind fst snd] in *. exact X.
Qed.
Print Assumptions C74_reveal.

(* One left row and two right rows with keys of three bits (C70_ex), with memory that is not zero and one gate per level *)
Definition jr_q (v l r r' : N) : om_query := OmQ (ex_col 1 3 [[l]]%N) (ex_col 2 3 [[r]; [r']]%N) [OSel true (ex_col 3 8 [[v]]%N); OSel false (ex_col 2 3 [[r]; [r']]%N)].
Definition jr_q0 := jr_q 55 5 1 2.   Definition jr_q1 := jr_q 9 3 7 7.
Lemma jr_queries : queries_ok 1 2 3 jr_q0 jr_q1.
Proof.
  split; [split; [col_ok|]; split; [col_ok|]; split; [reflexivity|]; split; [reflexivity|]; constructor; [col_ok|]; constructor; [col_ok|constructor]|].
  split; [split; [col_ok|]; split; [col_ok|]; split; [reflexivity|]; split; [reflexivity|]; constructor; [col_ok|]; constructor; [col_ok|constructor]|].
  repeat constructor.
Qed.
Definition jr_and : circuit := Circuit 3 [[0]; [1]] [[2]] [Gate 0 1 GAnd 2].
Definition jr_lib : join_lib := JLib lib_mux jr_and.
Definition jr_tape (k : nat) (past : bool) (s u : triple) : tape := Tape io_junk io_junk (fun _ _ _ => past) (fun _ _ _ => false) [flat_map (fun _ => [s; u]) (seq 0 k)].
Definition jr_0 (k : nat) : tape := jr_tape k true (5, 1)%N (3, 2)%N.
Definition jr_1 (k : nat) : tape := jr_tape k false (6, 5)%N (1, 3)%N.
Definition jr_jl : join_levels := one_gate jr_lib (om_width jr_q0 + div_ceil 3 8) (key_bits 3 1 2).
Definition jr_jt : join_tapes := JT (jr_0 40, jr_1 40) ([jr_0 200; jr_0 201], [jr_1 200; jr_1 201]) ([jr_0 202; jr_0 203], [jr_1 202; jr_1 203]) (jr_0 204, jr_1 204) (jr_0 1, jr_1 1).
Lemma jr_lib_ok w : lib_ok w jr_lib.
Proof.
  split; [apply lib_mux_ok|]. cbn [lbAnd jr_lib]. split; [|intros e; reflexivity].
  split; [reflexivity|]. split; [reflexivity|]. split; [reflexivity|]. split; [split; [intros i [->|[_ ->]]; cbn; auto|split; [cbn; intros [H|[H|[]]]; discriminate H|exact I]]|]. split.
  - intros g [<-|[]]. cbn. split; [discriminate|]. lia.
  - intros v [<-|[]]. eexists. split; [left; reflexivity|reflexivity].
Qed.
Example C74_ex : enc_ok (fun x => x) 3 1 2 /\ join_sizes 2 16 16 1 2 3 jr_q0 /\ queries_ok 1 2 3 jr_q0 jr_q1 /\ run_fits 2 (key_bits 3 1 2) 3 16 16 (jrSort jp_rd, jrPerm jp_rd) /\
  lib_ok (om_width jr_q0 + div_ceil 3 8) jr_lib /\ levels_fit jr_lib (om_width jr_q0 + div_ceil 3 8) (key_bits 3 1 2) jr_jl /\ tapes_fit 3 jr_jl jr_jt /\
  Forall (fun x => (le_num x < 2 ^ N.of_nat (key_bits 3 1 2))%N) (all_keys (fun x => x) 3 1 2 jr_q0 jr_q1) /\
  all_keys (fun x => x) 3 1 2 jr_q0 jr_q1 = [[6]; [6]; [5]]%N /\ told_apart (fun x => x) 3 1 2 (left_keys jr_q0 jr_q1 ++ right_keys jr_q0 jr_q1) /\
  (do r <- om_join_run jr_lib 2 (fun x => x) jr_q0 jr_q1 (jrSort jp_rd, jrPerm jp_rd) jr_jl jr_jt; let '(t0, t1) := jtOut (fst r) in t_reveal t0 t1 true) =
    Ok (Tab [] [ex_col 3 8 [[62]]%N; ex_col 2 3 [[6]]%N]).
Proof.
  destruct C70_ex as (A & B & _ & _ & _ & (D1 & D2 & D3 & D4 & D5 & D6 & _) & _). split; [exact A|]. split; [exact B|]. split; [exact jr_queries|].
  split; [split; [exact D1|]; split; [exact D2|]; split; [exact D3|]; split; [exact D4|]; split; [exact D5|exact D6]|].
  split; [apply jr_lib_ok|]. split; [apply C74_levels; [vm_compute; lia|vm_compute; lia|apply jr_lib_ok]|].
  assert (EK : all_keys (fun x => x) 3 1 2 jr_q0 jr_q1 = [[6]; [6]; [5]]%N) by (vm_compute; reflexivity).
  split; [|split; [rewrite EK; constructor; [reflexivity|]; constructor; [reflexivity|]; constructor; [reflexivity|constructor]|split; [exact EK|split; [|vm_compute; reflexivity]]]].
  2:{ replace (left_keys jr_q0 jr_q1 ++ right_keys jr_q0 jr_q1) with [[6]; [6]; [5]]%N by (vm_compute; reflexivity).
      intros x y [<-|[<-|[<-|[]]]] [<-|[<-|[<-|[]]]] H; try reflexivity; exfalso; unfold agree in H; specialize (H 0); vm_compute in H; assert (true = false) by (try (apply H; repeat constructor); try (symmetry; apply H; repeat constructor)); discriminate. }
  assert (DP : forall n lvs k, demand ((n + 127) / 128) lvs <= 2 * k -> tapes_ok n lvs (jr_0 k) (jr_1 k)).
  { intros n lvs k D. split; [|split].
    - constructor; [|constructor]. induction (seq 0 k) as [|i l IH]; [constructor|]. cbn [flat_map app]. constructor; [vm_compute; reflexivity|]. constructor; [vm_compute; reflexivity|exact IH].
    - constructor; [|constructor]. induction (seq 0 k) as [|i l IH]; [reflexivity|]. exact IH.
    - cbn [tpCor jr_0 jr_tape concat]. rewrite app_nil_r. assert (LF : forall l : list nat, length (flat_map (fun _ => [(5, 1); (3, 2)]%N) l) = 2 * length l) by (induction l as [|i l IH]; [reflexivity|]; cbn [flat_map app length]; rewrite IH; lia).
      rewrite LF, seq_length. exact D. }
  split; [intros i r j; reflexivity|]. split; [intros i r j; reflexivity|]. split; [intros i r j; reflexivity|]. split; [intros i r j; reflexivity|].
  split; [apply DP; vm_compute; lia|]. split; [apply DP; vm_compute; lia|].
  destruct (tree_sizes 3) as [sh| | |] eqn:E; [|vm_compute in E; discriminate E..]. exists sh. split; [reflexivity|].
  vm_compute in E. assert (ES : sh = Shape 3 4 true 0 [4; 2; 1]) by congruence. subst sh. cbv zeta. cbn [sSizes sN16 length jr_jt jtpUp jtpDown jtpLeaf fst snd].
  do 4 (split; [reflexivity|]).
  split; [|split; [|apply DP; vm_compute; lia]];
    (intros [|[|l]] a b; cbn [nth_error]; [intros Ea Eb|intros Ea Eb|destruct l; discriminate]; injection Ea as <-; injection Eb as <-; apply DP; vm_compute; lia).
Qed.
