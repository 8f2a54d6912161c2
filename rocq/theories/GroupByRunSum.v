(* The aggregation tree of a group by, run by its circuits on shares, gives shares of the sums. *)
From Verif Require Import Base Words PrfModel PrfProofs PermModel PermCorModel PermCorProofs KeyMultModel KeyMultProofs ShuffleModel ShuffleSpec GmwModel GmwSpec GmwProofs GmwIoModel GmwIoSpec BitInjProofs RadixModel RadixSpec AggModel AggSpec AggProofs AggCirModel AggCirSpec AggCirProofs AggCirBuild AggCirAdd AggCirRun
  AggTwoModel AggTwoSpec AggTwoRel AggTwoTree AggRunModel AggRunProofs AggTwoScan AggViewModel AggViewSpec AggViewHide AggViewLanes AggViewFull AggViewErase TableModel TableSpec TrimProofs TableProofs OmJoinModel OmJoinSpec PackProofs OmJoinProofs CtrlProofs WhereProofs JoinRunModel JoinRunSpec JoinRunCtl JoinRunStages JoinRunChain GroupByModel GroupBySpec GroupByArith
  TableOpsSpec StableSortProofs HexProofs BinFileProofs CompressProofs GroupByRunModel GroupByRunSpec GroupByRunStages PropsAggCir PropsAggTwo PropsAggView.

(* ---- numbers, bits and bytes ---- *)
Lemma of_bits_bnum : forall l, of_bits l = bnum l.
Proof. induction l as [|b l IH]; [reflexivity|]. cbn [of_bits bnum]. rewrite IH. destruct b; reflexivity. Qed.
Lemma le_num_bits_row : forall W l, length l = 8 * W -> le_num (bits_row W l) = bnum l.
Proof.
  induction W as [|W IH]; intros l L; [destruct l; [reflexivity|cbn [length] in L; lia]|].
  destruct l as [|b0 [|b1 [|b2 [|b3 [|b4 [|b5 [|b6 [|b7 l]]]]]]]]; cbn [length] in L; try lia.
  assert (E : bits_row (S W) (b0 :: b1 :: b2 :: b3 :: b4 :: b5 :: b6 :: b7 :: l) = of_bits [b0; b1; b2; b3; b4; b5; b6; b7] :: bits_row W l).
  { unfold bits_row. change (seq 0 (S W)) with (0 :: seq 1 W). rewrite <- seq_shift. cbn [map]. rewrite map_map. f_equal. apply map_ext. intros b. f_equal. apply map_ext. intros k. replace (8 * S b + k) with (8 + (8 * b + k)) by lia. reflexivity. }
  rewrite E. change (le_num (?x :: ?y)) with (x + 256 * le_num y)%N. rewrite IH by lia. rewrite of_bits_bnum. cbn [bnum]. lia.
Qed.
Lemma bits_row_le_bytes W l : length l = 8 * W -> bits_row W l = le_bytes W (bnum l).
Proof. intros L. rewrite <- (@le_num_bits_row W _ L). symmetry. apply le_bytes_le_num; [apply bits_row_len|apply bits_row_bytes]. Qed.
Lemma bnum_row W r : length r = W -> bytes r -> bnum (row_bits (8 * W) r) = le_num r.
Proof.
  intros L B. rewrite <- (@le_num_bits_row W) by (unfold row_bits; rewrite map_length; apply seq_length). rewrite bits_row_back by assumption. reflexivity.
Qed.
Lemma bnum_zeros k : bnum (repeat false k) = 0%N.
Proof. induction k as [|k IH]; [reflexivity|]. cbn [repeat bnum]. rewrite IH. reflexivity. Qed.

(* sums of rows of bits are sums of numbers *)
Lemma range_num k (f : list bool -> list bool -> list bool) (g : N -> N -> N) src a b :
  (forall x y, length x = k -> length y = k -> length (f x y) = k /\ bnum (f x y) = g (bnum x) (bnum y)) -> Forall (fun x => length x = k) src ->
  length (agg_range f (repeat false k) src a b) = k /\ bnum (agg_range f (repeat false k) src a b) = agg_range g 0%N (map bnum src) a b.
Proof.
  intros HF HS. unfold agg_range, slice. rewrite skipn_map, firstn_map.
  assert (HL : Forall (fun x => length x = k) (firstn (b - a) (skipn a src))) by (apply Forall_forall; intros x Hx; rewrite Forall_forall in HS; apply HS; rewrite <- (firstn_skipn a src); apply in_or_app; right; rewrite <- (firstn_skipn (b - a) (skipn a src)); apply in_or_app; left; exact Hx).
  destruct (firstn (b - a) (skipn a src)) as [|y l]; cbn [map]; [split; [apply repeat_length|apply bnum_zeros]|].
  apply Forall_cons_iff in HL. destruct HL as [Hy HL]. revert y Hy. induction HL as [|x l Hx HL IH]; intros y Hy; cbn [fold_left map]; [split; [exact Hy|reflexivity]|].
  destruct (HF y x Hy Hx) as [L E]. rewrite <- E. apply IH, L.
Qed.
Lemma rows_slice n C W d : rows_ok n C d -> W <= C -> rows_ok n W (map (fun r => slice r 0 W) d).
Proof.
  intros [L F] H. split; [rewrite map_length; exact L|]. apply Forall_forall. intros x Hx. apply in_map_iff in Hx. destruct Hx as (r & <- & Hr). rewrite Forall_forall in F. destruct (F r Hr) as [Lr Br].
  split; [unfold slice; rewrite firstn_length, skipn_length; lia|]. apply slice_bytes, Br.
Qed.
Lemma rows_read n C W d : rows_ok n C d -> W <= C -> mapM (fun r => readN r 0 W) d = Ok (map (fun r => slice r 0 W) d).
Proof. intros [L F] H. apply mapM_ok. intros r Hr. rewrite Forall_forall in F. apply readN_ok. rewrite (proj1 (F r Hr)). exact H. Qed.
Lemma xor_slices n C W : forall D0 D1, rows_ok n C D0 -> rows_ok n C D1 -> xor_rows (map (fun r => slice r 0 W) D0) (map (fun r => slice r 0 W) D1) = map (fun r => slice r 0 W) (xor_rows D0 D1).
Proof.
  intros D0 D1 [L0 F0] [L1 F1]. rewrite <- L1 in L0. clear L1. revert D1 L0 F1. induction F0 as [|x D0 [Hx _] F0 IH]; intros [|y D1] L F1; try discriminate L; [reflexivity|]. apply Forall_cons_iff in F1. destruct F1 as [[Hy _] F1].
  cbn [map xor_rows map2]. f_equal; [symmetry; apply map2_slice; congruence|]. apply IH; [injection L as L; exact L|exact F1].
Qed.
Lemma rows_shares k n w Z0 Z1 : rows_ok n w Z0 -> rows_ok n w Z1 -> F3 (word_shares k) (map (row_bits k) Z0) (map (row_bits k) Z1) (map (row_bits k) (xor_rows Z0 Z1)).
Proof.
  intros [L0 F0] [L1 F1]. rewrite <- L1 in L0. clear L1. revert Z1 L0 F1. induction F0 as [|x Z0 [Hx _] F0 IH]; intros [|y Z1] L F1; try discriminate L; [constructor|]. apply Forall_cons_iff in F1. destruct F1 as [[Hy _] F1].
  cbn [map xor_rows map2]. constructor; [|apply IH; [injection L as L; exact L|exact F1]].
  unfold word_shares, row_bits. rewrite !map_length, seq_length. split; [reflexivity|]. split; [reflexivity|].
  apply (@list_eq_nth _ false); [rewrite map2_length, !map_length, seq_length; lia|]. intros j Hj. rewrite map_length, seq_length in Hj.
  rewrite (@map2_nth _ _ _ xorb _ _ j false false) by (rewrite map_length, seq_length; exact Hj). rewrite !map_seq_nth by exact Hj. apply sbit_lxor. congruence.
Qed.
Lemma ctrl_shares : forall o0 o1 : list N, length o0 = length o1 -> F3 bit_shares (map N.odd o0) (map N.odd o1) (map2 xbit o0 o1).
Proof.
  induction o0 as [|x o0 IH]; intros [|y o1] L; try discriminate L; [constructor|]. cbn [map map2]. constructor; [|apply IH; injection L as L; exact L].
  unfold bit_shares, xbit. rewrite <- !N.bit0_odd. apply N.lxor_spec.
Qed.
Lemma shares_rows W : forall r0 r1 v, F3 (word_shares (8 * W)) r0 r1 v -> xor_rows (map (bits_row W) r0) (map (bits_row W) v) = map (bits_row W) r1.
Proof.
  intros r0 r1 v H. induction H as [|a b c la lb lc (La & Lb & ->) H IH]; [reflexivity|]. cbn [map xor_rows map2]. f_equal; [|exact IH].
  rewrite bits_row_xor by assumption. apply (@list_eq_nth _ 0%N); [rewrite !map2_length, !bits_row_len; lia|]. intros j Hj. rewrite !map2_length, !bits_row_len in Hj. rewrite !(@map2_nth _ _ _ N.lxor _ _ j 0%N 0%N) by (rewrite ?map2_length, !bits_row_len; lia).
  rewrite <- N.lxor_assoc, N.lxor_nilpotent, N.lxor_0_l. reflexivity.
Qed.

Lemma sum_any n C W ws gl bits jl jt old0 old1 p0 p1 D0 D1 : 2 <= n -> 0 < W -> fold_right Nat.add 0 ws = 8 * W -> W <= C -> gb_lib_ok (fold_right Nat.add 0 ws) gl -> gb_levels_fit gl ws bits jl -> tapes_fit n jl jt ->
  length p0 = n -> length p1 = n -> rows_ok n C D0 -> rows_ok n C D1 ->
  exists A0 a tr, rows_ok n W A0 /\ sum_run gl ws W jl jt old0 old1 (p0, p1) (D0, D1) = Ok (a, tr) /\ gb_agg ws W A0 old0 old1 (p0, p1) (D0, D1) = Ok a.
Proof.
  intros Hn HW Ews HC (HM & HA) HJ HT L0 L1 H0 H1. destruct HJ as (_ & LU & LD & LL & _). destruct HT as (_ & _ & _ & _ & _ & _ & sh & Es & TU0 & TU1 & TD0 & TD1 & TU & TD & TL).
  pose proof (@C71_add (glAdd gl) ws HA) as [OP HP]. pose proof (C72_add ws) as WO. rewrite Ews in *. set (k := 8 * W) in *. set (op := add_circuit (glAdd gl) ws) in *.
  destruct (@C71_up k (add_fields ws) op (glMux gl) Suffix OP HM) as (cu & Eu & _). destruct (@C71_down k (add_fields ws) op Suffix ([], false) ([], false) OP) as (cd & Ed & _). destruct (@C71_leaf k (add_fields ws) op (glMux gl) Suffix OP HM) as (cl & El & _).
  assert (Els : div_ceil k 8 = W) by (unfold k, div_ceil; lia).
  set (v0 := map (fun r => slice r 0 W) D0). set (v1 := map (fun r => slice r 0 W) D1). pose proof (rows_slice H0 HC) as R0. pose proof (rows_slice H1 HC) as R1. fold v0 in R0. fold v1 in R1.
  set (X := xor_rows v0 v1). assert (HX : rows_ok n W X) by (apply xor_rows_ok; assumption). set (src := map (row_bits k) X). assert (Ls : length src = n) by (unfold src; rewrite map_length; apply HX).
  set (ctrl := map2 xbit p0 p1). assert (Lc : length ctrl = n) by (unfold ctrl; rewrite map2_length; lia).
  set (top := length (sSizes sh) - 1) in *.
  destruct (@C72_tree k (add_fields ws) op (glMux gl) Suffix cu cd cl (jlUp jl) (jlDown jl) (jlLeaf jl)
    (fun l => nth l (fst (jtpUp jt)) no_tape) (fun l => nth l (snd (jtpUp jt)) no_tape) (fun l => nth (top - l - 1) (fst (jtpDown jt)) no_tape) (fun l => nth (top - l - 1) (snd (jtpDown jt)) no_tape) (fst (jtpLeaf jt)) (snd (jtpLeaf jt))
    (map (row_bits k) v0) (map (row_bits k) v1) src (map N.odd p0) (map N.odd p1) ctrl sh) as (r0 & r1 & E & HR); try assumption; try lia.
  - apply (LU _ Eu).
  - apply (LD _ Ed).
  - apply (LL _ El).
  - left. reflexivity.
  - apply (@rows_shares k n W _ _ R0 R1).
  - apply ctrl_shares. congruence.
  - rewrite Ls. exact Es.
  - intros lvl Hl. apply (TU lvl); apply nth_error_nth'; lia.
  - intros lvl Hl. specialize (TD (top - lvl - 1) (nth (top - lvl - 1) (fst (jtpDown jt)) no_tape) (nth (top - lvl - 1) (snd (jtpDown jt)) no_tape)). replace (top - (top - lvl - 1) - 1) with lvl in TD by (fold top in Hl; lia). fold top in Hl. apply TD; apply nth_error_nth'; lia.
  - assert (Lz : length (map (row_bits k) v0) = n) by (rewrite map_length; apply R0).
    rewrite (@C73_same Suffix (repeat false k) cu cd cl (jlUp jl) (jlDown jl) (jlLeaf jl) (fst (jtpUp jt)) (snd (jtpUp jt)) (fst (jtpDown jt)) (snd (jtpDown jt)) (fst (jtpLeaf jt)) (snd (jtpLeaf jt)) _ _ _ _ sh) in E by (rewrite ?Lz; assumption).
    apply bind_inv in E. destruct E as ([rr tr] & EA & E). cbn [fst] in E. assert (rr = (r0, r1)) as -> by congruence. clear E.
    set (sc := scan Suffix (add_fields ws) (repeat false k) src ctrl) in *.
    assert (Lr0 : length r0 = n) by (destruct (f3_len HR) as [A B]; unfold sc, scan in A, B; rewrite map_length, seq_length in A, B; congruence).
    assert (FS : Forall (fun x => length x = k) src) by (apply Forall_forall; intros x Hx; apply in_map_iff in Hx; destruct Hx as (y & <- & _); unfold row_bits; rewrite map_length; apply seq_length).
    assert (EV : map (fun r => le_num r mod 2 ^ N.of_nat k)%N X = map bnum src).
    { unfold src. rewrite map_map. apply map_ext_in. intros r Hr. destruct HX as [_ FX]. rewrite Forall_forall in FX. destruct (FX r Hr) as [Lr Br]. rewrite <- (bnum_row Lr Br). fold k. apply N.mod_small.
      pose proof (bnum_lt (row_bits k r)) as Q. unfold row_bits in Q at 2. rewrite map_length, seq_length in Q. exact Q. }
    exists (map (bits_row W) r0). eexists. exists tr. split; [|split].
    + split; [rewrite map_length; exact Lr0|]. apply Forall_forall. intros x Hx. apply in_map_iff in Hx. destruct Hx as (y & <- & _). split; [apply bits_row_len|apply bits_row_bytes].
    + unfold sum_run. rewrite Ews. fold k. rewrite Els. cbn [fst snd]. rewrite (rows_read H0 HC), (rows_read H1 HC). cbn [bind]. fold v0 v1 op. rewrite Eu. cbn [bind]. rewrite Ed. cbn [bind]. rewrite El. cbn [bind]. rewrite EA. reflexivity.
    + unfold gb_agg. rewrite Ews. fold k. rewrite Els. cbn [fst snd]. rewrite (rows_read (xor_rows_ok H0 H1) HC). cbn [bind]. rewrite <- (@xor_slices n C W _ _ H0 H1). fold v0 v1 X. rewrite EV. fold ctrl.
      rewrite (@agg_suffix_ok _ _ _ (padd_assoc ws)) by (rewrite map_length; lia). cbn [bind]. unfold reshare. cbn [fst snd].
      assert (EQ : map (le_bytes W) (map (fun i => agg_range (padd ws) 0%N (map bnum src) i (blk_end ctrl i)) (seq 0 (length (map bnum src)))) = map (bits_row W) sc).
      { unfold sc, scan. rewrite map_length, !map_map. apply map_ext. intros i. destruct (@range_num k (add_fields ws) (padd ws) src i (blk_end ctrl i) HP FS) as [LR ER]. rewrite bits_row_le_bytes by exact LR. rewrite ER. reflexivity. }
      rewrite EQ, (@shares_rows W _ _ _ HR). reflexivity.
Qed.
