(* The group by protocol. *)
From Coq Require Import Permutation.
From Verif Require Import Base Words PermModel PermSpec PermProofs PermCorProofs KeyMultModel ShuffleModel ShuffleSpec ShuffleSpanProofs RadixModel RadixSpec RadixSortProofs StableSortProofs
  GmwModel GmwSpec AggModel AggSpec AggProofs TableModel TableSpec TrimProofs TableProofs TableOpsSpec JoinProofs AverageProofs BitInjProofs
  OmJoinModel OmJoinSpec BlockProofs PackProofs OmJoinProofs OmJoinTop GroupByModel GroupBySpec GroupByArith GroupByLoad GroupByBlock.

(* ---- the steps, on the shared values ---- *)
Lemma gb_cut_ok n C off size d : rows_ok n C d -> off + size <= C -> gb_cut off size d = Ok (map (fun i => slice (nth i d []) off size) (seq 0 n)).
Proof.
  intros Hd Ho. unfold gb_cut. rewrite (rows_map_nth Hd) at 1. rewrite mapM_map. apply mapM_ok. intros i Hi. apply in_seq in Hi. apply readN_ok. rewrite (proj1 (rows_nth Hd (k := i) ltac:(lia))). exact Ho.
Qed.
Lemma cut_rows n C off size d : rows_ok n C d -> off + size <= C -> rows_ok n size (map (fun i => slice (nth i d []) off size) (seq 0 n)).
Proof.
  intros Hd Ho. apply rows_map. intros i Hi. destruct (rows_nth Hd Hi) as [L B]. split; [unfold slice; rewrite firstn_length, skipn_length, L; lia|apply slice_bytes, B].
Qed.
Lemma cut_pair n C off size d R : pair_of n C d R -> off + size <= C ->
  pair_of n size (map (fun i => slice (nth i (fst d) []) off size) (seq 0 n), map (fun i => slice (nth i (snd d) []) off size) (seq 0 n)) (fun t => slice (R t) off size).
Proof.
  intros HP Ho. pose proof HP as (H0 & H1 & E). split; [apply (cut_rows H0 Ho)|]. split; [apply (cut_rows H1 Ho)|]. cbn [fst snd].
  apply nth_ext with [] []; [unfold xor_rows; rewrite map2_length, !map_length, !seq_length; lia|]. intros i Hi. unfold xor_rows in Hi. rewrite map2_length, !map_length, seq_length, Nat.min_id in Hi.
  rewrite (@nth_xor_rows n) by (rewrite ?map_length, ?seq_length; auto). rewrite !nth_map_seq' by exact Hi. cbn [Nat.add]. rewrite <- map2_slice by (rewrite (proj1 (rows_nth H0 Hi)), (proj1 (rows_nth H1 Hi)); reflexivity).
  rewrite (pair_row HP Hi). reflexivity.
Qed.
Lemma gb_bits_ok n C off d R : pair_of n C d R -> off < C -> exists f0 f1, gb_bits off (fst d) = Ok f0 /\ gb_bits off (snd d) = Ok f1 /\ length f0 = n /\ length f1 = n /\
  forall t, t < n -> xorb (nth t f0 false) (nth t f1 false) = N.odd (nth off (R t) 0%N).
Proof.
  intros HP Ho. pose proof HP as (H0 & H1 & _).
  assert (HB : forall m, rows_ok n C m -> gb_bits off m = Ok (map (fun i => N.odd (nth off (nth i m []) 0%N)) (seq 0 n))).
  { intros m Hm. unfold gb_bits. rewrite (rows_map_nth Hm) at 1. rewrite mapM_map. apply mapM_ok. intros i Hi. apply in_seq in Hi.
    rewrite (@get_ok _ _ _ 0%N) by (rewrite (proj1 (rows_nth Hm (k := i) ltac:(lia))); exact Ho). reflexivity. }
  rewrite (HB _ H0), (HB _ H1). eexists _, _. split; [reflexivity|]. split; [reflexivity|]. rewrite !map_length, seq_length. split; [reflexivity|]. split; [reflexivity|].
  intros t Ht. rewrite !nth_map_seq' by exact Ht. cbn [Nat.add]. rewrite <- (pair_row HP Ht). rewrite map2_nth with (da := 0%N) (db := 0%N) by (rewrite ?(proj1 (rows_nth H0 Ht)), ?(proj1 (rows_nth H1 Ht)); exact Ho).
  rewrite <- !N.bit0_odd, N.lxor_spec. reflexivity.
Qed.
Lemma gb_flags_ok n mask o0 o1 f0 f1 : length mask = n -> length o0 = n -> length o1 = n -> length f0 = n -> length f1 = n ->
  exists a b, gb_flags mask (o0, o1) f0 f1 = (a, b) /\ length a = n /\ length b = n /\ bytes a /\ bytes b /\
    forall t, t < n -> N.lxor (nth t a 0%N) (nth t b 0%N) = N.b2n (negb (xbit (nth t o0 0%N) (nth t o1 0%N)) && xorb (nth t f0 false) (nth t f1 false)).
Proof.
  intros Lm L0 L1 F0 F1. unfold gb_flags. cbn [fst snd]. set (v := map2 _ (map2 xbit _ _) _). assert (Lv : length v = n) by (unfold v; rewrite !map2_length; lia).
  eexists _, _. split; [reflexivity|]. rewrite !map_length, map2_length, Lm, Lv, Nat.min_id. split; [reflexivity|]. split; [reflexivity|].
  assert (HB : forall l, bytes (map N.b2n l)) by (intros l; apply Forall_forall; intros x Hx; apply in_map_iff in Hx; destruct Hx as ([|] & <- & _); reflexivity).
  split; [apply HB|]. split; [apply HB|]. intros t Ht. change 0%N with (N.b2n false) at 1 2. rewrite !map_nth. rewrite map2_nth with (da := false) (db := false) by lia.
  assert (Ev : nth t v false = negb (xbit (nth t o0 0%N) (nth t o1 0%N)) && xorb (nth t f0 false) (nth t f1 false)).
  { unfold v. rewrite map2_nth with (da := false) (db := false) by (rewrite map2_length; lia). rewrite !map2_nth with (da := false) (db := false) by lia.
    rewrite map2_nth with (da := 0%N) (db := 0%N) by lia. reflexivity. }
  rewrite Ev. destruct (nth t mask false), (_ && _); reflexivity.
Qed.
Lemma gb_concat2_ok n w kb d grp fl : 0 < n -> rows_ok n w d -> rows_ok n (div_ceil kb 8) grp -> length fl = n -> bytes fl ->
  gb_concat2 w kb d grp fl = Ok (map (fun i => nth i d [] ++ nth i grp [] ++ [nth i fl 0%N]) (seq 0 n)).
Proof.
  intros Hn Hd Hg Lf Bf. unfold gb_concat2. rewrite (proj1 Hd), (proj1 Hg), Lf, Nat.eqb_refl. cbn [negb orb]. set (g := div_ceil kb 8) in *.
  replace (repeat (repeat 0%N (w + g + 1)) n) with (map (fun i : nat => (fun _ => []) i ++ repeat 0%N (w + g + 1)) (seq 0 n)) by (rewrite (repeat_map_seq _ n 0); reflexivity).
  cbn [concat_cols fst snd].
  assert (Ew : div_ceil (w * 8) 8 = w) by (unfold div_ceil; lia).
  rewrite (@write_col_ok n n w) by (try exact Hd; try exact Hn; try reflexivity; try exact Ew; try (unfold bm_n; cbn [bRows]; apply Hd); lia). cbn [bind bRows].
  assert (E1 : map (fun i : nat => [] ++ nth i d (repeat 0%N w) ++ repeat 0%N (w + g + 1 - w)) (seq 0 n) = map (fun i => nth i d [] ++ repeat 0%N (g + 1)) (seq 0 n)).
  { apply map_ext_in. intros i Hi. apply in_seq in Hi. cbn [app]. f_equal; [apply nth_indep; rewrite (proj1 Hd); lia|f_equal; lia]. }
  rewrite E1. assert (L1 : forall i, i < n -> length (nth i d []) = w * 8 / 8) by (intros i Hi; rewrite Nat.div_mul by lia; apply (rows_nth Hd Hi)).
  rewrite (@write_col_ok n n g) by (try exact Hg; try exact Hn; try exact L1; try reflexivity; try (unfold bm_n; cbn [bRows]; apply Hg); try (rewrite Nat.mod_mul; lia); lia). cbn [bind bRows].
  assert (E2 : map (fun i : nat => nth i d [] ++ nth i grp (repeat 0%N g) ++ repeat 0%N (g + 1 - g)) (seq 0 n) = map (fun i => (nth i d [] ++ nth i grp []) ++ repeat 0%N 1) (seq 0 n)).
  { apply map_ext_in. intros i Hi. apply in_seq in Hi. rewrite <- app_assoc. f_equal. f_equal; [apply nth_indep; rewrite (proj1 Hg); lia|f_equal; lia]. }
  rewrite E2. assert (L2 : forall i, i < n -> length (nth i d [] ++ nth i grp []) = (w + g) * 8 / 8).
  { intros i Hi. rewrite Nat.div_mul, app_length by lia. rewrite (proj1 (rows_nth Hd Hi)), (proj1 (rows_nth Hg Hi)). reflexivity. }
  assert (HF : rows_ok n 1 (map (fun x => [x]) fl)).
  { split; [rewrite map_length; exact Lf|]. apply Forall_forall. intros r Hr. apply in_map_iff in Hr. destruct Hr as (x & <- & Hx). split; [reflexivity|]. unfold bytes in Bf. rewrite Forall_forall in Bf. repeat constructor. apply Bf, Hx. }
  rewrite (@write_col_ok n n 1) by (try exact HF; try exact Hn; try exact L2; try reflexivity; try (unfold bm_n; cbn [bRows]; apply HF); try (rewrite Nat.mod_mul; lia); lia). cbn [bind bRows concat_cols].
  f_equal. apply map_ext_in. intros i Hi. apply in_seq in Hi. rewrite <- app_assoc. do 2 f_equal. rewrite app_nil_r.
  rewrite (nth_indep _ _ [0%N]) by (rewrite map_length; lia). rewrite (map_nth (fun x => [x])). reflexivity.
Qed.
Lemma concat2_pair n w g d0 d1 g0 g1 a b X Y Z : pair_of n w (d0, d1) X -> pair_of n g (g0, g1) Y -> length a = n -> length b = n -> bytes a -> bytes b -> (forall t, t < n -> N.lxor (nth t a 0%N) (nth t b 0%N) = Z t) ->
  pair_of n (w + g + 1) (map (fun i => nth i d0 [] ++ nth i g0 [] ++ [nth i a 0%N]) (seq 0 n), map (fun i => nth i d1 [] ++ nth i g1 [] ++ [nth i b 0%N]) (seq 0 n)) (fun t => X t ++ Y t ++ [Z t]).
Proof.
  intros HX HY La Lb Ba Bb HZ. pose proof HX as (D0 & D1 & _). pose proof HY as (G0 & G1 & _). cbn [fst snd] in *.
  assert (HR : forall d gg f, rows_ok n w d -> rows_ok n g gg -> length f = n -> bytes f -> rows_ok n (w + g + 1) (map (fun i => nth i d [] ++ nth i gg [] ++ [nth i f 0%N]) (seq 0 n))).
  { intros d gg f Hd Hg Lf Bf. apply rows_map. intros i Hi. destruct (rows_nth Hd Hi) as [L1 B1], (rows_nth Hg Hi) as [L2 B2]. split; [rewrite !app_length, L1, L2; cbn [length]; lia|].
    apply bytes_app; [exact B1|]. apply bytes_app; [exact B2|]. unfold bytes in Bf. rewrite Forall_forall in Bf. repeat constructor. apply Bf, nth_In. lia. }
  split; [apply HR; assumption|]. split; [apply HR; assumption|]. cbn [fst snd].
  apply nth_ext with [] []; [unfold xor_rows; rewrite map2_length, !map_length, !seq_length; lia|]. intros i Hi. unfold xor_rows in Hi. rewrite map2_length, !map_length, seq_length, Nat.min_id in Hi.
  rewrite (@nth_xor_rows n) by (rewrite ?map_length, ?seq_length; auto). rewrite !nth_map_seq' by exact Hi. cbn [Nat.add].
  rewrite map2_app by (rewrite (proj1 (rows_nth D0 Hi)), (proj1 (rows_nth D1 Hi)); reflexivity). rewrite map2_app by (rewrite (proj1 (rows_nth G0 Hi)), (proj1 (rows_nth G1 Hi)); reflexivity).
  pose proof (pair_row HX Hi) as E1. pose proof (pair_row HY Hi) as E2. cbn [fst snd] in E1, E2. rewrite E1, E2. cbn [map2]. rewrite HZ by exact Hi. reflexivity.
Qed.

(* ---- the aggregation ---- *)
Lemma gb_leaf_full n w old m : rows_ok n w m -> gb_leaf w w old m = m.
Proof.
  intros Hm. unfold gb_leaf. rewrite (proj1 Hm), Nat.sub_diag. transitivity (map (fun i => nth i m []) (seq 0 n)); [|symmetry; apply (rows_map_nth Hm)]. apply map_ext. intros i. unfold slice. cbn [firstn]. apply app_nil_r.
Qed.
Lemma gb_agg_ok n C W ws mask old0 old1 o0 o1 d R : 2 <= n -> fold_right Nat.add 0 ws = 8 * W -> W <= C -> rows_ok n W mask -> length o0 = n -> length o1 = n -> pair_of n C d R ->
  exists a, gb_agg ws W mask old0 old1 (o0, o1) d = Ok a /\
    pair_of n W a (fun t => le_bytes W (agg_range (padd ws) 0%N (map (fun u => le_num (slice (R u) 0 W)) (seq 0 n)) t (blk_end (map2 xbit o0 o1) t))).
Proof.
  intros Hn Ews HW Hm L0 L1 HP. pose proof HP as (H0 & H1 & E). unfold gb_agg. cbn [fst snd]. rewrite Ews. assert (Els : div_ceil (8 * W) 8 = W) by (unfold div_ceil; lia). rewrite Els.
  rewrite E, mapM_map. rewrite (@mapM_ok _ _ _ (fun t => slice (R t) 0 W)) by (intros t Ht; apply in_seq in Ht; apply readN_ok; rewrite (proj1 (pair_val HP (i := t) ltac:(lia))); exact HW). cbn [bind].
  rewrite map_map. set (ctrl := map2 xbit o0 o1). assert (Lc : length ctrl = n) by (unfold ctrl; rewrite map2_length; lia).
  assert (Es : map (fun x : nat => (le_num (slice (R x) 0 W) mod 2 ^ N.of_nat (8 * W))%N) (seq 0 n) = map (fun u => le_num (slice (R u) 0 W)) (seq 0 n)).
  { apply map_ext_in. intros t Ht. apply in_seq in Ht. apply N.mod_small. destruct (pair_val HP (i := t) ltac:(lia)) as [LV BV].
    assert (Lsl : length (slice (R t) 0 W) = W) by (unfold slice; rewrite firstn_length, skipn_length, LV; lia).
    pose proof (@StableSortProofs.le_num_lt (slice (R t) 0 W) (@slice_bytes _ 0 W BV)) as Hlt. rewrite Lsl, pow256 in Hlt. replace (N.of_nat (8 * W)) with (8 * N.of_nat W)%N by lia. exact Hlt. }
  rewrite Es. rewrite (@agg_suffix_ok _ _ _ (padd_assoc ws)) by (rewrite map_length, seq_length; lia). cbn [bind]. rewrite map_length, seq_length, map_map.
  set (V := fun t => le_bytes W _).
  assert (HV : forall t, t < n -> length (V t) = W /\ bytes (V t)) by (intros t _; split; [apply le_bytes_length|apply le_bytes_bytes]).
  eexists. split; [reflexivity|]. pose proof (reshare_pair Hm HV) as HS. pose proof HS as (S0 & S1 & _). rewrite (gb_leaf_full _ S0), (gb_leaf_full _ S1). destruct (reshare mask (map V (seq 0 n))) as [s0 s1]. exact HS.
Qed.

(* ---- the output ---- *)
Lemma gb_out_col_ok n C off w nm ty e V : pair_of n C e V -> off + w <= C -> ty <= 3 ->
  exists c0 c1, gb_out_col (fst e) off w nm ty = Ok c0 /\ gb_out_col (snd e) off w nm ty = Ok c1 /\ col_ok n c0 /\ col_ok n c1 /\ same_info c0 c1 /\
    xor_col c0 c1 = byte_col nm ty w (map (fun i => slice (V i) off w) (seq 0 n)).
Proof.
  intros HP Ho Ht. pose proof HP as (H0 & H1 & _). unfold gb_out_col.
  pose proof (gb_cut_ok H0 Ho) as E0. pose proof (gb_cut_ok H1 Ho) as E1. unfold gb_cut in E0, E1. rewrite E0, E1. cbn [bind]. eexists _, _. split; [reflexivity|]. split; [reflexivity|].
  pose proof (cut_pair HP Ho) as (C0 & C1 & CE). cbn [fst snd] in C0, C1, CE. assert (Ew : div_ceil (w * 8) 8 = w) by (unfold div_ceil; lia).
  assert (HC : forall m, rows_ok n w m -> col_ok n (Col nm ty (w * 8) (BM (w * 8) w m))).
  { intros m Hm. split; [|split; [apply Hm|split; [reflexivity|split; [exact Ht|intros _; cbn [cBits bBits cDat]; apply Nat.mod_mul; lia]]]]. split; [unfold bm_n; cbn [cDat bRows bCols]; rewrite (proj1 Hm); exact Hm|cbn [cDat bCols bBits]; symmetry; exact Ew]. }
  split; [apply HC, C0|]. split; [apply HC, C1|]. split; [repeat split|]. unfold xor_col, with_rows, shared_rows, byte_col. cbn [cName cType cBits cDat bBits bCols bRows]. rewrite CE. reflexivity.
Qed.
Fixpoint cut_cols (n : nat) (V : nat -> list N) (off : nat) (sel : list osel) : list column :=
  match sel with
  | [] => [byte_col [67; 111; 117; 110; 116]%N 0 8 (map (fun i => slice (V i) off 8) (seq 0 n))]
  | s :: sel => byte_col (cName (oCol s)) (cType (oCol s)) (div_ceil (cBits (oCol s)) 8) (map (fun i => slice (V i) off (div_ceil (cBits (oCol s)) 8)) (seq 0 n))
      :: cut_cols n V (off + div_ceil (cBits (oCol s)) 8) sel
  end.
Lemma gb_out_avg_ok n C e V : pair_of n C e V -> forall l0 l1, Forall2 same_info l0 l1 -> Forall (col_ok n) l0 -> forall off, off + left_bits (map (OSel true) l0) / 8 + 8 <= C ->
  exists c0 c1, gb_out_avg (fst e) off (map (OSel true) l0) = Ok c0 /\ gb_out_avg (snd e) off (map (OSel true) l1) = Ok c1 /\ Forall (col_ok n) c0 /\ Forall (col_ok n) c1 /\ Forall2 same_info c0 c1 /\
    map2 xor_col c0 c1 = cut_cols n V off (map (OSel true) l0).
Proof.
  intros HP. induction 1 as [|s0 s1 l0 l1 (En & Et & Eb) Hl IH]; intros F off Hoff.
  - cbn [map left_bits] in Hoff. destruct (@gb_out_col_ok n C off 8 [67; 111; 117; 110; 116]%N 0 e V HP) as (c0 & c1 & E0 & E1 & K0 & K1 & KS & KX); [change (0 / 8) with 0 in Hoff; lia|lia|].
    cbn [map gb_out_avg]. rewrite E0, E1. exists [c0], [c1]. split; [reflexivity|]. split; [reflexivity|]. repeat (split; [constructor; [assumption|constructor]|]). cbn [map2 cut_cols]. rewrite KX. reflexivity.
  - apply Forall_cons_iff in F. destruct F as [F0 F]. cbn [map left_bits oLeft oCol] in Hoff. set (w := div_ceil (cBits s0) 8) in *.
    assert (Hd : (w * 8 + left_bits (map (OSel true) l0)) / 8 = w + left_bits (map (OSel true) l0) / 8) by (rewrite Nat.add_comm, Nat.div_add by lia; lia). rewrite Hd in Hoff.
    destruct F0 as (B0 & N0 & C0 & T0 & M0).
    destruct (@gb_out_col_ok n C off w (cName s0) (cType s0) e V HP) as (c0 & c1 & E0 & E1 & K0 & K1 & KS & KX); [lia|exact T0|].
    destruct (IH F (off + w)) as (d0 & d1 & G0 & G1 & J0 & J1 & JS & JX); [lia|].
    cbn [map gb_out_avg oCol]. rewrite <- En, <- Et, <- Eb. fold w. rewrite E0, E1. cbn [bind]. rewrite G0, G1. cbn [bind]. exists (c0 :: d0), (c1 :: d1). split; [reflexivity|]. split; [reflexivity|].
    split; [constructor; assumption|]. split; [constructor; assumption|]. split; [constructor; assumption|]. cbn [map2 cut_cols oCol]. fold w. rewrite KX, JX. reflexivity.
Qed.

Definition sum_of (ws : list nat) : nat := fold_right Nat.add 0 ws.
Lemma sum_app a b : sum_of (a ++ b) = sum_of a + sum_of b.
Proof. induction a as [|x a IH]; [reflexivity|]. cbn [app sum_of fold_right]. fold (sum_of (a ++ b)) (sum_of a). rewrite IH. lia. Qed.
Lemma whole_bytes b : b mod 8 = 0 -> div_ceil b 8 = b / 8 /\ b = 8 * (b / 8).
Proof. unfold div_ceil. lia. Qed.
Lemma cut_sums n ws V D (m : nat -> list nat) :
  (forall i off w, i < n -> (exists pre post, ws = pre ++ 8 * w :: post /\ sum_of pre = 8 * off) -> slice (V i) off w = le_bytes w (total (fun j => le_num (slice (D j) off w)) (m i))) ->
  (forall i j, i < n -> In j (m i) -> j < n) ->
  forall a0 a1, Forall2 (fun s0 s1 => same_info (snd s0) (snd s1)) a0 a1 -> Forall (fun s => fst s = true /\ col_ok n (snd s)) a0 -> Forall (fun s => fst s = true /\ col_ok n (snd s)) a1 ->
  Forall (fun s => cBits (snd s) mod 8 = 0) a0 -> forall pre off, sum_of pre = 8 * off -> ws = pre ++ map (fun s => cBits (snd s)) a0 ++ [64] ->
  (forall j, j < n -> exists P Q, length P = off /\ D j = P ++ xl (map (fun s => OSel true (snd s)) a0) (map (fun s => OSel true (snd s)) a1) j ++ le_bytes 8 1 ++ Q) ->
  cut_cols n V off (map (fun s => OSel true (snd s)) a0) =
  map2 (gb_sum_col m (seq 0 n)) a0 a1 ++ [byte_col [67; 111; 117; 110; 116]%N 0 8 (map (fun i => le_bytes 8 (N.of_nat (length (m i)))) (seq 0 n))].
Proof.
  intros HV Hm. induction 1 as [|s0 s1 a0 a1 Hs Hl IH]; intros F0 F1 FB pre off Ep Ews HD.
  - cbn [map cut_cols map2 app]. do 2 f_equal. apply map_ext_in. intros i Hi. apply in_seq in Hi. assert (Hin : i < n) by lia. rewrite (HV i off 8 Hin) by (exists pre, []; split; [exact Ews|exact Ep]).
    f_equal. rewrite <- total_one. apply total_ext. intros j Hj. destruct (HD j (Hm i j Hin Hj)) as (P & Q & LP & EQ). cbn [map] in EQ. unfold xl, lpart in EQ. cbn [filter map concat map2 app] in EQ.
    rewrite EQ, <- LP. rewrite slice_mid by reflexivity. reflexivity.
  - apply Forall_cons_iff in F0, F1, FB. destruct F0 as [[_ C0] F0], F1 as [[_ C1] F1], FB as [B0 FB]. cbn [map cut_cols map2 app oCol].
    destruct (whole_bytes B0) as [Ew Eb]. set (w := div_ceil (cBits (snd s0)) 8) in *.
    assert (HX : forall j, xl (map (fun s => OSel true (snd s)) (s0 :: a0)) (map (fun s => OSel true (snd s)) (s1 :: a1)) j =
      lrow n (OSel true (snd s0)) (OSel true (snd s1)) j ++ xl (map (fun s => OSel true (snd s)) a0) (map (fun s => OSel true (snd s)) a1) j).
    { intros j. cbn [map]. rewrite (@xl_cons n n); [reflexivity|split; [reflexivity|exact Hs]|exact C0|exact C1]. }
    assert (HL : forall j, length (lrow n (OSel true (snd s0)) (OSel true (snd s1)) j) = w).
    { intros j. apply (@lrow_len n n); [split; [reflexivity|exact Hs]|exact C0|exact C1|reflexivity]. }
    f_equal.
    + unfold gb_sum_col. fold w. f_equal. apply map_ext_in. intros i Hi. apply in_seq in Hi. assert (Hin : i < n) by lia.
      rewrite (HV i off w Hin) by (exists pre, (map (fun s => cBits (snd s)) a0 ++ [64]); split; [rewrite Ews; cbn [map app]; rewrite Ew, <- Eb; reflexivity|exact Ep]).
      f_equal. apply total_ext. intros j Hj. pose proof (Hm i j Hin Hj) as Hjn. destruct (HD j Hjn) as (P & Q & LP & EQ). rewrite EQ, HX, <- app_assoc, <- LP, slice_mid by apply HL.
      unfold lrow. cbn [oCol]. apply Nat.ltb_lt in Hjn. rewrite Hjn. reflexivity.
    + apply (IH F0 F1 FB (pre ++ [cBits (snd s0)]) (off + w)).
      * rewrite sum_app, Ep. cbn [sum_of fold_right]. lia.
      * rewrite Ews, <- app_assoc. reflexivity.
      * intros j Hj. destruct (HD j Hj) as (P & Q & LP & EQ). exists (P ++ lrow n (OSel true (snd s0)) (OSel true (snd s1)) j), Q. split; [rewrite app_length, LP, HL; reflexivity|].
        rewrite EQ, HX, <- !app_assoc. reflexivity.
Qed.

(* ---- the protocol ---- *)
Section Core.
Variables (enc : list N -> list N) (n kb : nat) (q0 q1 : gb_query).
Hypothesis HQ : gb_queries_ok n kb q0 q1.
Hypothesis HE : gb_enc_ok n kb enc.
Let G := gb_keys q0 q1.
Let A := gb_act q0 q1.
Hypothesis HG : forall i, i < n -> (le_num (nth i G []) < 2 ^ N.of_nat kb)%N.
Hypothesis HT : gb_told n kb G A enc.
Let K := gb_seen_row n kb enc G A.

Lemma gb_G_rows : rows_ok n (div_ceil kb 8) G.
Proof.
  destruct HQ as ((C0 & E0 & _) & (C1 & E1 & _) & _). destruct (col_rows C0) as [R0 _], (col_rows C1) as [R1 _]. rewrite E0 in R0. rewrite E1 in R1. apply (xor_rows_ok R0 R1).
Qed.
Lemma gb_K_rows : rows_ok n (div_ceil (Nat.min (kb + 1) (gb_comp n)) 8) (map K (seq 0 n)).
Proof. apply rows_map. intros i _. apply (gb_seen_row_ok G A i HE). Qed.
Lemma gb_num_same i j : i < n -> j < n -> (gb_num kb G A i = gb_num kb G A j <-> same_key G i j = true /\ A i = A j).
Proof.
  intros Hi Hj. unfold same_key. rewrite row_eq_iff. split.
  - intros E. destruct (gb_num_inj (HG Hi) (HG Hj) E) as [E1 E2]. split; [|exact E2]. destruct (rows_nth gb_G_rows Hi) as [L1 B1], (rows_nth gb_G_rows Hj) as [L2 B2].
    apply le_num_inj; congruence || assumption.
  - intros [E1 E2]. unfold gb_num. rewrite E1, E2. reflexivity.
Qed.
Lemma gb_K_same i j : i < n -> j < n -> row_eq (K i) (K j) = same_key G i j && Bool.eqb (A i) (A j).
Proof.
  intros Hi Hj. apply Bool.eq_iff_eq_true. rewrite row_eq_iff, Bool.andb_true_iff, Bool.eqb_true_iff, <- gb_num_same by assumption. split.
  - intros E. apply (f_equal le_num) in E. unfold K in E. rewrite !gb_seen_num in E by (apply HG; assumption).
    destruct (HT Hi Hj) as [H|(z & _ & H)]; [rewrite E; reflexivity|exact H|rewrite E in H; lia].
  - intros E. unfold K, gb_seen_row. rewrite E. reflexivity.
Qed.

Section Sorted.
Variables (p q : list nat) (ctrl : list bool).
Hypothesis HS : sorts n (fun i => le_num (nth i (map K (seq 0 n)) [])) p.
Hypothesis Hq : is_perm n q.
Hypothesis pq : forall t, t < n -> nth (nth t q 0) p 0 = t.
Hypothesis qp : forall i, i < n -> nth (nth i p 0) q 0 = i.
Hypothesis Lc : length ctrl = n.
Hypothesis Hc : forall t, t < n -> nth t ctrl false = true <-> 0 < t /\ agree (gb_compared n kb) (K (nth (t - 1) q 0)) (K (nth t q 0)).
Lemma gb_nthK i : i < n -> nth i (map K (seq 0 n)) [] = K i.
Proof. intros Hi. apply nth_map_seq'. exact Hi. Qed.
Lemma gb_ctrl t : t < n -> nth t ctrl false = (0 <? t) && row_eq (nth (nth (t - 1) q 0) (map K (seq 0 n)) []) (nth (nth t q 0) (map K (seq 0 n)) []).
Proof.
  intros Ht. apply Bool.eq_iff_eq_true. rewrite (Hc Ht), Bool.andb_true_iff, Nat.ltb_lt. split; intros [H0 H]; (split; [exact H0|]).
  - assert (Ht1 : t - 1 < n) by lia. pose proof (q_lt Hq Ht) as H1. pose proof (q_lt Hq Ht1) as H2.
    pose proof (fun z Hz => @sorted_adjacent n _ _ p q gb_K_rows HS Hq pq qp t z H0 Ht Hz) as Hadj. rewrite !gb_nthK in * by assumption.
    destruct (@gb_seen_row_ok n kb enc G A (nth (t - 1) q 0) HE) as [_ BK1]. destruct (@gb_seen_row_ok n kb enc G A (nth t q 0) HE) as [_ BK2].
    apply agree_mod in H; [|exact BK1|exact BK2]. unfold K in H. rewrite !gb_seen_num in H by (apply HG; assumption).
    rewrite gb_K_same by assumption. rewrite Bool.andb_true_iff, Bool.eqb_true_iff. apply gb_num_same; [assumption|assumption|].
    destruct (HT H2 H1 H) as [E|(z & Hz & HB)]; [exact E|]. exfalso. destruct (Hadj z Hz) as [X Y]. rewrite gb_nthK in X, Y by exact Hz. unfold K in X, Y. rewrite !gb_seen_num in X, Y by (apply HG; assumption).
    destruct HB as [HB|HB]; [apply X, HB|apply Y, HB].
  - assert (Ht1 : t - 1 < n) by lia. pose proof (q_lt Hq Ht) as H1. pose proof (q_lt Hq Ht1) as H2. rewrite !gb_nthK in H by assumption. apply row_eq_iff in H. rewrite H. intros j _. reflexivity.
Qed.
Lemma gb_rows_of i : i < n -> Permutation (map (fun u => nth u q 0) (seq (nth i p 0) (blk_end ctrl (nth i p 0) - nth i p 0))) (gb_rest n G A i).
Proof.
  intros Hi. destruct (nthp (proj1 HS) Hi) as [_ Hp]. pose proof (@blk_perm n _ _ p q ctrl gb_K_rows HS Hq pq qp Lc gb_ctrl (nth i p 0) Hp) as H. rewrite qp in H by exact Hi.
  etransitivity; [exact H|]. unfold gb_rest. erewrite filter_ext_in; [reflexivity|]. intros j Hj. apply in_seq in Hj. rewrite !gb_nthK by lia. apply gb_K_same; lia.
Qed.
Lemma gb_lead i : i < n -> negb (nth (nth i p 0) ctrl false) && A i = gb_leader G A i.
Proof.
  intros Hi. destruct (nthp (proj1 HS) Hi) as [_ Hp]. pose proof (@blk_lead n _ _ p q ctrl gb_K_rows HS Hq pq qp Lc gb_ctrl (nth i p 0) Hp) as H. rewrite qp in H by exact Hi.
  unfold gb_leader. rewrite Bool.andb_comm. destruct (A i) eqn:EA; [|reflexivity]. cbn [andb]. apply Bool.eq_iff_eq_true. rewrite Bool.negb_true_iff, H, forallb_forall. split.
  - intros HJ j Hj. apply in_seq in Hj. rewrite Bool.negb_true_iff. destruct (same_key G j i && A j) eqn:E; [|reflexivity]. exfalso. apply (HJ j); [lia|]. rewrite !gb_nthK by lia. apply row_eq_iff.
    rewrite gb_K_same by lia. apply andb_prop in E. destruct E as [E1 E2]. rewrite E1, E2, EA. reflexivity.
  - intros HJ j Hj E. specialize (HJ j ltac:(apply in_seq; lia)). rewrite !gb_nthK in E by lia. apply row_eq_iff in E. rewrite gb_K_same in E by lia. apply andb_prop in E. destruct E as [E1 E2].
    apply Bool.eqb_prop in E2. rewrite EA in E2. rewrite E1, E2 in HJ. discriminate HJ.
Qed.
End Sorted.
End Core.

Lemma same_sel_gb l0 l1 : Forall2 (fun s0 s1 : bool * column => same_info (snd s0) (snd s1)) l0 l1 -> Forall2 same_sel (map (fun s => OSel true (snd s)) l0) (map (fun s => OSel true (snd s)) l1).
Proof. induction 1 as [|a b l0 l1 H HF IH]; [constructor|]. constructor; [split; [reflexivity|exact H]|exact IH]. Qed.
Lemma same_info_snd l0 l1 : Forall2 (fun s0 s1 : bool * column => same_info (snd s0) (snd s1)) l0 l1 -> Forall2 same_info (map snd l0) (map snd l1).
Proof. induction 1 as [|a b l0 l1 H HF IH]; [constructor|]. constructor; assumption. Qed.
Lemma sizes_sum (a : list (bool * column)) : Forall (fun s => cBits (snd s) mod 8 = 0) a -> sum_of (map (fun s => cBits (snd s)) a) = 8 * (left_bits (map (fun s => OSel true (snd s)) a) / 8).
Proof.
  induction a as [|s a IH]; intros H; [reflexivity|]. apply Forall_cons_iff in H. destruct H as [H0 H]. cbn [map left_bits oLeft oCol sum_of fold_right]. fold (sum_of (map (fun s => cBits (snd s)) a)).
  rewrite (IH H). destruct (whole_bytes H0) as [E1 E2]. rewrite E1. rewrite (Nat.add_comm (_ * 8)), Nat.div_add by lia. lia.
Qed.

Lemma gb_run_ok enc n kb q0 q1 rd : 2 <= n -> gb_queries_ok n kb q0 q1 -> gb_enc_ok n kb enc -> gb_rand_ok n q0 rd ->
  Forall (fun s => cBits (snd s) mod 8 = 0) (gAvg q0) ->
  (forall i, i < n -> (le_num (nth i (gb_keys q0 q1) []) < 2 ^ N.of_nat kb)%N) -> gb_told n kb (gb_keys q0 q1) (gb_act q0 q1) enc ->
  exists t0 t1, gb_run enc q0 q1 rd = Ok (t0, t1) /\
    shares_of n t0 t1 (map (fun i => N.b2n (gb_leader (gb_keys q0 q1) (gb_act q0 q1) i)) (seq 0 n))
      (gb_cols (gb_rest n (gb_keys q0 q1) (gb_act q0 q1)) (seq 0 n) q0 q1).
Proof.
  intros Hn HQ HE Hrd HB HG HT. assert (Hn0 : 0 < n) by lia. pose proof HQ as (Q0 & Q1 & HI & HS0). pose proof (gb_load_shared HQ HE HG) as HPK.
  pose proof (gb_load_ok enc Q0) as EK0. pose proof (gb_load_ok enc Q1) as EK1. unfold gb_run. rewrite EK0, EK1. cbn [bind].
  pose proof Q0 as (C0 & Ekb0 & FA0 & LA0 & BA0). pose proof Q1 as (C1 & Ekb1 & FA1 & LA1 & BA1).
  assert (En0 : gb_rows q0 = n) by apply C0. assert (En1 : gb_rows q1 = n) by apply C1.
  assert (Eks : gb_key_size q0 = Nat.min (kb + 1) (gb_comp n)) by (unfold gb_key_size; rewrite Ekb0, En0; reflexivity).
  assert (Eks1 : gb_key_size q1 = Nat.min (kb + 1) (gb_comp n)) by (unfold gb_key_size; rewrite Ekb1, En1; reflexivity).
  destruct Hrd as (M1 & M2 & M3 & M4 & M5). rewrite Ekb0 in *. rewrite Eks in *. set (ks := Nat.min (kb + 1) (gb_comp n)) in *. set (kc := div_ceil ks 8) in *. set (g := div_ceil kb 8) in *.
  set (G := gb_keys q0 q1) in *. set (A := gb_act q0 q1) in *. set (K := gb_seen_row n kb enc G A) in *.
  assert (Hks : 0 < ks) by (unfold ks, gb_comp; lia).
  pose proof HPK as (HK0 & HK1 & EKK). cbn [fst snd] in HK0, HK1, EKK.
  destruct (@om_sort_ok n kc (BM ks kc (map (party_key n kb enc q0) (seq 0 n))) (BM ks kc (map (party_key n kb enc q1) (seq 0 n)))) as (p & -> & HS); [apply HK0|reflexivity|exact HK0|exact HK1|].
  cbn [bRows] in HS. rewrite EKK in HS. cbn [bind]. pose proof (proj1 HS) as Hp. destruct (perm_inv_ex Hp) as (q & Hq & Hqp & Hpq).
  pose proof (same_sel_gb HS0) as HSel. fold (gb_sel q0) (gb_sel q1) in HSel. destruct (same_left_offs HSel) as [Eo Elb].
  assert (HKr : forall qq, rows_ok n kc (map (party_key n kb enc qq) (seq 0 n)) -> forall i, i < n -> length (party_key n kb enc qq i) = kc /\ bytes (party_key n kb enc qq i)).
  { intros qq H i Hi. pose proof (rows_nth H Hi) as X. rewrite nth_map_seq' in X by exact Hi. exact X. }
  pose proof (@gb_concat_ok false n kb q0 (gb_offsets q0) (party_key n kb enc q0) ks Hn0 Q0 (eq_sym Eks) eq_refl (HKr _ HK0)) as EC0. fold kc in EC0. rewrite EC0. cbn [bind].
  assert (Eoff : gb_offsets q0 = gb_offsets q1).
  { unfold gb_offsets. rewrite Eo, Elb, Ekb0, Ekb1, Eks, Eks1. reflexivity. }
  pose proof (@gb_concat_ok true n kb q1 (gb_offsets q0) (party_key n kb enc q1) ks Hn0 Q1 (eq_sym Eks1) Eoff (HKr _ HK1)) as EC1. fold kc in EC1. rewrite EC1. cbn [bind]. clear EC0 EC1.
  set (W := gb_width q0) in *. assert (EW : W = left_bits (gb_sel q0) / 8 + 8) by reflexivity.
  set (D := fun i => xl (gb_sel q0) (gb_sel q1) i ++ le_bytes 8 1 ++ nth i G [] ++ K i ++ [N.lxor (nth i (gAct q0) 0%N) (nth i (gAct q1) 0%N)]).
  pose proof (gb_sel_ok FA0) as FS0. pose proof (gb_sel_ok FA1) as FS1. fold (gb_sel q0) in FS0. fold (gb_sel q1) in FS1.
  pose proof (col_rows C0) as [RG0 _]. pose proof (col_rows C1) as [RG1 _]. rewrite Ekb0 in RG0. rewrite Ekb1 in RG1. fold g in RG0, RG1.
  assert (HGr : rows_ok n g G) by (apply (xor_rows_ok RG0 RG1)).
  assert (Lxl : forall j, length (xl (gb_sel q0) (gb_sel q1) j) = left_bits (gb_sel q0) / 8).
  { intros j. unfold xl. rewrite map2_length, (proj1 (lpart_len j FS0)), (proj1 (lpart_len j FS1)), <- Elb. apply Nat.min_id. }
  assert (HD : pair_of n (W + g + kc + 1) (map (gb_party_row false q0 (party_key n kb enc q0)) (seq 0 n), map (gb_party_row true q1 (party_key n kb enc q1)) (seq 0 n)) D).
  { assert (HR : forall role qq, Forall (sel_ok n n) (gb_sel qq) -> left_bits (gb_sel qq) / 8 + 8 = W -> rows_ok n kc (map (party_key n kb enc qq) (seq 0 n)) -> rows_ok n g (bRows (cDat (gKey qq))) ->
      length (gAct qq) = n -> bytes (gAct qq) -> rows_ok n (W + g + kc + 1) (map (gb_party_row role qq (party_key n kb enc qq)) (seq 0 n))).
    { intros role qq Fs Ew Hk Hg La Ba. apply rows_map. intros i Hi. unfold gb_party_row. destruct (lpart_len i Fs) as [Ll Bl]. destruct (HKr _ Hk i Hi) as [Lk Bk]. destruct (rows_nth Hg Hi) as [Lg Bg]. split.
      - rewrite !app_length, Ll, Lk, Lg. cbn [length]. rewrite repeat_length. lia.
      - apply bytes_app; [exact Bl|]. apply bytes_app; [destruct role; repeat constructor|]. apply bytes_app; [exact Bg|]. apply bytes_app; [exact Bk|].
        unfold bytes in Ba. rewrite Forall_forall in Ba. repeat constructor. apply Ba, nth_In. lia. }
    unfold pair_of. cbn [fst snd]. split; [apply HR; auto|]. split; [apply HR; auto; rewrite <- Elb; reflexivity|].
    apply nth_ext with [] []; [unfold xor_rows; rewrite map2_length, !map_length; lia|]. intros i Hi. unfold xor_rows in Hi. rewrite map2_length, !map_length, seq_length, Nat.min_id in Hi.
    rewrite (@nth_xor_rows n) by (rewrite ?map_length, ?seq_length; auto). rewrite !nth_map_seq' by exact Hi. cbn [Nat.add]. unfold gb_party_row, D, xl.
    rewrite map2_app by (rewrite (proj1 (lpart_len i FS0)), (proj1 (lpart_len i FS1)), Elb; reflexivity). f_equal.
    rewrite map2_app by reflexivity. f_equal. rewrite map2_app by (rewrite (proj1 (rows_nth RG0 Hi)), (proj1 (rows_nth RG1 Hi)); reflexivity).
    f_equal; [unfold G, gb_keys, shared_rows; rewrite (@nth_xor_rows n) by (try apply RG0; try apply RG1; exact Hi); reflexivity|].
    rewrite map2_app by (rewrite (proj1 (HKr _ HK0 i Hi)), (proj1 (HKr _ HK1 i Hi)); reflexivity). f_equal.
    pose proof (pair_row HPK Hi) as X. cbn [fst snd] in X. rewrite !nth_map_seq' in X by exact Hi. exact X. }
  destruct (om_perm_inv_ok Hp Hq Hqp M1 HD) as (d & -> & Hd). cbn [bind]. pose proof Hd as (Hd0 & Hd1 & _).
  rewrite (@gb_cut_ok n (W + g + kc + 1) W g (fst d)) by (try assumption; lia). rewrite (@gb_cut_ok n (W + g + kc + 1) W g (snd d)) by (try assumption; lia).
  rewrite (@gb_cut_ok n (W + g + kc + 1) (W + g) kc (fst d)) by (try assumption; lia). rewrite (@gb_cut_ok n (W + g + kc + 1) (W + g) kc (snd d)) by (try assumption; lia). cbn [bind].
  pose proof (@cut_pair n _ W g d _ Hd ltac:(lia)) as HCG. pose proof (@cut_pair n _ (W + g) kc d _ Hd ltac:(lia)) as HCK.
  destruct (@gb_bits_ok n _ (W + g + kc) d _ Hd ltac:(lia)) as (f0 & f1 & -> & -> & Lf0 & Lf1 & Hf). cbn [bind].
  set (gg0 := map (fun i => slice (nth i (fst d) []) W g) (seq 0 n)) in *. set (gg1 := map (fun i => slice (nth i (snd d) []) W g) (seq 0 n)) in *.
  destruct (@om_control_ok n kc ks 0 (bCtrl rd) _ _ Hks Hn0 ltac:(fold kc; lia) M2 HCK) as (o0 & o1 & -> & Lo0 & Lo1 & Hctl). cbn [bind].
  assert (Lone : length (le_bytes 8 1) = 8) by reflexivity. assert (LK : forall j, length (K j) = kc) by (intros j; apply (gb_seen_row_ok G A j HE)).
  assert (HDg : forall j, j < n -> slice (D j) W g = nth j G []).
  { intros j Hj. unfold D. rewrite app_assoc. replace W with (length (xl (gb_sel q0) (gb_sel q1) j ++ le_bytes 8 1)) by (rewrite app_length, Lxl, Lone; exact (eq_sym EW)). apply slice_mid, (rows_nth HGr Hj). }
  assert (HDk : forall j, j < n -> slice (D j) (W + g) kc = K j).
  { intros j Hj. unfold D. rewrite app_assoc, (app_assoc _ (nth j G [])). replace (W + g) with (length ((xl (gb_sel q0) (gb_sel q1) j ++ le_bytes 8 1) ++ nth j G [])) by (rewrite !app_length, Lxl, Lone, (proj1 (rows_nth HGr Hj)); rewrite EW; reflexivity).
    apply slice_mid, LK. }
  assert (HDf : forall j, j < n -> nth (W + g + kc) (D j) 0%N = N.lxor (nth j (gAct q0) 0%N) (nth j (gAct q1) 0%N)).
  { intros j Hj. unfold D. rewrite app_assoc, (app_assoc _ (nth j G [])), (app_assoc _ (K j)). rewrite app_nth2; rewrite !app_length, Lxl, Lone, (proj1 (rows_nth HGr Hj)), LK; [|lia].
    replace (W + g + kc - _) with 0 by lia. reflexivity. }
  set (ctrl := map2 xbit o0 o1). assert (Lc : length ctrl = n) by (unfold ctrl; rewrite map2_length; lia).
  assert (Hc : forall t, t < n -> nth t ctrl false = true <-> 0 < t /\ agree (gb_compared n kb) (K (nth (t - 1) q 0)) (K (nth t q 0))).
  { intros t Ht. unfold ctrl. rewrite map2_nth with (da := 0%N) (db := 0%N) by lia. rewrite (Hctl t Ht). unfold gb_compared. fold ks kc.
    assert (Es : forall u, u < n -> slice (slice (D (nth u q 0)) (W + g) kc) 0 kc = K (nth u q 0)).
    { intros u Hu. pose proof (q_lt Hq Hu) as Hqu. rewrite HDk by exact Hqu. unfold slice. cbn [skipn]. apply firstn_all2. rewrite LK. lia. }
    split; intros [X Y]; (split; [exact X|]); [rewrite <- !Es by lia; exact Y|rewrite !Es by lia; exact Y]. }
  assert (Hsum : fold_right Nat.add 0 (gb_sizes q0) = 8 * W).
  { fold (sum_of (gb_sizes q0)). unfold gb_sizes. rewrite sum_app, (sizes_sum HB). fold (gb_sel q0). change (sum_of [64]) with 64. lia. }
  rewrite Hsum in M3. assert (Els : div_ceil (8 * W) 8 = W) by (clear; unfold div_ceil; lia). rewrite Els in M3. clear Els.
  destruct (@gb_agg_ok n (W + g + kc + 1) W (gb_sizes q0) (bAgg rd) (concat (map (gb_party_row false q0 (party_key n kb enc q0)) (seq 0 n))) (concat (map (gb_party_row true q1 (party_key n kb enc q1)) (seq 0 n))) o0 o1 d _ Hn Hsum ltac:(lia) M3 Lo0 Lo1 Hd) as (a & -> & Ha).
  cbn [bind]. fold ctrl in Ha. set (X := fun t => le_bytes W _) in Ha.
  destruct (gb_flags_ok M4 Lo0 Lo1 Lf0 Lf1) as (fa & fb & -> & La & Lb & Ba & Bb & Hfl). cbn [fst snd].
  destruct a as [a0 a1]. pose proof Ha as (Ha0 & Ha1 & _). pose proof HCG as (HCG0 & HCG1 & _). cbn [fst snd] in *.
  rewrite (@gb_concat2_ok n W kb _ _ _ Hn0 Ha0 HCG0 La Ba), (@gb_concat2_ok n W kb _ _ _ Hn0 Ha1 HCG1 Lb Bb). cbn [bind].
  pose proof (@concat2_pair n W g _ _ _ _ _ _ _ _ _ Ha HCG La Lb Ba Bb Hfl) as HE2. cbv beta in HE2.
  destruct (om_perm_reg_ok Hp M5 HE2) as (e & -> & He). cbn [bind]. clear HE2 Ha HCG HCK HCG0 HCG1 Ha0 Ha1.
  set (V := fun i => _) in He.
  assert (HpL : forall i, i < n -> nth i p 0 < n) by (intros i Hi; apply (nthp Hp Hi)).
  assert (EV : forall i, i < n -> V i = X (nth i p 0) ++ nth i G [] ++ [N.b2n (gb_leader G A i)]).
  { intros i Hi. unfold V. rewrite Hqp by exact Hi. rewrite HDg by exact Hi. do 2 f_equal. f_equal. f_equal. rewrite (Hf _ (HpL i Hi)), Hqp, HDf by exact Hi.
    pose proof (gb_lead HQ HE HG HT HS Hq Hpq Hqp Lc Hc Hi) as EL. fold G A in EL. rewrite <- EL. fold (A i). f_equal. f_equal. unfold ctrl. rewrite map2_nth with (da := 0%N) (db := 0%N) by (rewrite ?Lo0, ?Lo1; apply HpL, Hi). reflexivity. }
  assert (LX : forall t, length (X t) = W) by (intros t; apply le_bytes_length).
  destruct (@gb_out_avg_ok n _ e V He (map snd (gAvg q0)) (map snd (gAvg q1)) (same_info_snd HS0)) with (off := 0) as (c0 & c1 & E0 & E1 & J0 & J1 & JS & JX).
  { rewrite Forall_forall in *. intros x Hx. apply in_map_iff in Hx. destruct Hx as (s & <- & Hs). apply (FA0 s Hs). }
  { rewrite map_map. fold (gb_sel q0). lia. }
  rewrite !map_map in E0, E1, JX. fold (gb_sel q0) in E0, JX. fold (gb_sel q1) in E1.
  destruct C0 as (B0 & N0 & Cb0 & T0 & M0). pose proof HI as (En & Et & Eb).
  destruct (@gb_out_col_ok n _ W g (cName (gKey q0)) (cType (gKey q0)) e V He ltac:(lia) T0) as (k0 & k1 & F0 & F1 & L0 & L1 & LS & LX1).
  pose proof He as (He0 & He1 & _).
  assert (HA : forall dd, rows_ok n (W + g + 1) dd -> mapM (fun r => get r (W + g)) dd = Ok (map (fun r => nth (W + g) (nth r dd []) 0%N) (seq 0 n))).
  { intros dd Hdd. rewrite (rows_map_nth Hdd) at 1. rewrite mapM_map. apply mapM_ok. intros r Hr. apply in_seq in Hr. apply get_ok. rewrite (proj1 (rows_nth Hdd (k := r) ltac:(lia))). lia. }
  unfold gb_output. fold W. rewrite Ekb0, Ekb1. fold g. assert (EW1 : gb_width q1 = W) by (unfold gb_width; rewrite <- Elb; reflexivity). rewrite EW1, <- En, <- Et.
  rewrite E0, F0, E1, F1. cbn [bind]. rewrite (HA _ He0), (HA _ He1). cbn [bind]. eexists _, _. split; [reflexivity|].
  unfold shares_of. cbn [tCols tAct]. rewrite !map_length, seq_length.
  split; [constructor; assumption|]. split; [constructor; assumption|]. split; [constructor; assumption|]. split; [reflexivity|]. split; [reflexivity|]. split.
  - apply nth_ext with 0%N 0%N; [rewrite map2_length, !map_length; lia|]. intros r Hr. rewrite map2_length, !map_length, seq_length, Nat.min_id in Hr.
    rewrite map2_nth with (da := 0%N) (db := 0%N) by (rewrite map_length, seq_length; exact Hr). rewrite !nth_map_seq' by exact Hr. cbn [Nat.add].
    pose proof (pair_row He Hr) as H. apply (f_equal (fun l => nth (W + g) l 0%N)) in H.
    rewrite map2_nth with (da := 0%N) (db := 0%N) in H by (rewrite ?(proj1 (rows_nth He0 Hr)), ?(proj1 (rows_nth He1 Hr)); lia).
    rewrite H, (EV r Hr), app_assoc. rewrite app_nth2; rewrite app_length, LX, (proj1 (rows_nth HGr Hr)); [|lia]. rewrite Nat.sub_diag. reflexivity.
  - cbn [map2]. rewrite LX1, JX. unfold gb_cols. rewrite Ekb0. fold g. f_equal.
    + f_equal. apply map_ext_in. intros i Hi. apply in_seq in Hi. rewrite EV by lia. rewrite <- (LX (nth i p 0)) at 1. apply slice_mid. apply (rows_nth HGr). lia.
    + unfold gb_sel. apply (@cut_sums n (gb_sizes q0) V D (gb_rest n G A)) with (pre := []); try assumption; try reflexivity.
      * intros i off w Hi (pre & post & Ews & Epre). pose proof Hsum as Hsum'. fold (sum_of (gb_sizes q0)) in Hsum'. rewrite Ews, sum_app in Hsum'. cbn [sum_of fold_right] in Hsum'. fold (sum_of post) in Hsum'. rewrite Epre in Hsum'.
        assert (Hb : off + w <= W) by lia. rewrite EV by exact Hi.
        assert (Esl : forall (x y : list N) W', length x = W' -> off + w <= W' -> slice (x ++ y) off w = slice x off w).
        { intros x y W' Lx Hx. unfold slice. rewrite skipn_app, firstn_app, skipn_length. replace (w - (length x - off)) with 0 by lia. rewrite firstn_O. apply app_nil_r. }
        rewrite (Esl _ _ W) by (try apply LX; exact Hb). unfold X. rewrite Ews.
        assert (Ew8 : 8 * w / 8 = w) by (rewrite Nat.mul_comm, Nat.div_mul; lia).
        pose proof (@padd_field pre off (8 * w) W post (fun u => slice (D (nth u q 0)) 0 W) n (nth i p 0) (blk_end ctrl (nth i p 0)) Epre) as PF. rewrite Ew8 in PF.
        rewrite PF.
        -- f_equal. rewrite <- (total_Permutation _ (gb_rows_of HQ HE HG HT HS Hq Hpq Hqp Lc Hc Hi)), total_map. apply total_ext. intros u Hu. apply in_seq in Hu. f_equal.
           pose proof (@blk_end_le ctrl (nth i p 0) n Lc (HpL i Hi)) as Hend. assert (Hu2 : u < n) by lia.
           assert (LD : W <= length (D (nth u q 0))) by (rewrite (proj1 (pair_val Hd Hu2)); lia).
           rewrite <- (firstn_skipn W (D (nth u q 0))) at 2. rewrite (Esl _ _ W) by (try exact Hb; rewrite firstn_length; lia). reflexivity.
        -- reflexivity.
        -- exact Hb.
        -- apply blk_end_gt.
        -- apply blk_end_le; [exact Lc|apply HpL, Hi].
        -- intros u Hu. destruct (pair_val Hd Hu) as [LD BD]. split; [apply slice_bytes, BD|]. unfold slice. rewrite firstn_length, skipn_length, LD. lia.
      * intros i j Hi Hj. unfold gb_rest in Hj. apply filter_In in Hj. destruct Hj as [Hj _]. apply in_seq in Hj. lia.
      * intros j Hj. exists [], (nth j G [] ++ K j ++ [N.lxor (nth j (gAct q0) 0%N) (nth j (gAct q1) 0%N)]). split; reflexivity.
Qed.
