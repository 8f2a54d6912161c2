From Verif Require Import Base Words PermModel PermSpec PermProofs PermCorProofs KeyMultModel ShuffleModel ShuffleSpec RadixModel RadixSpec RadixSortProofs StableSortProofs GmwModel GmwSpec AggModel AggSpec AggTreeProofs AggProofs
  TableModel TableSpec TrimProofs TableProofs TableSortProofs
  TableOpsSpec JoinProofs AverageProofs BitInjProofs OmJoinModel OmJoinSpec CtrlProofs BlockProofs PackProofs.

Lemma upd_app_here A (a b : list A) x y : upd (a ++ x :: b) (length a) y = a ++ y :: b.
Proof. induction a as [|z a IH]; [reflexivity|]. cbn. rewrite IH. reflexivity. Qed.

Lemma repeat_map_seq A (x : A) n : forall a, repeat x n = map (fun _ => x) (seq a n).
Proof. induction n as [|n IH]; intros a; [reflexivity|]. cbn [repeat seq map]. f_equal. apply IH. Qed.

Lemma same_left_offs s0 s1 : Forall2 same_sel s0 s1 -> (forall d, left_offs d s0 = left_offs d s1) /\ left_bits s0 = left_bits s1.
Proof.
  induction 1 as [|a b s0 s1 (El & _ & _ & Eb) H [IH1 IH2]]; [split; reflexivity|]. cbn [left_offs left_bits]. rewrite El, Eb, IH2.
  split; [|reflexivity]. intros d. destruct (oLeft b); [f_equal|]; apply IH1.
Qed.

Definition om_party_row (role : bool) (nL : nat) (sel : list osel) (keys : bmat) (pad : nat) (i : nat) : list N :=
  lpart sel i ++ [if role && (i <? nL) then 1%N else 0%N] ++ nth i (bRows keys) [] ++ repeat 0%N pad.

Lemma om_concat_ok role nL nR n sel keys kc ks kb : 0 < nL -> nL <= n -> Forall (sel_ok nL nR) sel -> bm_n keys = n -> bCols keys = kc -> rows_ok n kc (bRows keys) ->
  div_ceil ks 8 = kc -> kc <= div_ceil kb 8 ->
  om_concat role nL sel keys (om_offsets sel ks) (om_data_bits sel kb) = Ok (map (om_party_row role nL sel keys (div_ceil kb 8 - kc)) (seq 0 n)).
Proof.
  intros HnL Hn Hsel Ekn Ekc Hkr Eks Hkc. unfold om_concat.
  assert (HF : forallb (fun m => bm_n m =? nL) (left_cols sel) = true).
  { apply forallb_forall. intros m Hm. unfold left_cols in Hm. apply in_map_iff in Hm. destruct Hm as (s & <- & Hs). apply filter_In in Hs. destruct Hs as [Hs El].
    rewrite Forall_forall in Hsel. specialize (Hsel s Hs). unfold sel_ok in Hsel. rewrite El in Hsel. destruct Hsel as (_ & E & _). apply Nat.eqb_eq. exact E. }
  rewrite HF. cbn [negb]. pose proof (left_bits_mod sel) as Hm. set (w := left_bits sel / 8). set (C := div_ceil kb 8) in *.
  assert (EC : div_ceil (om_data_bits sel kb) 8 = w + 1 + C) by (unfold om_data_bits, w, C, div_ceil in *; fold C; lia).
  rewrite EC, Ekn.
  assert (E0 : repeat (repeat 0%N (w + 1 + C)) n = map (fun i => [] ++ repeat 0%N (w + 1 + C)) (seq 0 n)).
  { apply repeat_map_seq. }
  rewrite E0. unfold om_offsets.
  rewrite (@concat_left nL nR n); try assumption; [|reflexivity|reflexivity|lia]. fold w.
  cbn [concat_cols bind fst snd].
  rewrite (map_ext _ (fun i => (lpart sel i ++ [0%N]) ++ repeat 0%N C)).
  2:{ intros i. rewrite app_nil_l, <- app_assoc. f_equal. replace (w + 1 + C - w) with (S C) by lia. reflexivity. }
  rewrite (@write_col_ok n n kc (left_bits sel + 8) ks C keys (fun i => lpart sel i ++ [0%N])); try assumption; try lia.
  2:{ intros i Hi. rewrite app_length, (proj1 (lpart_len i Hsel)). cbn [length]. fold w. lia. }
  cbn [bind]. destruct role.
  - rewrite app_length. cbn [length]. replace (length (left_offs 0 sel) + 2 - 2) with (length (left_offs 0 sel) + 0) by lia.
    rewrite (@get_ok _ _ _ (0, 0)) by (rewrite app_length; cbn [length]; lia). rewrite app_nth2_plus. cbn [nth bind fst]. fold w.
    set (f := fun i => (lpart sel i ++ [0%N]) ++ nth i (bRows keys) (repeat 0%N kc) ++ repeat 0%N (C - kc)).
    rewrite (@mapM_ok _ _ _ (om_party_row true nL sel keys (C - kc))).
    + cbn [bind]. f_equal. assert (Eg : forall g : nat -> list N, map g (seq 0 n) = map g (seq 0 nL) ++ map (fun t => g (nL + t)) (seq 0 (n - nL))) by (intros g; rewrite <- seq_app_map; do 2 f_equal; lia).
      rewrite !Eg. f_equal. rewrite skipn_app, skipn_all2 by (rewrite map_length, seq_length; lia). rewrite map_length, seq_length, Nat.sub_diag. cbn [skipn app].
      apply map_ext_in. intros t Ht. apply in_seq in Ht. unfold f, om_party_row. replace (nL + t <? nL) with false by lia. cbn [andb]. rewrite <- app_assoc. do 3 f_equal.
      apply nth_indep. rewrite (proj1 Hkr). lia.
    + intros i Hi. apply in_seq in Hi. rewrite (@get_ok _ _ _ []) by (rewrite map_length, seq_length; lia). cbn [bind]. rewrite nth_map_seq' by lia. cbn [Nat.add]. unfold f, om_party_row.
      unfold set. destruct (lpart_len i Hsel) as [Lp _]. fold w in Lp.
      rewrite (proj2 (Nat.ltb_lt _ _)) by (rewrite !app_length, Lp; cbn [length]; lia). f_equal. rewrite <- app_assoc. cbn [app]. rewrite <- Lp, upd_app_here.
      replace (i <? nL) with true by lia. cbn [andb app]. do 3 f_equal. apply nth_indep. rewrite (proj1 Hkr). lia.
  - f_equal. apply map_ext_in. intros i Hi. apply in_seq in Hi. unfold om_party_row. cbn [andb]. rewrite <- app_assoc. do 3 f_equal. apply nth_indep. rewrite (proj1 Hkr). lia.
Qed.

(* ---- the steps, on the shared values ---- *)
Definition pair_of (n c : nat) (d : list (list N) * list (list N)) (V : nat -> list N) : Prop :=
  rows_ok n c (fst d) /\ rows_ok n c (snd d) /\ xor_rows (fst d) (snd d) = map V (seq 0 n).

Lemma pair_row n c d V i : pair_of n c d V -> i < n -> map2 N.lxor (nth i (fst d) []) (nth i (snd d) []) = V i.
Proof.
  intros (H0 & H1 & E) Hi. rewrite <- (@nth_xor_rows n) by (try apply H0; try apply H1; exact Hi). rewrite E, nth_map_seq' by exact Hi. reflexivity.
Qed.
Lemma pair_val n c d V i : pair_of n c d V -> i < n -> length (V i) = c /\ bytes (V i).
Proof.
  intros (H0 & H1 & E) Hi. pose proof (xor_rows_ok H0 H1) as HX. rewrite E in HX. pose proof (rows_nth HX Hi) as H. rewrite nth_map_seq' in H by exact Hi. exact H.
Qed.
Lemma reshare_pair n c m V : rows_ok n c m -> (forall i, i < n -> length (V i) = c /\ bytes (V i)) -> pair_of n c (reshare m (map V (seq 0 n))) V.
Proof.
  intros Hm HV. pose proof (rows_map HV) as HR. destruct (reshare_ok Hm HR) as [H0 H1]. split; [exact H0|]. split; [exact H1|]. apply (reshare_xor Hm HR).
Qed.

Lemma om_perm_inv_ok n c p q m d D : is_perm n p -> is_perm n q -> (forall i, i < n -> nth (nth i p 0) q 0 = i) -> rows_ok n c m -> pair_of n c d D ->
  exists d', om_perm Inverse p m d = Ok d' /\ pair_of n c d' (fun t => D (nth t q 0)).
Proof.
  intros Hp Hq Hqp Hm Hd. unfold om_perm. destruct Hd as (H0 & H1 & E). rewrite E.
  assert (HE : map D (seq 0 n) = pick [] p (map (fun t => D (nth t q 0)) (seq 0 n))).
  { apply map_pick; [exact Hp|]. intros t Ht. rewrite Hqp by exact Ht. reflexivity. }
  rewrite HE, (@applyInv_pick _ [] [] n) by (try exact Hp; rewrite map_length; apply seq_length). cbn [bind].
  eexists. split; [reflexivity|]. apply reshare_pair; [exact Hm|]. intros t Ht. apply (@pair_val n c d D); [exact (conj H0 (conj H1 E))|]. apply (nthp Hq Ht).
Qed.
Lemma om_perm_reg_ok n c p m d T : is_perm n p -> rows_ok n c m -> pair_of n c d T ->
  exists d', om_perm Regular p m d = Ok d' /\ pair_of n c d' (fun i => T (nth i p 0)).
Proof.
  intros Hp Hm Hd. unfold om_perm. destruct Hd as (H0 & H1 & E). rewrite E.
  rewrite (@apply_pick _ [] n) by (try exact Hp; rewrite map_length; apply seq_length). cbn [bind].
  assert (HE : pick [] p (map T (seq 0 n)) = map (fun i => T (nth i p 0)) (seq 0 n)).
  { symmetry. apply map_pick; [exact Hp|reflexivity]. }
  rewrite HE. eexists. split; [reflexivity|]. apply reshare_pair; [exact Hm|]. intros t Ht. apply (@pair_val n c d T); [exact (conj H0 (conj H1 E))|]. apply (nthp Hp Ht).
Qed.

Lemma eqs_agree bits a b m : m <= bits -> eqs bits (row_env bits a b) 0 m = true <-> agree m a b.
Proof.
  intros Hm. unfold eqs, agree. rewrite forallb_forall. split; intros H t Ht.
  - specialize (H t). rewrite in_seq in H. specialize (H ltac:(lia)). apply Bool.eqb_prop in H. unfold row_env in H. rewrite (proj2 (Nat.ltb_lt _ _)) in H by lia.
    replace (bits + t <? bits) with false in H by lia. replace (bits + t - bits) with t in H by lia. exact H.
  - apply in_seq in Ht. apply Bool.eqb_true_iff. unfold row_env. rewrite (proj2 (Nat.ltb_lt _ _)) by lia. replace (bits + t <? bits) with false by lia.
    replace (bits + t - bits) with t by lia. apply H. lia.
Qed.
Lemma pow_log_le bits : 0 < bits -> 2 ^ Nat.log2 bits <= bits.
Proof. intros H. apply Nat.log2_spec. exact H. Qed.
Lemma xbit_b2n a b : xbit (N.b2n a) (N.b2n b) = xorb a b.
Proof. destruct a, b; reflexivity. Qed.
Lemma skeys_ok n c off size d : rows_ok n c d -> off + size <= c -> skeys off size d = Ok (repeat 0%N size :: map (fun r => slice r off size) d).
Proof.
  intros [L H] Ho. unfold skeys. rewrite (@mapM_ok _ _ _ (fun r => slice r off size)); [reflexivity|].
  intros r Hr. rewrite Forall_forall in H. apply readN_ok. rewrite (proj1 (H r Hr)). lia.
Qed.
(* control bits *)
Lemma om_control_ok n c bits off mask d S : 0 < bits -> 0 < n -> off + div_ceil bits 8 <= c -> length mask = n -> pair_of n c d S ->
  exists o0 o1, om_control bits off mask d = Ok (o0, o1) /\ length o0 = n /\ length o1 = n /\
    forall t, t < n -> xbit (nth t o0 0%N) (nth t o1 0%N) = true <->
      0 < t /\ agree (2 ^ Nat.log2 bits) (slice (S (t - 1)) off (div_ceil bits 8)) (slice (S t) off (div_ceil bits 8)).
Proof.
  intros Hb Hn Ho Lm Hd. pose proof Hd as (H0 & H1 & E). unfold om_control.
  destruct (control_circuit_ok Hb) as (gs & m & Ec & _ & Hev). rewrite Ec. cbn [bind cGates].
  rewrite (@skeys_ok n c), (@skeys_ok n c) by (try exact Ho; assumption). cbn [bind].
  set (size := div_ceil bits 8) in *. set (k := xor_rows _ _).
  assert (Lk : length k = 1 + n) by (unfold k, xor_rows; rewrite map2_length; cbn [length]; rewrite !map_length, (proj1 H0), (proj1 H1); lia).
  assert (Hk : forall t, t < n -> nth (1 + t) k [] = slice (S t) off size).
  { intros t Ht. unfold k, xor_rows. rewrite map2_nth with (da := []) (db := []) by (cbn [length]; rewrite map_length, ?(proj1 H0), ?(proj1 H1); lia). cbn [nth Nat.add].
    rewrite !(nth_indep _ [] (slice [] off size)) by (rewrite map_length, ?(proj1 H0), ?(proj1 H1); exact Ht).
    rewrite !(map_nth (fun r => slice r off size)). rewrite <- map2_slice by (rewrite (proj1 (rows_nth H0 Ht)), (proj1 (rows_nth H1 Ht)); reflexivity). rewrite (pair_row Hd Ht). reflexivity. }
  rewrite (proj1 H0). set (out := map2 _ (firstn n k) (skipn 1 k)).
  assert (Lo : length out = n) by (unfold out; rewrite map2_length, firstn_length, skipn_length, Lk; lia).
  assert (Hout : forall t, 0 < t < n -> nth t out false = eqs bits (row_env bits (slice (S (t - 1)) off size) (slice (S t) off size)) 0 (2 ^ Nat.log2 bits)).
  { intros t Ht. unfold out. rewrite map2_nth with (da := []) (db := []) by (rewrite ?firstn_length, ?skipn_length, Lk; lia).
    rewrite Hev. rewrite CompressProofs.nth_firstn by lia. rewrite CompressProofs.nth_skipn, Hk by lia. replace t with (1 + (t - 1)) at 1 by lia. rewrite Hk by lia. reflexivity. }
  unfold set. rewrite !map_length, map2_length, Lm, Lo, Nat.min_id, (proj2 (Nat.ltb_lt _ _)) by exact Hn. cbn [bind].
  eexists _, _. split; [reflexivity|]. rewrite !upd_length, !map_length, map2_length, Lm, Lo, Nat.min_id. split; [reflexivity|]. split; [reflexivity|].
  intros t Ht. destruct (Nat.eq_dec t 0) as [->|Hnz].
  - assert (Ez : forall l : list N, nth 0 (upd l 0 0%N) 0%N = 0%N) by (intros [|x l]; reflexivity). rewrite !Ez. split; [discriminate|lia].
  - rewrite !nth_upd by (rewrite ?map_length, ?map2_length, ?Lm, ?Lo; lia). replace (0 =? t) with false by lia.
    change 0%N with (N.b2n false) at 1 2. rewrite !map_nth, xbit_b2n. rewrite map2_nth with (da := false) (db := false) by lia.
    rewrite Hout by lia. rewrite <- Bool.xorb_assoc_reverse, Bool.xorb_nilpotent, Bool.xorb_false_l. rewrite eqs_agree by (apply pow_log_le, Hb). split; [intros H; split; [lia|exact H]|tauto].
Qed.

Lemma fold_first A B (l : list B) (y : A) : fold_left (fun a _ => a) l y = y.
Proof. induction l as [|x l IH]; [reflexivity|exact IH]. Qed.
Lemma agg_range_first (z : list N) x a b : a < b -> b <= length x -> agg_range (fun a _ => a) z x a b = nth a x z.
Proof.
  intros H Hb. unfold agg_range. destruct (slice x a (b - a)) as [|y l] eqn:E.
  - apply (f_equal (@length _)) in E. unfold slice in E. rewrite firstn_length, skipn_length in E. cbn in E. lia.
  - rewrite fold_first. rewrite <- (firstn_skipn a x) at 1. unfold slice in E. rewrite app_nth2 by (rewrite firstn_length; lia). rewrite firstn_length, Nat.min_l, Nat.sub_diag by lia.
    destruct (skipn a x) as [|y' l'] eqn:E2; [destruct (b - a); discriminate E|]. destruct (b - a) as [|k] eqn:Eb; [lia|]. cbn in E. injection E as -> _. reflexivity.
Qed.
Lemma om_dup_ok n c mask o0 o1 d S : 2 <= n -> rows_ok n c mask -> length o0 = n -> length o1 = n -> xbit (nth 0 o0 0%N) (nth 0 o1 0%N) = false -> pair_of n c d S ->
  exists d', om_dup c mask (o0, o1) d = Ok d' /\ pair_of n c d' (fun t => S (blk_start (map2 xbit o0 o1) t)).
Proof.
  intros Hn Hm L0 L1 Hc0 Hd. pose proof Hd as (H0 & H1 & E). unfold om_dup. cbn [fst snd]. rewrite E. set (ctrl := map2 xbit o0 o1).
  assert (Lc : length ctrl = n) by (unfold ctrl; rewrite map2_length; lia).
  rewrite agg_prefix_ok; rewrite ?map_length, ?seq_length; try lia.
  - cbn [bind]. rewrite (map_ext_in _ (fun t => S (blk_start ctrl t))).
    + eexists. split; [reflexivity|]. apply reshare_pair; [exact Hm|]. intros t Ht. pose proof (blk_start_le ctrl t). apply (pair_val Hd). lia.
    + intros t Ht. apply in_seq in Ht. pose proof (blk_start_le ctrl t). rewrite agg_range_first by (rewrite ?map_length, ?seq_length; lia). rewrite nth_map_seq' by lia. reflexivity.
  - intros a b e. reflexivity.
  - rewrite (nth_error_nth_lt false) by lia. unfold ctrl. rewrite map2_nth with (da := 0%N) (db := 0%N) by lia. rewrite Hc0. reflexivity.
Qed.

Lemma lxor_byte_b2n_lt (b : bool) : (N.b2n b < 256)%N.
Proof. destruct b; reflexivity. Qed.
Lemma put_flags_ok n c off d fl : rows_ok n c d -> off <= c -> length fl = n -> put_flags off d fl = Ok (map (fun i => firstn off (nth i d []) ++ [N.b2n (nth i fl false)]) (seq 0 n)).
Proof.
  intros Hd Ho Lf. unfold put_flags.
  assert (E : combine d fl = map (fun i => (nth i d [], nth i fl false)) (seq 0 n)).
  { apply nth_ext with ([], false) ([], false); [rewrite combine_length, map_length, seq_length, (proj1 Hd); lia|]. intros i Hi. rewrite combine_length, (proj1 Hd), Lf, Nat.min_id in Hi.
    rewrite combine_nth by (rewrite (proj1 Hd); lia). rewrite nth_map_seq' by exact Hi. reflexivity. }
  rewrite E, mapM_map. apply mapM_ok. intros i Hi. apply in_seq in Hi. cbn [fst snd]. rewrite readN_ok by (rewrite (proj1 (rows_nth Hd (k := i) ltac:(lia))); lia). reflexivity.
Qed.
Lemma om_flags_ok n c off mask o0 o1 d S : off < c -> length mask = n -> length o0 = n -> length o1 = n -> pair_of n c d S ->
  exists d', om_flags off mask (o0, o1) d = Ok d' /\
    pair_of n (off + 1) d' (fun t => firstn off (S t) ++ [N.b2n (xbit (nth t o0 0%N) (nth t o1 0%N) && N.odd (nth off (S t) 0%N))]).
Proof.
  intros Ho Lm L0 L1 Hd. pose proof Hd as (H0 & H1 & E). unfold om_flags. cbn [fst snd].
  assert (HG : forall d0, rows_ok n c d0 -> mapM (fun r => get r off) d0 = Ok (map (fun r => nth off r 0%N) d0)).
  { intros d0 [_ HF]. apply mapM_ok. intros r Hr. rewrite Forall_forall in HF. apply get_ok. rewrite (proj1 (HF r Hr)). exact Ho. }
  rewrite (HG _ H0), (HG _ H1). cbn [bind]. set (v := map2 andb _ _).
  assert (Lv : length v = n) by (unfold v; rewrite !map2_length, !map_length, (proj1 H0), (proj1 H1); lia).
  assert (Hv : forall t, t < n -> nth t v false = xbit (nth t o0 0%N) (nth t o1 0%N) && N.odd (nth off (S t) 0%N)).
  { intros t Ht. unfold v. rewrite map2_nth with (da := false) (db := false) by (rewrite map2_length, ?map_length, ?(proj1 H0), ?(proj1 H1); lia).
    rewrite !map2_nth with (da := 0%N) (db := 0%N) by (rewrite ?map_length, ?(proj1 H0), ?(proj1 H1); lia). f_equal.
    assert (HN : forall d0, rows_ok n c d0 -> nth t (map (fun r => nth off r 0%N) d0) 0%N = nth off (nth t d0 []) 0%N).
    { intros d0 Hd0. rewrite (nth_indep _ 0%N (nth off (@nil N) 0%N)) by (rewrite map_length, (proj1 Hd0); exact Ht). apply (map_nth (fun r => nth off r 0%N)). }
    rewrite (HN _ H0), (HN _ H1).
    rewrite <- (pair_row Hd Ht). rewrite map2_nth with (da := 0%N) (db := 0%N) by (rewrite ?(proj1 (rows_nth H0 Ht)), ?(proj1 (rows_nth H1 Ht)); exact Ho). reflexivity. }
  rewrite (@put_flags_ok n c) by (try assumption; lia). rewrite (@put_flags_ok n c) by (try assumption; try lia; rewrite map2_length; lia). cbn [bind].
  eexists. split; [reflexivity|]. unfold pair_of. cbn [fst snd].
  assert (HR : forall (r : list (list N)) fl, rows_ok n c r -> rows_ok n (off + 1) (map (fun i => firstn off (nth i r []) ++ [N.b2n (nth i fl false)]) (seq 0 n))).
  { intros r fl Hr. apply rows_map. intros i Hi. destruct (rows_nth Hr Hi) as [Lr Br]. split; [rewrite app_length, firstn_length, Lr; cbn [length]; lia|].
    apply bytes_app; [apply ShuffleSpanProofs.firstn_bytes, Br|repeat constructor; apply lxor_byte_b2n_lt]. }
  split; [apply HR, H0|]. split; [apply HR, H1|].
  apply nth_ext with [] []; [unfold xor_rows; rewrite map2_length, !map_length; lia|]. intros t Ht. unfold xor_rows in Ht. rewrite map2_length, !map_length, seq_length, Nat.min_id in Ht.
  rewrite (@nth_xor_rows n) by (rewrite ?map_length, ?seq_length; auto). rewrite !nth_map_seq' by exact Ht. cbn [Nat.add].
  rewrite map2_app by (rewrite !firstn_length, (proj1 (rows_nth H0 Ht)), (proj1 (rows_nth H1 Ht)); reflexivity).
  rewrite <- (pair_row Hd Ht). change (firstn off ?x) with (slice x 0 off) at 3. rewrite map2_slice by (rewrite (proj1 (rows_nth H0 Ht)), (proj1 (rows_nth H1 Ht)); reflexivity).
  f_equal. cbn [map2]. rewrite map2_nth with (da := false) (db := false) by lia. rewrite Hv by exact Ht. rewrite <- (pair_row Hd Ht).
  destruct (nth t mask false), (_ && _); reflexivity.
Qed.

(* ---- the output ---- *)
Definition xl (s0 s1 : list osel) (j : nat) : list N := map2 N.lxor (lpart s0 j) (lpart s1 j).
(* row j of a left column, zeros past the left table *)
Definition lrow (nL : nat) (s0 s1 : osel) (j : nat) : list N :=
  if j <? nL then nth j (shared_rows (oCol s0) (oCol s1)) [] else repeat 0%N (bCols (cDat (oCol s0))).
Lemma col_rows n c : col_ok n c -> rows_ok n (div_ceil (cBits c) 8) (bRows (cDat c)) /\ bCols (cDat c) = div_ceil (cBits c) 8.
Proof. intros ((H & E) & En & Eb & _). rewrite En, E, <- Eb in H. rewrite Eb. split; [rewrite <- Eb; exact H|exact E]. Qed.

Lemma xl_cons nL nR s0 s1 l0 l1 j : same_sel s0 s1 -> sel_ok nL nR s0 -> sel_ok nL nR s1 ->
  xl (s0 :: l0) (s1 :: l1) j = if oLeft s0 then lrow nL s0 s1 j ++ xl l0 l1 j else xl l0 l1 j.
Proof.
  intros (El & _ & _ & Eb) H0 H1. unfold xl. rewrite !lpart_cons, <- El. unfold sel_ok in *. rewrite <- El in H1. destruct (oLeft s0); [|reflexivity].
  rewrite <- Eb. pose proof (@col_row_len nL _ j H0) as [L0 _]. pose proof (@col_row_len nL _ j H1) as [L1 _]. rewrite <- Eb in L1.
  rewrite map2_app by congruence. f_equal. unfold lrow. destruct (col_rows H0) as [R0 C0], (col_rows H1) as [R1 C1]. destruct (Nat.ltb_spec j nL) as [Hj|Hj].
  - unfold shared_rows. rewrite (@nth_xor_rows nL) by (try apply R0; try apply R1; exact Hj). f_equal; apply nth_indep; rewrite ?(proj1 R0), ?(proj1 R1); exact Hj.
  - rewrite !nth_overflow by (rewrite ?(proj1 R0), ?(proj1 R1); exact Hj). rewrite C0. apply map2_zeros.
Qed.
Lemma lrow_len nL nR s0 s1 j : same_sel s0 s1 -> sel_ok nL nR s0 -> sel_ok nL nR s1 -> oLeft s0 = true -> length (lrow nL s0 s1 j) = div_ceil (cBits (oCol s0)) 8.
Proof.
  intros (El & _ & _ & Eb) H0 H1 Hl. unfold sel_ok in *. rewrite <- El in H1. rewrite Hl in *. destruct (col_rows H0) as [R0 C0], (col_rows H1) as [R1 C1]. rewrite <- Eb in R1.
  unfold lrow. destruct (Nat.ltb_spec j nL) as [Hj|Hj]; [|rewrite repeat_length; exact C0].
  apply (rows_nth (xor_rows_ok R0 R1) Hj).
Qed.

Definition out_col (nL nR : nat) (J : nat -> nat) (s0 s1 : osel) : column :=
  with_rows (oCol s0) (map (fun r => if oLeft s0 then lrow nL s0 s1 (J r) else nth r (shared_rows (oCol s0) (oCol s1)) []) (seq 0 nR)).
Lemma skipn_rows n m c d : rows_ok (n + m) c d -> skipn n d = map (fun r => nth (n + r) d []) (seq 0 m).
Proof.
  intros [L H]. apply nth_ext with [] []; [rewrite skipn_length, map_length, seq_length; lia|]. rewrite skipn_length. intros i Hi. rewrite CompressProofs.nth_skipn, nth_map_seq' by lia. reflexivity.
Qed.
Lemma slice_bytes r o k : bytes r -> bytes (slice r o k).
Proof. intros H. unfold slice. apply ShuffleSpanProofs.firstn_bytes. rewrite <- (firstn_skipn o r) in H. apply Forall_app in H. apply H. Qed.
Lemma out_cols_ok nL nR c d0 d1 J : rows_ok (nL + nR) c d0 -> rows_ok (nL + nR) c d1 ->
  forall l0 l1, Forall2 same_sel l0 l1 -> Forall (sel_ok nL nR) l0 -> Forall (sel_ok nL nR) l1 -> forall off, off + left_bits l0 / 8 <= c ->
  (forall r, r < nR -> exists P Q, length P = off /\ map2 N.lxor (nth (nL + r) d0 []) (nth (nL + r) d1 []) = P ++ xl l0 l1 (J r) ++ Q) ->
  exists c0 c1, out_cols nL d0 off l0 = Ok (c0, off + left_bits l0 / 8) /\ out_cols nL d1 off l1 = Ok (c1, off + left_bits l0 / 8) /\
    Forall (col_ok nR) c0 /\ Forall (col_ok nR) c1 /\ Forall2 same_info c0 c1 /\ map2 xor_col c0 c1 = map2 (out_col nL nR J) l0 l1.
Proof.
  intros R0 R1. induction 1 as [|s0 s1 l0 l1 Hs Hl IH]; intros F0 F1 off Hoff HX.
  - exists [], []. cbn [out_cols left_bits]. rewrite Nat.add_0_r. repeat split; constructor.
  - apply Forall_cons_iff in F0. destruct F0 as [S0 F0]. apply Forall_cons_iff in F1. destruct F1 as [S1 F1]. pose proof Hs as (El & En & Et & Eb).
    cbn [out_cols]. rewrite <- El. destruct (oLeft s0) eqn:Elf.
    + set (w := div_ceil (cBits (oCol s0)) 8). rewrite <- Eb. fold w.
      assert (Ew : left_bits (s0 :: l0) / 8 = w + left_bits l0 / 8).
      { cbn [left_bits]. rewrite Elf. fold w. rewrite Nat.add_comm, Nat.div_add by lia. lia. }
      rewrite Ew in *.
      assert (HM : forall d, rows_ok (nL + nR) c d -> mapM (fun r => readN r off w) (skipn nL d) = Ok (map (fun r => slice (nth (nL + r) d []) off w) (seq 0 nR))).
      { intros d Hd. rewrite (@skipn_rows nL nR c) by exact Hd. rewrite mapM_map. apply mapM_ok. intros r Hr. apply in_seq in Hr. apply readN_ok.
        rewrite (proj1 (rows_nth Hd (k := nL + r) ltac:(lia))). lia. }
      rewrite (HM _ R0), (HM _ R1). cbn [bind].
      destruct (IH F0 F1 (off + w)) as (c0 & c1 & E0 & E1 & G0 & G1 & GI & GX); [lia| |].
      { intros r Hr. destruct (HX r Hr) as (P & Q & LP & EQ). exists (P ++ lrow nL s0 s1 (J r)), Q. split.
        - rewrite app_length, LP, (@lrow_len nL nR) by assumption. reflexivity.
        - rewrite EQ, (@xl_cons nL nR) by assumption. rewrite Elf, <- !app_assoc. reflexivity. }
      rewrite E0, E1. cbn [bind fst snd]. rewrite <- Nat.add_assoc. eexists _, _. split; [reflexivity|]. split; [reflexivity|].
      unfold sel_ok in S0, S1. rewrite Elf in S0. replace (oLeft s1) with true in S1 by congruence.
      assert (HC : forall co d, cBits co = cBits (oCol s0) -> cType co <= 3 -> (cType co = 2 -> cBits co mod 8 = 0) -> rows_ok (nL + nR) c d ->
        col_ok nR (Col (cName co) (cType co) (cBits co) (BM (cBits co) w (map (fun r => slice (nth (nL + r) d []) off w) (seq 0 nR))))).
      { intros co d Eco Tco Mco Hd. assert (HR : rows_ok nR w (map (fun r => slice (nth (nL + r) d []) off w) (seq 0 nR))).
        { apply rows_map. intros r Hr. destruct (rows_nth Hd (k := nL + r) ltac:(lia)) as [L B]. split; [unfold slice; rewrite firstn_length, skipn_length, L; lia|apply slice_bytes, B]. }
        split; [|split; [apply HR|split; [reflexivity|split; [exact Tco|exact Mco]]]]. split; [unfold bm_n; cbn [cDat bRows bCols bBits]; rewrite (proj1 HR); exact HR|cbn [cDat bRows bCols bBits]; rewrite Eco; reflexivity]. }
      destruct S0 as (B0 & N0 & C0 & T0 & M0), S1 as (B1 & N1 & C1 & T1 & M1).
      split; [constructor; [apply HC; try assumption; try reflexivity; rewrite C0; exact M0|exact G0]|].
      split; [constructor; [rewrite Eb; apply HC; try assumption; try (symmetry; exact Eb); rewrite C1; exact M1|exact G1]|].
      split; [constructor; [split; [exact En|split; [exact Et|reflexivity]]|exact GI]|].
      cbn [map2]. rewrite GX. f_equal. unfold out_col, xor_col, with_rows, shared_rows. cbn [cName cType cBits cDat bBits bCols bRows]. rewrite Elf, C0, (proj2 B0), <- C0. fold w. do 2 f_equal.
      apply nth_ext with [] []; [unfold xor_rows; rewrite map2_length, !map_length; lia|]. intros r Hr. unfold xor_rows in Hr. rewrite map2_length, !map_length, seq_length, Nat.min_id in Hr.
      rewrite (@nth_xor_rows nR) by (rewrite ?map_length, ?seq_length; auto). rewrite !nth_map_seq' by exact Hr. cbn [Nat.add].
      destruct (HX r Hr) as (P & Q & LP & EQ). rewrite <- map2_slice by (rewrite (proj1 (rows_nth R0 (k := nL + r) ltac:(lia))), (proj1 (rows_nth R1 (k := nL + r) ltac:(lia))); reflexivity).
      assert (S0 : sel_ok nL nR s0) by (unfold sel_ok; rewrite Elf; repeat split; try assumption; apply B0).
      assert (S1 : sel_ok nL nR s1) by (unfold sel_ok; replace (oLeft s1) with true by congruence; repeat split; try assumption; apply B1).
      rewrite EQ, (@xl_cons nL nR), Elf, <- app_assoc, <- LP by assumption. apply slice_mid. apply (@lrow_len nL nR); assumption.
    + assert (Ew : left_bits (s0 :: l0) / 8 = left_bits l0 / 8) by (cbn [left_bits]; rewrite Elf; reflexivity). rewrite Ew in *.
      destruct (IH F0 F1 off) as (c0 & c1 & E0 & E1 & G0 & G1 & GI & GX); [lia| |].
      { intros r Hr. destruct (HX r Hr) as (P & Q & LP & EQ). exists P, Q. split; [exact LP|]. rewrite EQ, (@xl_cons nL nR) by assumption. rewrite Elf. reflexivity. }
      rewrite E0, E1. cbn [bind fst snd]. eexists _, _. split; [reflexivity|]. split; [reflexivity|].
      unfold sel_ok in S0, S1. rewrite Elf in S0. replace (oLeft s1) with false in S1 by congruence.
      assert (HC : forall co, col_ok nR co -> col_ok nR (Col (cName co) (cType co) (cBits co) (cDat co))) by (intros co H; exact H).
      split; [constructor; [apply HC, S0|exact G0]|]. split; [constructor; [apply HC, S1|exact G1]|].
      split; [constructor; [split; [exact En|split; [exact Et|exact Eb]]|exact GI]|].
      cbn [map2]. rewrite GX. f_equal. unfold out_col, xor_col, with_rows, shared_rows. cbn [cName cType cBits cDat bBits bCols bRows]. rewrite Elf. do 2 f_equal.
      destruct (col_rows S0) as [Q0 _], (col_rows S1) as [Q1 _]. rewrite <- Eb in Q1. apply (rows_map_nth (xor_rows_ok Q0 Q1)).
Qed.

(* ---- sorting ---- *)
Lemma concat_map2 : forall (a b : list (list N)), Forall2 (fun x y => length x = length y) a b -> map2 N.lxor (concat a) (concat b) = concat (xor_rows a b).
Proof.
  induction 1 as [|x y a b E H IH]; [reflexivity|]. cbn [concat xor_rows map2]. rewrite map2_app by exact E. unfold xor_rows in IH. rewrite IH. reflexivity.
Qed.
Lemma rows_same_len n c a b : rows_ok n c a -> rows_ok n c b -> Forall2 (fun x y : list N => length x = length y) a b.
Proof.
  intros [La Ha] [Lb Hb]. subst n. revert b Lb Hb. induction a as [|x a IH]; intros [|y b] Lb Hb; try discriminate Lb; constructor.
  - apply Forall_cons_iff in Ha, Hb. destruct Ha as [[E1 _] _], Hb as [[E2 _] _]. congruence.
  - apply Forall_cons_iff in Ha, Hb. apply IH; [apply Ha|injection Lb; auto|apply Hb].
Qed.
Lemma om_sort_ok n c k0 k1 : bm_n k0 = n -> bCols k0 = c -> rows_ok n c (bRows k0) -> rows_ok n c (bRows k1) ->
  exists p, om_sort k0 k1 = Ok p /\ sorts n (fun i => le_num (nth i (xor_rows (bRows k0) (bRows k1)) [])) p.
Proof.
  intros En Ec H0 H1. unfold om_sort. rewrite En, Ec.
  destruct (@mock_sort_ok n c (concat (bRows k0)) (concat (bRows k1))) as (p0 & p1 & E & L0 & L1 & HS).
  - apply (rows_concat_bytes H0).
  - apply (rows_concat_bytes H1).
  - apply (rows_concat_length H0).
  - apply (rows_concat_length H1).
  - rewrite E. cbn [bind fst snd]. eexists. split; [reflexivity|]. unfold PermCorSpec.xors in HS.
    rewrite (concat_map2 (rows_same_len H0 H1)) in HS. pose proof (xor_rows_ok H0 H1) as HX.
    assert (HK : forall i, i < n -> keyn c (concat (xor_rows (bRows k0) (bRows k1))) i = le_num (nth i (xor_rows (bRows k0) (bRows k1)) [])).
    { intros i Hi. unfold keyn. f_equal. rewrite <- (@slice_rows n c _ i []) by assumption. rewrite app_nil_r. reflexivity. }
    destruct HS as [HP HQ]. split; [exact HP|]. intros i j Hi Hj. rewrite (HQ i j Hi Hj), !HK by assumption. reflexivity.
Qed.

(* ---- the protocol ---- *)
Lemma om_core enc q0 q1 rd k0 k1 nL nR kc kb : 0 < nL -> 0 < nR ->
  load_keys enc (qLeft q0) (qRight q0) = Ok k0 -> load_keys enc (qLeft q1) (qRight q1) = Ok k1 ->
  bm_n (cDat (qLeft q0)) = nL -> cBits (qLeft q0) = kb -> bm_n k0 = nL + nR -> bm_n k1 = nL + nR -> bCols k0 = kc -> bCols k1 = kc -> 0 < bBits k0 -> div_ceil (bBits k0) 8 = kc -> kc <= div_ceil kb 8 ->
  rows_ok (nL + nR) kc (bRows k0) -> rows_ok (nL + nR) kc (bRows k1) ->
  Forall2 same_sel (qSel q0) (qSel q1) -> Forall (sel_ok nL nR) (qSel q0) -> Forall (sel_ok nL nR) (qSel q1) ->
  om_rand_ok (nL + nR) (left_bits (qSel q0) / 8 + 1 + div_ceil kb 8) (left_bits (qSel q0) / 8 + 1) rd ->
  let K := xor_rows (bRows k0) (bRows k1) in
  faithful (2 ^ Nat.log2 (bBits k0)) K ->
  exists t0 t1 J, om_join enc q0 q1 rd = Ok (t0, t1) /\ (forall r, r < nR -> first_eq K (nth (nL + r) K []) = Some (J r)) /\
    shares_of nR t0 t1 (map (fun r => N.b2n (J r <? nL)) (seq 0 nR)) (map2 (out_col nL nR J) (qSel q0) (qSel q1)).
Proof.
  intros HnL HnR EK0 EK1 EnL Ekb En0 En1 Ec0 Ec1 Hks Eks Hkc HR0 HR1 Hs F0 F1 (M1 & M2 & M3 & M4 & M5) K HF.
  set (n := nL + nR) in *. unfold om_join. rewrite EK0, EK1. cbn [bind]. rewrite EnL, Ekb. set (ks := bBits k0) in *. set (w := left_bits (qSel q0) / 8) in *.
  destruct (om_sort_ok En0 Ec0 HR0 HR1) as (p & -> & HS). fold K in HS. cbn [bind]. pose proof (proj1 HS) as Hp.
  destruct (perm_inv_ex Hp) as (q & Hq & Hqp & Hpq).
  rewrite (@om_concat_ok false nL nR n (qSel q0) k0 kc ks kb) by (try assumption; lia). cbn [bind].
  destruct (same_left_offs Hs) as [Eo Elb].
  assert (E2 : om_concat true nL (qSel q1) k1 (om_offsets (qSel q0) ks) (om_data_bits (qSel q0) kb) = Ok (map (om_party_row true nL (qSel q1) k1 (div_ceil kb 8 - kc)) (seq 0 n))).
  { unfold om_offsets, om_data_bits. rewrite Eo, Elb. apply (@om_concat_ok true nL nR n (qSel q1) k1 kc ks kb); try assumption; lia. }
  rewrite E2. cbn [bind]. clear E2.
  assert (HK : rows_ok n kc K) by (apply xor_rows_ok; assumption).
  set (C := div_ceil kb 8) in *. set (D := fun i => xl (qSel q0) (qSel q1) i ++ [N.b2n (i <? nL)] ++ nth i K [] ++ repeat 0%N (C - kc)).
  assert (HD : pair_of n (w + 1 + C) (map (om_party_row false nL (qSel q0) k0 (C - kc)) (seq 0 n), map (om_party_row true nL (qSel q1) k1 (C - kc)) (seq 0 n)) D).
  { assert (HR : forall role sel k, Forall (sel_ok nL nR) sel -> left_bits sel / 8 = w -> rows_ok n kc (bRows k) -> rows_ok n (w + 1 + C) (map (om_party_row role nL sel k (C - kc)) (seq 0 n))).
    { intros role sel k Fs Ew Hk. apply rows_map. intros i Hi. unfold om_party_row. destruct (lpart_len i Fs) as [Ll Bl]. destruct (rows_nth Hk Hi) as [Lk Bk]. split.
      - rewrite !app_length, repeat_length, Ll, Lk, Ew. cbn [length]. lia.
      - apply bytes_app; [exact Bl|]. apply bytes_app; [destruct (role && _); repeat constructor|]. apply bytes_app; [exact Bk|apply bytes_zeros]. }
    unfold pair_of. cbn [fst snd]. split; [apply HR; auto|]. split; [apply HR; auto; rewrite <- Elb; reflexivity|].
    apply nth_ext with [] []; [unfold xor_rows; rewrite map2_length, !map_length; lia|]. intros i Hi. unfold xor_rows in Hi. rewrite map2_length, !map_length, seq_length, Nat.min_id in Hi.
    rewrite (@nth_xor_rows n) by (rewrite ?map_length, ?seq_length; auto). rewrite !nth_map_seq' by exact Hi. cbn [Nat.add]. unfold om_party_row, D, xl.
    rewrite map2_app by (rewrite (proj1 (lpart_len i F0)), (proj1 (lpart_len i F1)), Elb; reflexivity). f_equal. cbn [app map2 andb]. apply f_equal2; [destruct (i <? nL); reflexivity|].
    rewrite map2_app by (rewrite (proj1 (rows_nth HR0 Hi)), (proj1 (rows_nth HR1 Hi)); reflexivity). rewrite map2_zeros. f_equal.
    unfold K. rewrite (@nth_xor_rows n) by (try apply HR0; try apply HR1; exact Hi). reflexivity. }
  assert (EC : div_ceil (om_data_bits (qSel q0) kb) 8 = w + 1 + C).
  { pose proof (left_bits_mod (qSel q0)). unfold om_data_bits, w, C, div_ceil in *. fold C. lia. }
  rewrite EC.
  assert (Lxl : forall j, length (xl (qSel q0) (qSel q1) j) = w).
  { intros j. unfold xl. rewrite map2_length, (proj1 (lpart_len j F0)), (proj1 (lpart_len j F1)), <- Elb. apply Nat.min_id. }
  destruct (om_perm_inv_ok Hp Hq Hqp M1 HD) as (d1 & -> & Hd1). cbn [bind].
  destruct (@om_control_ok n (w + 1 + C) ks (w + 1) (rCtrl rd) d1 _ Hks ltac:(lia) ltac:(lia) M2 Hd1) as (o0 & o1 & -> & Lo0 & Lo1 & Hctl). cbn [bind].
  assert (Hkey : forall j, j < n -> slice (D j) (w + 1) (div_ceil ks 8) = nth j K []).
  { intros j Hj. unfold D. rewrite app_assoc. replace (w + 1) with (length (xl (qSel q0) (qSel q1) j ++ [N.b2n (j <? nL)])) by (rewrite app_length, Lxl; reflexivity).
    apply slice_mid. rewrite Eks. apply (rows_nth HK Hj). }
  set (ctrl := map2 xbit o0 o1).
  assert (Hc : forall t, t < n -> nth t ctrl false = (0 <? t) && row_eq (nth (nth (t - 1) q 0) K []) (nth (nth t q 0) K [])).
  { intros t Ht. unfold ctrl. rewrite map2_nth with (da := 0%N) (db := 0%N) by lia. specialize (Hctl t Ht). destruct (nthp Hq Ht) as [_ Hqt]. destruct (Nat.eq_dec t 0) as [->|Hnz].
    - cbn [Nat.ltb Nat.leb andb]. apply Bool.not_true_is_false. rewrite Hctl. lia.
    - assert (Ht1 : t - 1 < n) by lia. destruct (nthp Hq Ht1) as [_ Hqt1]. rewrite !Hkey in Hctl by assumption.
      apply Bool.eq_iff_eq_true. rewrite Hctl, Bool.andb_true_iff, row_eq_iff, Nat.ltb_lt. split; intros [X Y]; (split; [exact X|]).
      + apply HF; [apply nth_In; rewrite (proj1 HK); exact Hqt1|apply nth_In; rewrite (proj1 HK); exact Hqt|exact Y].
      + rewrite Y. intros j Hj. reflexivity. }
  assert (Hc0 : xbit (nth 0 o0 0%N) (nth 0 o1 0%N) = false).
  { specialize (Hc 0 ltac:(lia)). unfold ctrl in Hc. rewrite map2_nth with (da := 0%N) (db := 0%N) in Hc by lia. exact Hc. }
  destruct (om_dup_ok (n := n) ltac:(lia) M3 Lo0 Lo1 Hc0 Hd1) as (d2 & -> & Hd2). cbn [bind]. fold ctrl in Hd2.
  destruct (@om_flags_ok n (w + 1 + C) w (rFlag rd) o0 o1 d2 _ ltac:(lia) M4 Lo0 Lo1 Hd2) as (d3 & -> & Hd3). cbn [bind].
  destruct (om_perm_reg_ok Hp M5 Hd3) as (d4 & -> & Hd4). cbn [bind].
  set (J := fun r => nth (blk_start ctrl (nth (nL + r) p 0)) q 0).
  assert (Hpr : forall r, r < nR -> nth (nL + r) p 0 < n) by (intros r Hr; apply (nthp Hp); lia).
  assert (HJ : forall r, r < nR -> first_eq K (nth (nL + r) K []) = Some (J r)).
  { intros r Hr. pose proof (@blk_first n kc K p q ctrl HK HS Hq Hpq Hc (nth (nL + r) p 0) (Hpr r Hr)) as H. rewrite Hqp in H by lia. exact H. }
  assert (HV : forall r, r < nR -> map2 N.lxor (nth (nL + r) (fst d4) []) (nth (nL + r) (snd d4) []) = xl (qSel q0) (qSel q1) (J r) ++ [N.b2n (J r <? nL)]).
  { intros r Hr. rewrite (pair_row Hd4) by lia. cbv beta. set (t := nth (nL + r) p 0). assert (Ht : t < n) by (apply Hpr, Hr).
    assert (EJ : D (nth (blk_start ctrl t) q 0) = D (J r)) by reflexivity. rewrite EJ. unfold D at 1 2.
    rewrite <- (Lxl (J r)) at 1 2. rewrite firstn_app, Nat.sub_diag, firstn_all, firstn_O, app_nil_r. f_equal. rewrite app_nth2, Nat.sub_diag by lia. cbn [app nth]. do 2 f_equal.
    destruct (Nat.ltb_spec (J r) nL) as [Hj|Hj]; [|apply Bool.andb_false_r]. rewrite Bool.andb_true_r.
    assert (E : nth t ctrl false = true).
    { destruct (nth t ctrl false) eqn:E; [reflexivity|]. exfalso. apply blk_start_self in E. unfold J in Hj. fold t in Hj. rewrite E in Hj. unfold t in Hj. rewrite Hqp in Hj by lia. lia. }
    unfold ctrl in E. rewrite map2_nth with (da := 0%N) (db := 0%N) in E by lia. exact E. }
  destruct Hd4 as (R0 & R1 & _).
  destruct (@out_cols_ok nL nR (w + 1) (fst d4) (snd d4) J R0 R1 _ _ Hs F0 F1 0) as (c0 & c1 & E0 & E1 & G0 & G1 & GI & GX).
  { fold w. lia. }
  { intros r Hr. exists [], [N.b2n (J r <? nL)]. split; [reflexivity|]. apply (HV r Hr). }
  fold w in E0, E1. unfold om_output. rewrite E0, E1. cbn [bind fst snd Nat.add]. replace (w + 1 - 1) with w by lia. rewrite Nat.eqb_refl. cbn [negb].
  assert (HA : forall d, rows_ok n (w + 1) d -> mapM (fun x => get x w) (skipn nL d) = Ok (map (fun r => nth w (nth (nL + r) d []) 0%N) (seq 0 nR))).
  { intros d Hd. rewrite (@skipn_rows nL nR (w + 1)) by exact Hd. rewrite mapM_map. apply mapM_ok. intros r Hr. apply in_seq in Hr. apply get_ok. rewrite (proj1 (rows_nth Hd (k := nL + r) ltac:(lia))). lia. }
  rewrite (HA _ R0), (HA _ R1). cbn [bind]. eexists _, _, J. split; [reflexivity|]. split; [exact HJ|].
  unfold shares_of. cbn [tCols tAct]. rewrite !map_length, seq_length.
  split; [exact G0|]. split; [exact G1|]. split; [exact GI|]. split; [reflexivity|]. split; [reflexivity|]. split; [|exact GX].
  apply nth_ext with 0%N 0%N; [rewrite map2_length, !map_length; lia|]. intros r Hr. rewrite map2_length, !map_length, seq_length, Nat.min_id in Hr.
  rewrite map2_nth with (da := 0%N) (db := 0%N) by (rewrite map_length, seq_length; exact Hr). rewrite !nth_map_seq' by exact Hr. cbn [Nat.add].
  pose proof (HV r Hr) as H. apply (f_equal (fun l => nth w l 0%N)) in H.
  rewrite map2_nth with (da := 0%N) (db := 0%N) in H by (rewrite ?(proj1 (rows_nth R0 (k := nL + r) ltac:(lia))), ?(proj1 (rows_nth R1 (k := nL + r) ltac:(lia))); lia).
  rewrite H, <- (Lxl (J r)), app_nth2, Nat.sub_diag by lia. reflexivity.
Qed.
