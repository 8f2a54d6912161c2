(* Packing the columns of a table into the rows of one matrix, and sharing. *)
From Verif Require Import Base Words PermModel PermSpec PermProofs PermCorProofs KeyMultModel ShuffleModel ShuffleSpec RadixModel RadixSpec TableModel TableSpec TrimProofs TableProofs TableSortProofs
  TableOpsSpec JoinProofs AverageProofs BitInjProofs OmJoinModel OmJoinSpec.

(* ---- shares ---- *)
Lemma nth_xor_rows n a b i : length a = n -> length b = n -> i < n -> nth i (xor_rows a b) [] = map2 N.lxor (nth i a []) (nth i b []).
Proof. intros La Lb Hi. unfold xor_rows. apply map2_nth; lia. Qed.
Lemma xor_row_cancel_l : forall r x : list N, length x = length r -> map2 N.lxor r (map2 N.lxor r x) = x.
Proof.
  induction r as [|a r IH]; intros [|b x] H; try discriminate H; [reflexivity|]. cbn [map2]. injection H as H. rewrite IH by exact H.
  rewrite <- N.lxor_assoc, N.lxor_nilpotent, N.lxor_0_l. reflexivity.
Qed.
Lemma xor_rows_ext n c a b : rows_ok n c a -> length b = n -> (forall i, i < n -> nth i a [] = nth i b []) -> a = b.
Proof. intros [La _] Lb H. apply nth_ext with [] []; [lia|]. intros i Hi. apply H. lia. Qed.
Lemma reshare_xor n c m v : rows_ok n c m -> rows_ok n c v -> xor_rows (fst (reshare m v)) (snd (reshare m v)) = v.
Proof.
  intros Hm Hv. unfold reshare. cbn [fst snd]. assert (HX : rows_ok n c (xor_rows m v)) by (apply xor_rows_ok; assumption).
  symmetry. eapply xor_rows_ext; [exact Hv| |].
  - unfold xor_rows at 1. rewrite map2_length, (proj1 Hm), (proj1 HX). lia.
  - intros i Hi. rewrite (@nth_xor_rows n), (@nth_xor_rows n) by (try exact Hi; try apply Hm; try apply Hv; apply HX).
    rewrite xor_row_cancel_l; [reflexivity|]. rewrite (proj1 (rows_nth Hm Hi)). apply (rows_nth Hv Hi).
Qed.
Lemma reshare_ok n c m v : rows_ok n c m -> rows_ok n c v -> rows_ok n c (fst (reshare m v)) /\ rows_ok n c (snd (reshare m v)).
Proof. intros Hm Hv. split; [exact Hm|apply xor_rows_ok; assumption]. Qed.
Lemma map2_slice (a b : list N) o k : length a = length b -> slice (map2 N.lxor a b) o k = map2 N.lxor (slice a o k) (slice b o k).
Proof.
  intros H. unfold slice. revert a b H. induction o as [|o IH]; intros a b H.
  - cbn [skipn]. revert k. revert b H. induction a as [|x a IHa]; intros [|y b] H k; try discriminate H; [destruct k; reflexivity|].
    destruct k as [|k]; [reflexivity|]. cbn [map2 firstn]. rewrite IHa by (injection H; auto). reflexivity.
  - destruct a as [|x a], b as [|y b]; try discriminate H; [destruct k; reflexivity|]. cbn [map2 skipn]. apply IH. injection H; auto.
Qed.
Lemma map2_zeros k : map2 N.lxor (repeat 0%N k) (repeat 0%N k) = repeat 0%N k.
Proof. induction k as [|k IH]; [reflexivity|]. cbn [repeat map2]. rewrite IH. reflexivity. Qed.
Lemma slice_app_l A (a b : list A) k : length a = k -> slice (a ++ b) 0 k = a.
Proof. intros <-. unfold slice. cbn [skipn]. rewrite firstn_app, Nat.sub_diag, firstn_all. cbn. apply app_nil_r. Qed.
Lemma slice_app_r A (a b : list A) o k : slice (a ++ b) (length a + o) k = slice b o k.
Proof. unfold slice. rewrite skipn_app, skipn_all2 by lia. rewrite app_nil_l. f_equal. f_equal. lia. Qed.
Lemma slice_mid A (a b c : list A) k : length b = k -> slice (a ++ b ++ c) (length a) k = b.
Proof. intros H. rewrite <- (Nat.add_0_r (length a)), slice_app_r. apply slice_app_l, H. Qed.
Lemma readN_ok A (l : list A) o k : o + k <= length l -> readN l o k = Ok (slice l o k).
Proof. intros H. unfold readN. rewrite (proj2 (Nat.leb_le _ _) H). reflexivity. Qed.
Lemma rows_map n c f : (forall i, i < n -> length (f i) = c /\ bytes (f i)) -> rows_ok n c (map f (seq 0 n)).
Proof.
  intros H. split; [rewrite map_length; apply seq_length|]. apply Forall_forall. intros x Hx. apply in_map_iff in Hx. destruct Hx as (i & <- & Hi). apply in_seq in Hi. apply H. lia.
Qed.
Lemma bytes_app a b : bytes a -> bytes b -> bytes (a ++ b).
Proof. intros H1 H2. apply Forall_app. split; assumption. Qed.
Lemma bytes_zeros k : bytes (repeat 0%N k).
Proof. apply Forall_forall. intros x Hx. apply repeat_spec in Hx. subst x. reflexivity. Qed.
Lemma rows_map_nth n c m : rows_ok n c m -> m = map (fun i => nth i m []) (seq 0 n).
Proof.
  intros [L _]. apply nth_ext with [] []; [rewrite map_length, seq_length; exact L|]. intros i Hi. rewrite nth_map_seq' by lia. reflexivity.
Qed.

Lemma mapM_map A B C (f : B -> outcome C) (h : A -> B) l : mapM f (map h l) = mapM (fun a => f (h a)) l.
Proof. induction l as [|a l IH]; [reflexivity|]. cbn [map mapM]. rewrite IH. reflexivity. Qed.
Lemma overwrite_zeros (a x : list N) k : length x <= k -> overwrite (a ++ repeat 0%N k) (length a) x = a ++ x ++ repeat 0%N (k - length x).
Proof.
  intros H. unfold overwrite. rewrite firstn_app, Nat.sub_diag, firstn_all. cbn [firstn]. rewrite app_nil_r. f_equal. f_equal.
  rewrite skipn_app, skipn_all2 by lia. replace (length a + length x - length a) with (length x) by lia. cbn [app].
  replace k with (length x + (k - length x)) at 1 by lia. rewrite repeat_app, skipn_app, skipn_all2 by (rewrite repeat_length; lia).
  rewrite repeat_length, Nat.sub_diag. reflexivity.
Qed.

(* ---- packing ---- *)
Lemma write_col_ok n m c off size k src A : 0 < m -> m <= n -> bm_n src = m -> rows_ok m c (bRows src) -> bCols src = c -> div_ceil size 8 = c -> off mod 8 = 0 ->
  (forall i, i < n -> length (A i) = off / 8) -> c <= k ->
  write_col off size src (map (fun i => A i ++ repeat 0%N k) (seq 0 n)) =
  Ok (map (fun i => A i ++ nth i (bRows src) (repeat 0%N c) ++ repeat 0%N (k - c)) (seq 0 n)).
Proof.
  intros Hm Hmn Em Hrows Ec Es Ho HA Hc. unfold write_col. rewrite map_length, seq_length, Em, Ec, Es, Ho, !Nat.eqb_refl.
  replace (m =? 0) with false by lia. replace (n <? m) with false by lia. cbn [orb negb].
  set (f := fun i => A i ++ repeat 0%N k). set (g := fun i => A i ++ nth i (bRows src) (repeat 0%N c) ++ repeat 0%N (k - c)).
  assert (Ef : map f (seq 0 n) = map f (seq 0 m) ++ map (fun t => f (m + t)) (seq 0 (n - m))) by (rewrite <- seq_app_map; do 2 f_equal; lia).
  assert (Eg : map g (seq 0 n) = map g (seq 0 m) ++ map (fun t => g (m + t)) (seq 0 (n - m))) by (rewrite <- seq_app_map; do 2 f_equal; lia).
  rewrite Ef, Eg.
  assert (Eh : mapM (fun q => writeN (snd q) (off / 8) (fst q)) (combine (bRows src) (map f (seq 0 m) ++ map (fun t => f (m + t)) (seq 0 (n - m)))) = Ok (map g (seq 0 m))).
  { assert (Ecm : combine (bRows src) (map f (seq 0 m) ++ map (fun t => f (m + t)) (seq 0 (n - m))) = map (fun i => (nth i (bRows src) [], f i)) (seq 0 m)).
    { rewrite (rows_map_nth Hrows) at 1. generalize (map (fun t => f (m + t)) (seq 0 (n - m))). intros tl. generalize (seq 0 m). intros l. induction l as [|x l IH]; [reflexivity|].
      cbn [map app combine]. rewrite IH. reflexivity. }
    rewrite Ecm, mapM_map. apply mapM_ok. intros i Hi. apply in_seq in Hi. cbn [fst snd]. unfold f, g.
    destruct (rows_nth Hrows (k := i) ltac:(lia)) as [Li _].
    rewrite writeN_ok by (rewrite app_length, repeat_length, HA, Li by lia; lia). f_equal.
    rewrite <- (HA i) by lia. rewrite overwrite_zeros by lia. rewrite Li. rewrite (nth_indep _ [] (repeat 0%N c)) by (rewrite (proj1 Hrows); lia). reflexivity. }
  rewrite Eh. cbn [bind]. f_equal. f_equal.
  rewrite skipn_app, skipn_all2 by (rewrite map_length, seq_length; lia). rewrite map_length, seq_length, Nat.sub_diag. cbn [skipn app].
  apply map_ext_in. intros t Ht. unfold f, g. rewrite nth_overflow by (rewrite (proj1 Hrows); lia). rewrite <- repeat_app. do 2 f_equal. lia.
Qed.

(* row i of the left columns next to each other; zeros after the last row *)
Definition lpart (sel : list osel) (i : nat) : list N :=
  concat (map (fun s => nth i (bRows (cDat (oCol s))) (repeat 0%N (div_ceil (cBits (oCol s)) 8))) (filter oLeft sel)).

Lemma lpart_cons s sel i : lpart (s :: sel) i = if oLeft s then nth i (bRows (cDat (oCol s))) (repeat 0%N (div_ceil (cBits (oCol s)) 8)) ++ lpart sel i else lpart sel i.
Proof. unfold lpart. cbn [filter]. destruct (oLeft s); reflexivity. Qed.
Lemma col_row_len n c i : col_ok n c -> length (nth i (bRows (cDat c)) (repeat 0%N (div_ceil (cBits c) 8))) = div_ceil (cBits c) 8 /\ bytes (nth i (bRows (cDat c)) (repeat 0%N (div_ceil (cBits c) 8))).
Proof.
  intros Hc. pose proof (col_rows_ok Hc) as Hr. destruct Hc as ((_ & Ec) & Hn & Eb & _).
  destruct (Nat.lt_ge_cases i n) as [Hi|Hi].
  - rewrite (nth_indep _ _ []) by (rewrite (proj1 Hr); exact Hi). rewrite Eb, <- Ec. apply (rows_nth Hr Hi).
  - rewrite nth_overflow by (rewrite (proj1 Hr); exact Hi). split; [apply repeat_length|apply bytes_zeros].
Qed.
Lemma left_bits_mod sel : left_bits sel mod 8 = 0.
Proof. induction sel as [|s sel IH]; [reflexivity|]. cbn [left_bits]. destruct (oLeft s); lia. Qed.
Lemma lpart_len nL nR sel i : Forall (sel_ok nL nR) sel -> length (lpart sel i) = left_bits sel / 8 /\ bytes (lpart sel i).
Proof.
  induction sel as [|s sel IH]; intros H; [split; [reflexivity|constructor]|]. apply Forall_cons_iff in H. destruct H as [Hs H].
  specialize (IH H). rewrite lpart_cons. cbn [left_bits]. pose proof (left_bits_mod sel). unfold sel_ok in Hs. destruct (oLeft s).
  - destruct (col_row_len i Hs) as [L1 B1]. rewrite app_length, L1, (proj1 IH). split; [lia|]. apply bytes_app; [exact B1|apply IH].
  - exact IH.
Qed.

Lemma concat_left nL nR n rest orest : 0 < nL -> nL <= n -> forall sel d k A, Forall (sel_ok nL nR) sel -> d mod 8 = 0 -> (forall i, i < n -> length (A i) = d / 8) -> left_bits sel / 8 <= k ->
  concat_cols (map Some (left_cols sel) ++ rest) (left_offs d sel ++ orest) (map (fun i => A i ++ repeat 0%N k) (seq 0 n)) =
  concat_cols rest orest (map (fun i => (A i ++ lpart sel i) ++ repeat 0%N (k - left_bits sel / 8)) (seq 0 n)).
Proof.
  intros HnL Hn. induction sel as [|s sel IH]; intros d k A H Hd HA Hk.
  - cbn [left_cols filter map app left_offs left_bits]. f_equal. apply map_ext. intros i. unfold lpart. cbn. rewrite app_nil_r, Nat.sub_0_r. reflexivity.
  - apply Forall_cons_iff in H. destruct H as [Hs H]. unfold left_cols. cbn [filter left_offs left_bits] in *. unfold sel_ok in Hs. destruct (oLeft s) eqn:El.
    + pose proof (col_rows_ok Hs) as Hr. pose proof Hs as ((_ & Ec) & Hnn & Eb & _). pose proof (left_bits_mod sel) as Hlm.
      cbn [map app concat_cols fst snd].
      rewrite (@write_col_ok n nL (bCols (cDat (oCol s))) d (cBits (oCol s)) k); try assumption; try reflexivity; try (rewrite Eb, Ec; reflexivity); [|rewrite Ec, <- Eb; lia].
      cbn [bind]. rewrite (map_ext_in _ (fun i => (A i ++ nth i (bRows (cDat (oCol s))) (repeat 0%N (div_ceil (cBits (oCol s)) 8))) ++ repeat 0%N (k - bCols (cDat (oCol s)))))
        by (intros i _; rewrite app_assoc; rewrite Eb, <- Ec; reflexivity).
      fold (left_cols sel). rewrite IH.
      * f_equal. apply map_ext. intros i. rewrite lpart_cons, El, <- !app_assoc. do 3 f_equal. rewrite Ec, <- Eb. f_equal. lia.
      * exact H.
      * lia.
      * intros i Hi. rewrite app_length, HA by exact Hi. rewrite (proj1 (col_row_len i Hs)). lia.
      * rewrite Ec, <- Eb. lia.
    + fold (left_cols sel). rewrite IH; try assumption; try lia. f_equal. apply map_ext. intros i. rewrite lpart_cons, El. cbn [Nat.add]. reflexivity.
Qed.
