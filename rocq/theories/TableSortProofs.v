(* Table::permute and Table::sort *)
From Coq Require Import Sorting.Sorted.
From Verif Require Import Base Words PermModel PermSpec PermProofs KeyMultModel ShuffleModel ShuffleSpec ShuffleSpanProofs BitInjProofs RadixModel RadixSpec RadixSortProofs StableSortProofs TableModel TableSpec TrimProofs TableProofs.

Definition perm_table (p : list nat) (t : table) : table :=
  Tab (match tAct t with [] => [] | _ => pick 0%N p (tAct t) end) (map (fun c => with_rows c (pick [] p (bRows (cDat c)))) (tCols t)).

Lemma pick_length A (d : A) p l : length (pick d p l) = length p.
Proof. apply map_length. Qed.
Lemma pick_nth A (d : A) p l i : i < length p -> nth i (pick d p l) d = nth (nth i p 0) l d.
Proof.
  intros H. unfold pick. rewrite (nth_indep _ d (nth 0 l d)) by (rewrite map_length; exact H). rewrite (map_nth (fun i => nth i l d)). reflexivity.
Qed.
Lemma pick_pick A (d : A) n q p l : is_perm n q -> length p = n -> pick d q (pick d p l) = pick d (pick 0 q p) l.
Proof.
  intros Hq Lp. unfold pick at 1 3. unfold pick at 2. rewrite map_map. apply map_ext_in. intros i Hi. apply pick_nth. rewrite Lp.
  apply (Permutation_in _ Hq) in Hi. apply in_seq in Hi. lia.
Qed.
Lemma pick_perm n q p : is_perm n q -> is_perm n p -> is_perm n (pick 0 q p).
Proof.
  intros Hq Hp. unfold is_perm, pick in *. rewrite Hq. rewrite <- Hp at 2. pose proof (Permutation_length Hp) as L. rewrite seq_length in L. rewrite <- L.
  replace (map (fun i => nth i p 0) (seq 0 (length p))) with p; [reflexivity|]. apply nth_ext with 0 0; [rewrite map_length, seq_length; reflexivity|].
  intros i Hi. rewrite (@nth_map_seq' _ _ 0 (length p) i 0) by exact Hi. reflexivity.
Qed.
Lemma pick_gather A (d : A) p l : pick d p l = gather d p l.
Proof. reflexivity. Qed.
Lemma pick_id A (d : A) l : pick d (seq 0 (length l)) l = l.
Proof. unfold pick. apply nth_ext with d d; [rewrite map_length, seq_length; reflexivity|]. rewrite map_length, seq_length. intros i Hi. rewrite (@nth_map_seq' _ _ 0 (length l) i d) by exact Hi. reflexivity. Qed.

Lemma pick_rows_ok n c p m : is_perm n p -> rows_ok n c m -> rows_ok n c (pick [] p m).
Proof.
  intros Hp Hm. split; [rewrite pick_length; apply (is_perm_length Hp)|]. apply Forall_forall. intros x Hx. unfold pick in Hx. apply in_map_iff in Hx. destruct Hx as (i & <- & Hi).
  apply (Permutation_in _ Hp) in Hi. apply in_seq in Hi. apply (rows_nth Hm). lia.
Qed.

Lemma col_rows_ok n c : col_ok n c -> rows_ok n (bCols (cDat c)) (bRows (cDat c)).
Proof. intros ([H _] & E & _). rewrite E in H. exact H. Qed.

Lemma perm_table_ok n p t : is_perm n p -> t_ok n t -> t_ok n (perm_table p t).
Proof.
  intros Hp (Hn & Hc & HA). assert (HC : Forall (col_ok n) (tCols (perm_table p t))).
  { cbn [perm_table tCols]. apply Forall_forall. intros c Hin. apply in_map_iff in Hin. destruct Hin as (c0 & <- & Hin). rewrite Forall_forall in Hc. specialize (Hc c0 Hin).
    apply (with_rows_ok Hc). apply (pick_rows_ok Hp). apply col_rows_ok. exact Hc. }
  split; [|split; [exact HC|]].
  - rewrite <- Hn. unfold t_rows. cbn [perm_table tCols] in *. destruct (tCols t) as [|c l]; [reflexivity|]. cbn [map] in *. apply Forall_cons_iff in HC, Hc. destruct HC as [(_ & E1 & _) _], Hc as [(_ & E2 & _) _]. congruence.
  - cbn [perm_table tAct]. destruct (tAct t) as [|f l]; [left; reflexivity|]. right. rewrite pick_length. apply (is_perm_length Hp).
Qed.

Lemma t_permute_ok n p t : is_perm n p -> t_ok n t -> t_permute p Regular t = Ok (perm_table p t).
Proof.
  intros Hp (Hn & Hc & HA). unfold t_permute. rewrite Forall_forall in Hc.
  rewrite (@mapM_ok _ _ _ (fun c => with_rows c (pick [] p (bRows (cDat c))))).
  2:{ intros c Hin. destruct (Hc c Hin) as ([_ E] & Hbn & _). unfold permute_col. cbv zeta. rewrite E, Nat.eqb_refl. cbn [negb throw_if bind].
      rewrite perm_apply_vec_gather; [cbn [bind]; unfold with_rows; rewrite E; reflexivity|rewrite (is_perm_length Hp); exact Hbn|]. apply (perm_range Hp). }
  cbn [bind]. unfold perm_table. destruct (tAct t) as [|f l] eqn:EA; cbn [length Nat.ltb Nat.leb bind]; [reflexivity|]. destruct HA as [HA|HA]; [discriminate|].
  rewrite perm_apply_vec_gather; [reflexivity|rewrite (is_perm_length Hp); exact HA|apply (perm_range Hp)].
Qed.

(* the inverse direction undoes it *)
Lemma applyInv_pick A (d z : A) n p l : is_perm n p -> length l = n -> perm_applyInv_vec z p (pick d p l) = Ok l.
Proof.
  intros Hp L. pose proof (is_perm_length Hp) as Lp. destruct (@perm_applyInv_vec_spec _ z p (pick d p l)) as (r & E & Lr & H); [apply pick_length|rewrite Lp; exact Hp|].
  rewrite E. f_equal. apply nth_error_ext_len; [lia|]. intros k Hk. destruct (@is_perm_onto _ _ k Hp) as [i [_ Hi]]; [lia|].
  rewrite (H _ _ Hi). pose proof (nth_error_lt Hi) as Hil. rewrite (@nth_error_nth_lt _ (pick d p l) i d) by (rewrite pick_length; exact Hil).
  rewrite pick_nth by exact Hil. rewrite (nth_error_nth _ _ 0 Hi). symmetry. apply nth_error_nth_lt. lia.
Qed.
Lemma t_permute_inverse n p t : is_perm n p -> t_ok n t -> t_permute p Inverse (perm_table p t) = Ok t.
Proof.
  intros Hp (Hn & Hc & HA). unfold t_permute. cbn [perm_table tCols tAct]. rewrite Forall_forall in Hc.
  assert (HM : mapM (permute_col p Inverse) (map (fun c => with_rows c (pick [] p (bRows (cDat c)))) (tCols t)) = Ok (tCols t)).
  { clear - Hc Hp. induction (tCols t) as [|c l IH]; cbn [map mapM]; [reflexivity|]. destruct (Hc c (or_introl eq_refl)) as ([_ E] & Hbn & _).
    unfold permute_col at 1. cbn [with_rows cDat bCols bBits bRows]. rewrite <- E, Nat.eqb_refl. cbn [negb throw_if bind].
    rewrite (@applyInv_pick _ [] [] n p (bRows (cDat c)) Hp Hbn). cbn [bind]. change (Col _ _ _ _) with (with_rows c (bRows (cDat c))). rewrite with_rows_id.
    rewrite IH by (intros x Hx; apply Hc; right; exact Hx). reflexivity. }
  rewrite HM. cbn [bind]. destruct t as [act cs]. cbn [tAct tCols] in *. destruct act as [|f l]; [reflexivity|]. destruct HA as [HA|HA]; [discriminate|].
  assert ((0 <? length (pick 0%N p (f :: l))) = true) as -> by (apply Nat.ltb_lt; rewrite pick_length, (is_perm_length Hp), <- HA; cbn [length]; lia).
  rewrite (@applyInv_pick _ 0%N 0%N n p (f :: l) Hp HA). reflexivity.
Qed.

(* ---------- sort ---------- *)
Lemma col_sort_ok n c : col_ok n c -> is_perm n (col_sort c) /\ StronglySorted (stable_rel (fun i => le_num (nth i (bRows (cDat c)) [])) lt) (col_sort c).
Proof.
  intros Hc. pose proof (col_rows_ok Hc) as R. destruct Hc as (_ & Hbn & _). unfold col_sort. rewrite Hbn. split; [apply stable_sort_perm|]. apply stable_sort_sorted; [|apply seq_sorted].
  intros x y Hx Hy. apply in_seq in Hx, Hy. rewrite <- (app_nil_r (concat (bRows (cDat c)))). rewrite !(@slice_rows n) by (assumption || lia).
  destruct (@rows_nth _ _ _ x R ltac:(lia)) as [Lx Bx]. destruct (@rows_nth _ _ _ y R ltac:(lia)) as [Ly By]. apply less_than_ok; congruence || assumption.
Qed.

Definition suffix_rel (t : table) (k a b : nat) : Prop :=
  lexlt (skipn k (row_keys t a)) (skipn k (row_keys t b)) \/ (skipn k (row_keys t a) = skipn k (row_keys t b) /\ a < b).

Lemma row_keys_skipn t k i c : k < length (tCols t) -> nth k (tCols t) c = c ->
  skipn k (row_keys t i) = le_num (nth i (bRows (cDat (nth k (tCols t) c))) []) :: skipn (S k) (row_keys t i).
Proof.
  intros Hk _. unfold row_keys. rewrite !skipn_map.
  assert (forall (l : list column) k, k < length l -> skipn k l = nth k l c :: skipn (S k) l) as HS.
  { clear. induction l as [|x l IH]; intros [|k] Hk; cbn [length] in Hk; try lia; [reflexivity|]. cbn [skipn nth]. apply IH. lia. }
  rewrite (HS _ _ Hk). reflexivity.
Qed.

Lemma t_sort_ok n t : t_ok n t -> exists p, is_perm n p /\ t_sort t = Ok (perm_table p t) /\
  forall i j, i < j < n -> suffix_rel t 0 (nth i p 0) (nth j p 0).
Proof.
  intros HT. unfold t_sort. set (m := length (tCols t)).
  match goal with |- exists p, _ /\ forN 0 m ?f t = _ /\ _ =>
    destruct (@forN_inv _ (fun k s => exists p, is_perm n p /\ s = perm_table p t /\ forall i j, i < j < n -> suffix_rel t (m - k) (nth i p 0) (nth j p 0)) f m 0 t) as (s & E & p & Hp & -> & HR) end.
  - exists (seq 0 n). split; [apply Permutation_refl|]. split.
    + unfold perm_table. destruct HT as (Hn & Hc & HA). destruct t as [act cs]. cbn [tAct tCols] in *. f_equal.
      * destruct act as [|f l]; [reflexivity|]. destruct HA as [HA|HA]; [discriminate|]. rewrite <- HA. symmetry. apply pick_id.
      * clear - Hc. induction cs as [|c cs IH]; [reflexivity|]. apply Forall_cons_iff in Hc. destruct Hc as [(_ & Hbn & _) Hc]. cbn [map]. rewrite <- IH by exact Hc. f_equal.
        unfold bm_n in Hbn. rewrite <- Hbn, pick_id, with_rows_id. reflexivity.
    + intros i j Hij. right. rewrite Nat.sub_0_r, !skipn_all2 by (unfold row_keys; rewrite map_length; apply le_n). rewrite !seq_nth by lia. split; [reflexivity|lia].
  - intros k s Hk (p & Hp & -> & HR). pose proof (perm_table_ok Hp HT) as HT'. pose proof (is_perm_length Hp) as Lp.
    assert (Lm : length (tCols (perm_table p t)) = m) by (cbn [perm_table tCols]; apply map_length). rewrite Lm.
    set (c0 := Col [] 0 0 (BM 0 0 [])).
    set (x := m - 1 - k). assert (Hx : x < m) by (unfold x; lia).
    rewrite (@get_ok _ _ x (with_rows c0 (pick [] p (bRows (cDat c0))))) by (rewrite Lm; exact Hx). cbn [bind perm_table tCols]. rewrite (map_nth (fun c => with_rows c (pick [] p (bRows (cDat c))))).
    set (c := nth x (tCols t) c0). assert (Hc : col_ok n c).
    { destruct HT as (_ & Hc & _). rewrite Forall_forall in Hc. apply Hc. apply nth_In. exact Hx. }
    set (c' := with_rows c (pick [] p (bRows (cDat c)))). assert (Hc' : col_ok n c') by (apply (with_rows_ok Hc), (pick_rows_ok Hp), col_rows_ok, Hc).
    destruct (col_sort_ok Hc') as [Hq HS]. set (q := col_sort c') in *. change (Tab _ _) with (perm_table p t). rewrite (@t_permute_ok n q _ Hq HT').
    eexists. split; [reflexivity|]. exists (pick 0 q p). split; [apply pick_perm; assumption|]. split.
    + unfold perm_table. cbn [tAct tCols]. destruct HT as (Hn & HCs & HA). f_equal.
      * destruct (tAct t) as [|f l] eqn:EA; [reflexivity|]. destruct HA as [HA|HA]; [discriminate|].
        destruct (pick 0%N p (f :: l)) as [|f' l'] eqn:EP; [apply (f_equal (@length N)) in EP; rewrite pick_length, Lp, <- HA in EP; discriminate|]. rewrite <- EP. apply (@pick_pick _ 0%N n); assumption.
      * rewrite map_map. apply map_ext. intros d. unfold with_rows. cbn [cName cType cBits cDat bBits bCols bRows]. do 2 f_equal. apply (@pick_pick _ [] n); assumption.
    + intros i j Hij. pose proof (is_perm_length Hq) as Lq. rewrite !pick_nth by lia.
      assert (Hqi : forall i, i < n -> nth i q 0 < n) by (intros u Hu; apply (@is_perm_lt _ _ u _ Hq), nth_error_nth_lt; lia).
      pose proof (@sorted_nth _ _ q i j 0 HS ltac:(lia)) as HSij. unfold stable_rel in HSij.
      assert (Hrow : forall u, u < n -> nth u (bRows (cDat c')) [] = nth (nth u p 0) (bRows (cDat c)) []) by (intros u Hu; unfold c'; rewrite with_rows_rows; apply pick_nth; lia).
      rewrite !Hrow in HSij by (apply Hqi; lia).
      replace (m - (k + 1)) with x by (unfold x; lia). unfold suffix_rel.
      assert (Ecc : forall u, skipn x (row_keys t u) = le_num (nth u (bRows (cDat c)) []) :: skipn (S x) (row_keys t u)).
      { intros u. unfold c. rewrite <- (nth_indep (tCols t) (nth x (tCols t) c0) c0) at 1 by exact Hx. apply row_keys_skipn; [exact Hx|]. apply nth_indep. exact Hx. }
      rewrite !Ecc. cbn [lexlt]. destruct HSij as [HSij|[HSij Hlt]]; [left; left; exact HSij|]. rewrite HSij.
      specialize (HR (nth i q 0) (nth j q 0) (conj Hlt (Hqi j ltac:(lia)))). replace (m - k) with (S x) in HR by (unfold x; lia).
      destruct HR as [HR|[HR HR']]; [left; right; split; [reflexivity|exact HR]|right; split; [rewrite HR; reflexivity|exact HR']].
  - exists p. split; [exact Hp|]. split; [exact E|]. cbn [Nat.add] in HR. rewrite Nat.sub_diag in HR. exact HR.
Qed.
