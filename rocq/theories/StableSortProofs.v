(* std::stable_sort as modelled in RadixModel.v, and mockSort *)
From Coq Require Import Sorting.Sorted.
From Verif Require Import Base PermModel PermSpec PermProofs PermCorSpec ShuffleModel ShuffleSpec ShuffleSpanProofs RadixModel RadixSpec BitInjProofs RadixRankProofs RadixSortProofs.

Section Sort.
Variables (A : Type) (lt : A -> A -> bool) (key : A -> N) (R : A -> A -> Prop).

Lemma st_insert_perm x l : Permutation (st_insert lt x l) (x :: l).
Proof.
  induction l as [|y l IH]; [reflexivity|]. cbn [st_insert]. destruct (lt y x); [|reflexivity].
  rewrite IH. apply perm_swap.
Qed.
Lemma stable_sort_perm l : Permutation (stable_sort lt l) l.
Proof.
  induction l as [|x l IH]; [reflexivity|]. cbn [stable_sort fold_right]. rewrite st_insert_perm. apply perm_skip. exact IH.
Qed.

Definition stable_rel (x y : A) : Prop := (key x < key y)%N \/ (key x = key y /\ R x y).

Lemma st_insert_sorted x l : (forall y, In y l -> lt y x = (key y <? key x)%N) -> Forall (R x) l -> StronglySorted stable_rel l ->
  StronglySorted stable_rel (st_insert lt x l).
Proof.
  intros Hlt HR HS. induction HS as [|y l HS IH HF]; cbn [st_insert]; [repeat constructor|].
  apply Forall_cons_iff in HR. destruct HR as [Ry Rl]. rewrite (Hlt y) by (left; reflexivity). destruct (N.ltb_spec (key y) (key x)) as [H|H].
  - constructor; [apply IH; [intros z Hz; apply Hlt; right; exact Hz|exact Rl]|].
    apply Forall_forall. intros z Hz. apply (Permutation_in _ (st_insert_perm x l)) in Hz. destruct Hz as [<-|Hz]; [left; exact H|].
    rewrite Forall_forall in HF. apply HF. exact Hz.
  - constructor; [constructor; assumption|]. constructor.
    + destruct (N.lt_trichotomy (key x) (key y)) as [Hk|[Hk|Hk]]; [left; exact Hk|right; split; assumption|lia].
    + apply Forall_forall. intros z Hz. rewrite Forall_forall in HF, Rl. specialize (HF z Hz). specialize (Rl z Hz).
      unfold stable_rel in *. destruct HF as [HF|[HF _]]; [left; lia|]. rewrite <- HF. destruct (N.lt_trichotomy (key x) (key y)) as [Hk|[Hk|Hk]]; [left; exact Hk|right; split; assumption|lia].
Qed.

Lemma stable_sort_sorted l : (forall x y, In x l -> In y l -> lt x y = (key x <? key y)%N) -> StronglySorted R l -> StronglySorted stable_rel (stable_sort lt l).
Proof.
  intros Hlt HS. induction HS as [|x l HS IH HF]; [constructor|]. cbn [stable_sort fold_right]. apply st_insert_sorted.
  - intros y Hy. apply Hlt; [right; apply (Permutation_in _ (stable_sort_perm l)); exact Hy|left; reflexivity].
  - apply Forall_forall. intros y Hy. rewrite Forall_forall in HF. apply HF. apply (Permutation_in _ (stable_sort_perm l)). exact Hy.
  - apply IH. intros a b Ha Hb. apply Hlt; right; assumption.
Qed.
End Sort.

Lemma sorted_nth A (R : A -> A -> Prop) l i j d : StronglySorted R l -> i < j < length l -> R (nth i l d) (nth j l d).
Proof.
  intros HS. revert i j. induction HS as [|x l HS IH HF]; intros i j Hij; cbn [length] in Hij; [lia|].
  destruct j as [|j]; [lia|]. destruct i as [|i]; cbn [nth]; [|apply IH; lia]. rewrite Forall_forall in HF. apply HF, nth_In. lia.
Qed.
Lemma seq_sorted n m : StronglySorted lt (seq m n).
Proof.
  revert m. induction n as [|n IH]; intros m; cbn [seq]; constructor; [apply IH|]. apply Forall_forall. intros y Hy. apply in_seq in Hy. lia.
Qed.

(* the inverse of a sorted list of rows is a sorting permutation *)
Lemma sorted_inverse n key s p : is_perm n s -> StronglySorted (stable_rel key lt) s -> perm_inverse s = Ok p -> sorts n key p.
Proof.
  intros Hs HS Hp. destruct (perm_inverse_ok Hs) as (p' & E & Pp & HI). rewrite E in Hp. injection Hp as ->. split; [exact Pp|].
  assert (Hpos : forall i, i < n -> nth i p 0 < n /\ nth (nth i p 0) s 0 = i).
  { intros i Hi. assert (Ei : nth_error p i = Some (nth i p 0)) by (apply nth_error_nth'; rewrite (is_perm_length Pp); exact Hi).
    pose proof (is_perm_lt Pp Ei) as Hl. split; [exact Hl|]. assert (nth_error s (nth i p 0) = Some i) as Es by (apply HI; split; assumption).
    apply nth_error_nth. exact Es. }
  assert (Hone : forall i j, i < n -> j < n -> nth i p 0 < nth j p 0 -> stable_rel key lt i j).
  { intros i j Hi Hj Hl. destruct (Hpos i Hi) as [_ Ei]. destruct (Hpos j Hj) as [Bj Ej].
    pose proof (@sorted_nth _ _ s (nth i p 0) (nth j p 0) 0 HS ltac:(rewrite (is_perm_length Hs); lia)) as H. rewrite Ei, Ej in H. exact H. }
  intros i j Hi Hj. split; [apply Hone; assumption|]. intros H. destruct (Nat.lt_trichotomy (nth i p 0) (nth j p 0)) as [Hl|[He|Hg]]; [exact Hl| |].
  - exfalso. destruct (Hpos i Hi) as [_ Ei]. destruct (Hpos j Hj) as [_ Ej]. rewrite He, Ej in Ei. subst j. destruct H as [H|[_ H]]; lia.
  - exfalso. destruct (Hone j i Hj Hi Hg) as [H'|[H' H'']]; destruct H as [H|[H1 H2]]; lia.
Qed.

(* ---------- comparing rows ---------- *)
Lemma le_num_app l x : le_num (l ++ [x]) = (le_num l + 256 ^ N.of_nat (length l) * x)%N.
Proof.
  induction l as [|y l IH]; [cbn [app le_num fold_right length]; change (256 ^ N.of_nat 0)%N with 1%N; lia|]. cbn [app le_num fold_right length]. change (fold_right _ 0%N (l ++ [x])) with (le_num (l ++ [x])).
  change (fold_right _ 0%N l) with (le_num l). rewrite IH, Nat2N.inj_succ, N.pow_succ_r'. ring.
Qed.
Lemma le_num_lt l : bytes l -> (le_num l < 256 ^ N.of_nat (length l))%N.
Proof.
  intros H. rewrite le_num_load by exact H. pose proof (@load_lt l H (length l) ltac:(lia)). rewrite N.pow_mul_r in H0. exact H0.
Qed.
Lemma less_than_ok l : forall r, length l = length r -> bytes l -> bytes r -> less_than l r = (le_num l <? le_num r)%N.
Proof.
  induction l as [|x l IH] using rev_ind; intros r HL Hl Hr.
  - destruct r; [reflexivity|discriminate].
  - destruct r as [|y r _] using rev_ind; [rewrite app_length in HL; cbn in HL; lia|]. rewrite !app_length in HL. cbn [length] in HL.
    apply Forall_app in Hl, Hr. destruct Hl as [Hl _], Hr as [Hr _]. assert (EL : length l = length r) by lia.
    unfold less_than. rewrite !rev_unit. cbn [less_rev]. change (less_rev (rev l) (rev r)) with (less_than l r). rewrite (IH r EL Hl Hr).
    rewrite !le_num_app. rewrite EL. pose proof (le_num_lt Hl) as Bl. pose proof (le_num_lt Hr) as Br. rewrite EL in Bl.
    pose proof (@lex_num _ _ _ x y Bl Br) as HX.
    destruct (N.ltb_spec x y) as [H|H]; [symmetry; apply N.ltb_lt; apply HX; left; exact H|].
    destruct (N.ltb_spec y x) as [H'|H']; [symmetry; apply N.ltb_ge; lia|].
    destruct (N.ltb_spec (le_num l) (le_num r)) as [H2|H2]; symmetry; [apply N.ltb_lt; apply HX; right; split; lia|apply N.ltb_ge; lia].
Qed.

Lemma mock_sort_ok n c k0 k1 : bytes k0 -> bytes k1 -> length k0 = n * c -> length k1 = n * c ->
  exists p0 p1, mock_sort n c k0 k1 = Ok (p0, p1) /\ length p0 = n /\ length p1 = n /\
    sorts n (keyn c (xors k0 k1)) (map N.to_nat (xors p0 p1)).
Proof.
  intros B0 B1 L0 L1. unfold mock_sort. rewrite L0, L1, Nat.eqb_refl. cbn [andb negb throw_if bind].
  set (k := map2 N.lxor k0 k1). assert (Bk : bytes k) by (apply bytes_xors; assumption). assert (Lk : length k = n * c) by (unfold k; rewrite map2_length; lia).
  set (s := sort_rows n c k).
  assert (Hs : is_perm n s) by (apply stable_sort_perm).
  assert (HS : StronglySorted (stable_rel (keyn c k) lt) s).
  { apply stable_sort_sorted; [|apply seq_sorted]. intros x y Hx Hy. apply in_seq in Hx, Hy. unfold keyn. apply less_than_ok; try (apply slice_bytes; exact Bk).
    rewrite !slice_length by nia. reflexivity. }
  destruct (perm_inverse_ok Hs) as (p & E & Pp & _). rewrite E. cbn [bind].
  exists (repeat 0%N n), (map N.of_nat p). split; [reflexivity|]. split; [apply repeat_length|]. split; [rewrite map_length; apply (is_perm_length Pp)|].
  assert (EX : map N.to_nat (xors (repeat 0%N n) (map N.of_nat p)) = p).
  { pose proof (is_perm_length Pp) as LP. apply nth_ext with 0 0; [rewrite map_length; unfold xors; rewrite map2_length, repeat_length, map_length; lia|].
    rewrite map_length. unfold xors. rewrite map2_length, repeat_length, map_length, LP, Nat.min_id. intros i Hi.
    rewrite (nth_indep _ 0 (N.to_nat 0%N)) by (rewrite map_length, map2_length, repeat_length, map_length; lia). rewrite map_nth.
    rewrite (@map2_nth _ _ _ N.lxor _ _ i 0%N 0%N) by (rewrite ?repeat_length, ?map_length; lia). rewrite nth_repeat, N.lxor_0_l.
    change 0%N with (N.of_nat 0). rewrite map_nth. apply Nat2N.id. }
  rewrite EX. apply (sorted_inverse Hs HS E).
Qed.
