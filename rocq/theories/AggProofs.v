From Verif Require Import Base Words GmwModel ShuffleModel ShuffleSpec AggModel AggSpec GmwProofs ShuffleSpanProofs AggSizeProofs AggLoadProofs AggTreeProofs.

Section Lists.
Context {V : Type} (zero : V).
Notation lf := (V * bool)%type.

(* ---------------- the levels of the tree have the sizes of the shape ---------------- *)

Lemma plev_pow (P0 rest : list (list lf)) f : length (pairs P0 ++ rest) = 2 ^ f ->
  forall l, 1 <= l <= f + 1 -> length (plev P0 rest l) = 2 ^ (f + 1 - l).
Proof.
  intros H l Hl. destruct l as [|l]; [lia|]. induction l as [|l IH].
  - cbn [plev]. replace (f + 1 - 1) with f by lia. exact H.
  - change (plev P0 rest (S (S l))) with (pairs (plev P0 rest (S l))).
    apply pairs_length. rewrite IH by lia. replace (f + 1 - S l) with (S (f + 1 - S (S l))) by lia. reflexivity.
Qed.

Lemma channel_ok ch (agg : list lf -> lf) (G : list lf -> list lf -> V) n sh X :
  (forall x, agg [x] = x) ->
  (forall p q, p <> [] -> q <> [] -> agg (p ++ q) = cUp ch (agg p) (agg q)) ->
  (forall b p q a, p <> [] -> q <> [] -> cDown ch (agg p) (agg q) (G b a) = (G b (q ++ a), G (b ++ p) a)) ->
  size_facts n sh -> length X = sN16 sh -> G [] [] = fst (agg X) ->
  channel zero ch sh (evens X, odds X) = Ok (evens (dvals G [] (singles X) []), odds (dvals G [] (singles X) [])).
Proof.
  intros A1 A2 A3 [f [_ [_ [ER [Hf HF]]]]] HX HG.
  assert (EC : {sComplete sh = true} + {sComplete sh = false}) by (destruct (sComplete sh); [left|right]; reflexivity).
  destruct EC as [EC|EC]; rewrite EC in HF.
  - destruct HF as [F1 [F2 [F3 F4]]].
    set (P0 := singles (firstn (2 ^ f) X)). set (rest := singles (skipn (2 ^ f) X)).
    assert (HP0 : length P0 = 2 ^ f) by (unfold P0; rewrite singles_length, firstn_length; lia).
    assert (Hrest : rest = []) by (unfold rest; rewrite skipn_all2 by lia; reflexivity).
    assert (Hpow : forall k, 2 ^ S k = 2 * 2 ^ k) by (intros k; reflexivity).
    assert (HPP : length (pairs P0) = 2 ^ (f - 1)).
    { apply pairs_length. rewrite HP0, <- Hpow. f_equal. lia. }
    assert (HL : forall l, l <= f -> length (plev P0 rest l) = 2 ^ (f - l)).
    { intros l Hl. destruct l as [|l]; [cbn [plev]; rewrite Nat.sub_0_r; exact HP0|].
      rewrite (@plev_pow P0 rest (f - 1)); [f_equal; lia| |lia].
      rewrite Hrest, app_nil_r. exact HPP. }
    apply (@channel_one V zero ch agg G A1 A2 A3 sh X (2 ^ f) f); try assumption; try lia.
    + intros l Hl. rewrite F4 by exact Hl. fold P0 rest. rewrite HL by exact Hl. reflexivity.
    + intros l Hl. fold P0 rest. rewrite HL by lia. exists (2 ^ (f - l - 1)). split; [|apply Nat.neq_0_lt_0, Nat.pow_nonzero; discriminate].
      rewrite <- Hpow. f_equal. lia.
    + fold P0 rest. rewrite HL by lia. rewrite Nat.sub_diag. reflexivity.
    + intros Hf1. fold P0. rewrite HPP. exists (2 ^ (f - 2)). rewrite <- Hpow. f_equal. lia.
    + intros E. congruence.
  - destruct HF as [F1 [F2 [F3 [F4 [F5 F6]]]]].
    set (R := sR sh) in *.
    assert (ER16 : exists r, R = 16 * r).
    { exists (R / 16). pose proof (Nat.div_mod R 16 ltac:(discriminate)) as H. lia. }
    destruct ER16 as [r Er]. destruct (pow2_16 F1) as [q Eq].
    set (P0 := singles (firstn (2 * R) X)). set (rest := singles (skipn (2 * R) X)).
    assert (HP0 : length P0 = 2 * R) by (unfold P0; rewrite singles_length, firstn_length; lia).
    assert (HPP : length (pairs P0) = R) by (apply pairs_length; exact HP0).
    assert (HR : length rest = sN16 sh - 2 * R) by (unfold rest; rewrite singles_length, skipn_length; lia).
    assert (H1 : length (pairs P0 ++ rest) = 2 ^ f) by (rewrite app_length, HPP, HR; lia).
    assert (HL : forall l, 1 <= l <= f + 1 -> length (plev P0 rest l) = 2 ^ (f + 1 - l)) by (apply plev_pow; exact H1).
    assert (Hpow : forall k, 2 ^ S k = 2 * 2 ^ k) by (intros k; reflexivity).
    apply (@channel_one V zero ch agg G A1 A2 A3 sh X (2 * R) (f + 1)); try assumption; try lia.
    + intros l Hl. fold P0 rest. destruct l as [|l]; [rewrite F5; cbn [plev]; rewrite HP0; reflexivity|].
      rewrite F6, HL by lia. reflexivity.
    + intros l Hl. fold P0 rest. destruct l as [|l].
      * cbn [plev]. rewrite HP0. exists R. lia.
      * rewrite HL by lia. exists (2 ^ (f - S l)). split; [|apply Nat.neq_0_lt_0, Nat.pow_nonzero; discriminate].
        rewrite <- Hpow. f_equal. lia.
    + fold P0 rest. rewrite HL by lia. rewrite Nat.sub_diag. reflexivity.
    + intros _. fold P0. rewrite HPP, Er. exists (8 * r). lia.
    + intros E. congruence.
    + intros _. split; [lia|]. exists r, (q + r). fold P0 rest. rewrite HL by lia.
      replace (f + 1 - 1) with f by lia. fold R. repeat split; lia.
Qed.

(* ---------------- the rows of the output ---------------- *)

Lemma leaf_rows_ok n (Y : list V) h : length Y = 2 * h -> n <= 2 * h ->
  leaf_rows zero n (evens Y) (odds Y) = Ok (firstn n Y).
Proof.
  intros HY Hn. destruct (evens_length HY) as [LE LO]. unfold leaf_rows. rewrite LE, LO.
  pose proof (half_split n) as HS. pose proof (Nat.div_mod n 2 ltac:(discriminate)) as HD.
  assert (Hb : b2n (Nat.odd n) <= 1) by (destruct (Nat.odd n); simpl; lia).
  destruct (Nat.ltb_spec h (n / 2)) as [L|L]; [lia|]. cbn [throw_if bind].
  destruct (Nat.ltb_spec h (n / 2 + n mod 2)) as [L'|L']; [lia|]. cbn [throw_if bind].
  set (inv := fun i (dst : list V) => length dst = n /\ forall k, k < 2 * i -> nth_error dst k = nth_error Y k).
  match goal with |- context [forN 0 (n / 2) ?f (repeat zero n)] =>
    destruct (@forN_inv _ inv f (n / 2) 0 (repeat zero n)) as [dst [Hrun [I1 I2]]] end.
  - split; [apply repeat_length|]. intros k Hk. lia.
  - intros i dst Hi [I1 I2].
    assert (Ha : nth_error (evens Y) i = Some (nth (2 * i) Y zero)).
    { rewrite (proj1 (evens_odds_nth _ _)). apply nth_error_nth'. lia. }
    assert (Hbb : nth_error (odds Y) i = Some (nth (2 * i + 1) Y zero)).
    { rewrite (proj2 (evens_odds_nth _ _)). apply nth_error_nth'. lia. }
    unfold get. rewrite Ha, Hbb. cbn [bind]. rewrite set_lt by lia. cbn [bind]. rewrite set_lt by (rewrite upd_length; lia).
    eexists. split; [reflexivity|]. split; [rewrite !upd_length; exact I1|].
    intros k Hk. destruct (Nat.eq_dec k (2 * i + 1)) as [->|N1].
    + rewrite nth_error_upd_eq by (rewrite upd_length; lia). symmetry. apply nth_error_nth'. lia.
    + rewrite nth_error_upd_ne by lia. destruct (Nat.eq_dec k (2 * i)) as [->|N0].
      * rewrite nth_error_upd_eq by lia. symmetry. apply nth_error_nth'. lia.
      * rewrite nth_error_upd_ne by lia. apply I2. lia.
  - rewrite Hrun. cbn [bind]. rewrite Nat.add_0_l in I2.
    assert (Hfin : forall d : list V, length d = n -> (forall k, k < n -> nth_error d k = nth_error Y k) -> d = firstn n Y).
    { intros d Hd Hk. apply nth_error_ext. intros k. destruct (Nat.ltb_spec k n) as [Lk|Lk].
      - rewrite nth_error_firstn, (proj2 (Nat.ltb_lt _ _) Lk). apply Hk. exact Lk.
      - rewrite !(proj2 (nth_error_None _ _)); [reflexivity|rewrite firstn_length; lia|lia]. }
    destruct (Nat.odd n) eqn:EO; simpl in HS.
    + assert (Ha : nth_error (evens Y) (n / 2) = Some (nth (2 * (n / 2)) Y zero)).
      { rewrite (proj1 (evens_odds_nth _ _)). apply nth_error_nth'. lia. }
      unfold get. rewrite Ha. cbn [bind]. rewrite set_lt by lia. f_equal. apply Hfin; [rewrite upd_length; exact I1|].
      intros k Hk. destruct (Nat.eq_dec k (2 * (n / 2))) as [->|Ne].
      * rewrite nth_error_upd_eq by lia. symmetry. apply nth_error_nth'. lia.
      * rewrite nth_error_upd_ne by lia. apply I2. lia.
    + f_equal. apply Hfin; [exact I1|]. intros k Hk. apply I2. lia.
Qed.

Lemma lanes2_evens A B C (f : A -> B -> C) h (l : list A) (m : list B) : length l = 2 * h -> length m = 2 * h ->
  lanes2 h f (evens l) (evens m) = Ok (evens (map2 f l m)) /\ lanes2 h f (odds l) (odds m) = Ok (odds (map2 f l m)).
Proof.
  intros Hl Hm. destruct (evens_length Hl) as [E1 O1]. destruct (evens_length Hm) as [E2 O2].
  unfold lanes2. rewrite E1, O1, E2, O2, Nat.eqb_refl. cbn [negb throw_if bind].
  clear E1 O1 E2 O2. assert (H : evens (map2 f l m) = map2 f (evens l) (evens m) /\ odds (map2 f l m) = map2 f (odds l) (odds m)).
  { revert m h Hl Hm. induction l as [|a|a b l IH] using list_pair_ind; intros [|x [|y m]] h Hl Hm; simpl in Hl, Hm; try lia; [split; reflexivity|].
    destruct h as [|h]; [lia|]. destruct (IH m h ltac:(lia) ltac:(lia)) as [H1 H2].
    cbn [map2]. rewrite !odds_cons2. cbn [evens map2]. rewrite H1, H2. split; reflexivity. }
  destruct H as [-> ->]. split; reflexivity.
Qed.

Lemma combine_evens A B h (l : list A) (m : list B) : length l = 2 * h -> length m = 2 * h ->
  combine (evens l) (evens m) = evens (combine l m) /\ combine (odds l) (odds m) = odds (combine l m).
Proof.
  revert m h. induction l as [|a|a b l IH] using list_pair_ind; intros [|x [|y m]] h Hl Hm; simpl in Hl, Hm; try lia; [split; reflexivity|].
  destruct h as [|h]; [lia|]. destruct (IH m h ltac:(lia) ltac:(lia)) as [H1 H2].
  cbn [combine]. rewrite !odds_cons2. cbn [evens combine]. rewrite H1, H2. split; reflexivity.
Qed.

End Lists.

Section Scan.
Context {V : Type} (zero : V) (op : V -> V -> V).
Hypothesis Hop : assoc_op op.
Notation lf := (V * bool)%type.

(* ---------------- ranges ---------------- *)

Lemma fold_assoc m : forall s y, fold_left op m (op s y) = op s (fold_left op m y).
Proof. induction m as [|a m IH]; intros s y; [reflexivity|]. cbn [fold_left]. rewrite <- IH. f_equal. symmetry. apply Hop. Qed.

Lemma agg_range_app x a b e : a < b -> b < e -> e <= length x ->
  op (agg_range op zero x a b) (agg_range op zero x b e) = agg_range op zero x a e.
Proof.
  intros H1 H2 H3. unfold agg_range.
  assert (ES : slice x a (e - a) = slice x a (b - a) ++ slice x b (e - b)).
  { unfold slice. replace (e - a) with ((b - a) + (e - b)) by lia.
    replace (skipn b x) with (skipn (b - a) (skipn a x)) by (rewrite CompPermProofs.skipn_add; f_equal; lia).
    generalize (skipn a x) (b - a) (e - b). intros l p. revert l. induction p as [|p IH]; intros l q; [reflexivity|].
    destruct l as [|y l]; [cbn [Nat.add firstn skipn app]; rewrite !firstn_nil; reflexivity|].
    cbn [Nat.add firstn skipn app]. f_equal. apply IH. }
  assert (L1 : length (slice x a (b - a)) = b - a) by (unfold slice; rewrite firstn_length, skipn_length; lia).
  assert (L2 : length (slice x b (e - b)) = e - b) by (unfold slice; rewrite firstn_length, skipn_length; lia).
  rewrite ES. destruct (slice x a (b - a)) as [|y l]; [simpl in L1; lia|].
  destruct (slice x b (e - b)) as [|z m]; [simpl in L2; lia|].
  cbn [app]. rewrite fold_left_app. cbn [fold_left]. symmetry. apply fold_assoc.
Qed.

Lemma agg_range_one x i v : nth_error x i = Some v -> agg_range op zero x i (i + 1) = v.
Proof.
  intros H. unfold agg_range, slice. replace (i + 1 - i) with 1 by lia.
  assert (E : exists l, skipn i x = v :: l).
  { revert x H. induction i as [|i IH]; intros [|y x] H; try discriminate H.
    - cbn in H. apply Some_inj in H. subst. exists x. reflexivity.
    - apply IH. exact H. }
  destruct E as [l ->]. reflexivity.
Qed.

(* ---------------- prefix ---------------- *)

Definition pstep (s : V) (e : lf) : V := if snd e then op s (fst e) else fst e.
Definition pagg (p : list lf) : lf :=
  match p with [] => (zero, false) | x :: l => (fold_left pstep l (fst x), forallb snd p) end.

Lemma pstep_fold q : forall x s, fold_left pstep q (pstep s x)
  = if forallb snd (x :: q) then op s (fold_left pstep q (fst x)) else fold_left pstep q (fst x).
Proof.
  induction q as [|y q IH] using rev_ind; intros x s.
  - cbn [fold_left forallb]. unfold pstep. rewrite andb_true_r. reflexivity.
  - rewrite !fold_left_app. cbn [fold_left]. rewrite IH. change (x :: q ++ [y]) with ((x :: q) ++ [y]).
    rewrite (forallb_app snd (x :: q)). cbn [forallb]. rewrite andb_true_r.
    unfold pstep. destruct (snd y); [|rewrite !andb_false_r; reflexivity].
    rewrite !andb_true_r. destruct (snd x && forallb snd q); [|reflexivity]. symmetry. apply Hop.
Qed.

Lemma pagg_one x : pagg [x] = x.
Proof. destruct x as [v c]. unfold pagg. cbn [fold_left forallb fst snd]. rewrite andb_true_r. reflexivity. Qed.

Lemma pagg_app p q : p <> [] -> q <> [] -> pagg (p ++ q) = cUp (pre_chan op) (pagg p) (pagg q).
Proof.
  intros Hp Hq. destruct p as [|x p]; [congruence|]. destruct q as [|y q]; [congruence|].
  unfold pagg. cbn [app pre_chan cUp fst snd]. change (x :: p ++ y :: q) with ((x :: p) ++ y :: q).
  rewrite forallb_app. f_equal. rewrite fold_left_app. cbn [fold_left]. rewrite pstep_fold. reflexivity.
Qed.

Lemma p_down r b p q : p <> [] -> q <> [] ->
  cDown (pre_chan op) (pagg p) (pagg q) (fold_left pstep b r) = (fold_left pstep b r, fold_left pstep (b ++ p) r).
Proof.
  intros Hp Hq. destruct p as [|x p]; [congruence|].
  unfold pagg at 1. cbn [pre_chan cDown fst snd]. rewrite fold_left_app. cbn [fold_left]. rewrite pstep_fold. reflexivity.
Qed.

Lemma pre_channel n sh X : size_facts n sh -> length X = sN16 sh ->
  exists D r, channel zero (pre_chan op) sh (evens X, odds X) = Ok (evens D, odds D) /\ length D = length X /\
    forall i, i < length X -> nth_error D i = Some (fold_left pstep (firstn i X) r).
Proof.
  intros HF HX. set (r := fst (pagg X)). set (G := fun (b a : list lf) => fold_left pstep b r).
  exists (dvals G [] (singles X) []), r. split; [|split].
  - apply (@channel_ok V zero (pre_chan op) pagg G n); try assumption.
    + exact pagg_one.
    + exact pagg_app.
    + intros b p q a Hp Hq. unfold G. apply (p_down r b Hp Hq).
    + reflexivity.
  - rewrite dvals_length. apply singles_length.
  - intros i Hi. rewrite dvals_singles by exact Hi. reflexivity.
Qed.

Lemma firstn_S_last A (l : list A) i v : nth_error l i = Some v -> firstn (i + 1) l = firstn i l ++ [v].
Proof.
  revert l. induction i as [|i IH]; intros [|x l] H; try discriminate H.
  - cbn in *. congruence.
  - cbn [Nat.add firstn app]. f_equal. apply IH. exact H.
Qed.

Lemma prefix_rows n16 src ctrl r : length src = length ctrl -> nth_error ctrl 0 = Some false ->
  forall i, i < length src ->
  fold_left pstep (firstn (i + 1) (pre_leaves zero n16 src ctrl)) r = agg_range op zero src (blk_start ctrl i) (i + 1)
  /\ blk_start ctrl i <= i.
Proof.
  intros HL H0 i. induction i as [|i IH]; intros Hi.
  - destruct (nth_error src 0) as [x|] eqn:Ex; [|apply nth_error_None in Ex; lia].
    rewrite (firstn_S_last (pre_leaves_at zero n16 HL Ex H0)). cbn [firstn app fold_left blk_start].
    unfold pstep. cbn [snd fst]. rewrite (agg_range_one Ex). split; [reflexivity|lia].
  - specialize (IH ltac:(lia)). destruct IH as [IH IB].
    destruct (nth_error src (S i)) as [x|] eqn:Ex; [|apply nth_error_None in Ex; lia].
    destruct (nth_error ctrl (S i)) as [c|] eqn:Ec; [|apply nth_error_None in Ec; lia].
    rewrite (firstn_S_last (pre_leaves_at zero n16 HL Ex Ec)). rewrite fold_left_app. cbn [fold_left].
    replace (S i) with (i + 1) at 1 by lia. rewrite IH.
    cbn [blk_start]. rewrite (nth_of_error false Ec). unfold pstep. cbn [snd fst]. destruct c.
    + split; [|lia]. rewrite <- (@agg_range_app src (blk_start ctrl i) (i + 1) (S i + 1)) by lia.
      f_equal. replace (i + 1) with (S i) by lia. symmetry. apply (agg_range_one Ex).
    + split; [|lia]. symmetry. apply (agg_range_one Ex).
Qed.

(* ---------------- suffix ---------------- *)

Definition sstep (e : lf) (s : V) : V := if snd e then op (fst e) s else fst e.
Fixpoint sval (p : list lf) : V :=
  match p with
  | [] => zero
  | x :: l => match l with [] => fst x | _ :: _ => sstep x (sval l) end
  end.
Definition sagg (p : list lf) : lf :=
  match p with [] => (zero, false) | _ :: _ => (sval p, forallb snd p) end.

Lemma sval_cons x l : l <> [] -> sval (x :: l) = sstep x (sval l).
Proof. destruct l; [congruence|reflexivity]. Qed.

Lemma sstep_fold q : forall s, q <> [] -> fold_right sstep s q = if forallb snd q then op (sval q) s else sval q.
Proof.
  induction q as [|x q IH]; intros s H; [congruence|]. destruct q as [|y q].
  - cbn [fold_right forallb sval]. unfold sstep. rewrite andb_true_r. reflexivity.
  - rewrite sval_cons by discriminate. cbn [fold_right]. cbn [fold_right] in IH. rewrite IH by discriminate.
    change (forallb snd (x :: y :: q)) with (snd x && forallb snd (y :: q)).
    unfold sstep. destruct (snd x); [|reflexivity]. cbn [andb]. destruct (forallb snd (y :: q)); [|reflexivity]. apply Hop.
Qed.

Lemma sagg_one x : sagg [x] = x.
Proof. destruct x as [v c]. unfold sagg. cbn [sval forallb fst snd]. rewrite andb_true_r. reflexivity. Qed.

Lemma sval_app p q : p <> [] -> q <> [] -> sval (p ++ q) = if forallb snd p then op (sval p) (sval q) else sval p.
Proof.
  intros Hp Hq. induction p as [|x p IH]; [congruence|]. destruct p as [|y p].
  - cbn [app]. rewrite sval_cons by exact Hq. cbn [forallb sval]. unfold sstep. rewrite andb_true_r. reflexivity.
  - cbn [app]. rewrite (@sval_cons x (y :: p ++ q)), (@sval_cons x (y :: p)) by discriminate. cbn [app] in IH. rewrite IH by discriminate.
    change (forallb snd (x :: y :: p)) with (snd x && forallb snd (y :: p)).
    unfold sstep. destruct (snd x); [|reflexivity]. cbn [andb]. destruct (forallb snd (y :: p)); [|reflexivity]. apply Hop.
Qed.

Lemma sagg_app p q : p <> [] -> q <> [] -> sagg (p ++ q) = cUp (suf_chan op) (sagg p) (sagg q).
Proof.
  intros Hp Hq. assert (E : sagg (p ++ q) = (sval (p ++ q), forallb snd (p ++ q))) by (destruct p; [congruence|reflexivity]).
  rewrite E, forallb_app, sval_app by assumption.
  destruct p as [|x p]; [congruence|]. destruct q as [|y q]; [congruence|]. reflexivity.
Qed.

Lemma suf_channel n sh X : size_facts n sh -> length X = sN16 sh ->
  exists D r, channel zero (suf_chan op) sh (evens X, odds X) = Ok (evens D, odds D) /\ length D = length X /\
    forall i, i < length X -> nth_error D i = Some (fold_right sstep r (skipn (i + 1) X)).
Proof.
  intros HF HX. set (r := fst (sagg X)). set (G := fun (b a : list lf) => fold_right sstep r a).
  exists (dvals G [] (singles X) []), r. split; [|split].
  - apply (@channel_ok V zero (suf_chan op) sagg G n); try assumption.
    + exact sagg_one.
    + exact sagg_app.
    + intros b p q a Hp Hq. unfold G. rewrite fold_right_app, (sstep_fold _ Hq).
      destruct q as [|y q]; [congruence|]. reflexivity.
    + reflexivity.
  - rewrite dvals_length. apply singles_length.
  - intros i Hi. rewrite dvals_singles by exact Hi. rewrite app_nil_r. reflexivity.
Qed.

Lemma skipn_head A (l : list A) i v : nth_error l i = Some v -> skipn i l = v :: skipn (i + 1) l.
Proof.
  revert l. induction i as [|i IH]; intros [|x l] H; try discriminate H.
  - cbn in *. congruence.
  - cbn [Nat.add skipn]. apply IH. exact H.
Qed.

Lemma run_bound c : run_len c <= length c.
Proof. induction c as [|[|] c IH]; simpl; lia. Qed.

Lemma blk_end_bound c i : i < length c -> i < blk_end c i <= length c.
Proof. intros H. unfold blk_end. pose proof (run_bound (skipn (i + 1) c)) as B. rewrite skipn_length in B. lia. Qed.

Lemma blk_end_next c i b : nth_error c (i + 1) = Some b -> blk_end c i = if b then blk_end c (i + 1) else i + 1.
Proof. intros H. unfold blk_end. rewrite (skipn_head H). cbn [run_len]. destruct b; lia. Qed.

Lemma blk_end_last c i : length c <= i + 1 -> blk_end c i = i + 1.
Proof. intros H. unfold blk_end. rewrite skipn_all2 by exact H. cbn [run_len]. lia. Qed.

Lemma suffix_rows n16 src ctrl r : length src = length ctrl ->
  forall k i, i + k + 1 = length src ->
  fold_right sstep r (skipn i (suf_leaves zero n16 src ctrl)) = agg_range op zero src i (blk_end ctrl i).
Proof.
  intros HL k. induction k as [|k IH]; intros i Hi.
  - destruct (nth_error src i) as [x|] eqn:Ex; [|apply nth_error_None in Ex; lia].
    assert (Hc : nth_error (tl ctrl ++ [false]) i = Some false).
    { rewrite nth_error_app2 by (destruct ctrl; simpl in *; lia).
      replace (i - length (tl ctrl)) with 0 by (destruct ctrl; simpl in *; lia). reflexivity. }
    assert (Hx : nth_error (suf_leaves zero n16 src ctrl) i = Some (x, false)).
    { unfold suf_leaves. rewrite nth_error_app1.
      - apply combine_nth_error; assumption.
      - rewrite combine_length, app_length. destruct ctrl; simpl in *; lia. }
    rewrite (skipn_head Hx). cbn [fold_right]. unfold sstep at 1. cbn [snd fst].
    rewrite blk_end_last by lia. symmetry. apply (agg_range_one Ex).
  - destruct (nth_error src i) as [x|] eqn:Ex; [|apply nth_error_None in Ex; lia].
    destruct (nth_error ctrl (i + 1)) as [c|] eqn:Ec; [|apply nth_error_None in Ec; lia].
    assert (Hc : nth_error (tl ctrl ++ [false]) i = Some c).
    { rewrite nth_error_app1 by (destruct ctrl; simpl in *; lia). rewrite tl_nth. exact Ec. }
    assert (Hx : nth_error (suf_leaves zero n16 src ctrl) i = Some (x, c)).
    { unfold suf_leaves. rewrite nth_error_app1.
      - apply combine_nth_error; assumption.
      - rewrite combine_length, app_length. destruct ctrl; simpl in *; lia. }
    rewrite (skipn_head Hx). cbn [fold_right]. rewrite (IH (i + 1)) by lia. unfold sstep. cbn [snd fst].
    rewrite (blk_end_next Ec). destruct c.
    + pose proof (@blk_end_bound ctrl (i + 1) ltac:(lia)) as B.
      rewrite <- (@agg_range_app src i (i + 1) (blk_end ctrl (i + 1))) by lia.
      f_equal. symmetry. apply (agg_range_one Ex).
    + symmetry. apply (agg_range_one Ex).
Qed.

(* ---------------- the three types ---------------- *)

Lemma facts_half n sh : size_facts n sh -> sN sh = n /\ n <= sN16 sh /\ exists h, sN16 sh = 2 * h.
Proof.
  intros [f [E1 [E2 [E3 [E4 HF]]]]]. split; [exact E1|]. split; [exact E2|].
  destruct (sComplete sh).
  - destruct HF as [F1 [F2 _]]. exists (2 ^ (f - 1)). rewrite F2. replace f with (S (f - 1)) at 1 by lia. reflexivity.
  - destruct HF as [F1 [F2 [F3 _]]]. destruct (pow2_16 F1) as [q Eq].
    exists (8 * q + 8 * (sR sh / 16)). pose proof (Nat.div_mod (sR sh) 16 ltac:(discriminate)) as H. lia.
Qed.

Lemma half_div h : 2 * h / 2 = h.
Proof. rewrite Nat.mul_comm. apply Nat.div_mul. discriminate. Qed.

Lemma rows_ext (Y : list V) n (f : nat -> V) : n <= length Y -> (forall i, i < n -> nth_error Y i = Some (f i)) ->
  firstn n Y = map f (seq 0 n).
Proof.
  intros Hn H. apply nth_error_ext. intros i. destruct (Nat.ltb_spec i n) as [L|L].
  - rewrite nth_error_firstn, (proj2 (Nat.ltb_lt _ _) L). rewrite H by exact L.
    symmetry. rewrite nth_error_map. rewrite (nth_error_nth' _ 0) by (rewrite seq_length; exact L).
    rewrite seq_nth by exact L. reflexivity.
  - rewrite !(proj2 (nth_error_None _ _)); [reflexivity|rewrite map_length, seq_length; exact L|rewrite firstn_length; lia].
Qed.

Ltac el := unfold split, ent in *; lia.

Lemma agg_prefix_ok src ctrl : 2 <= length src -> length src = length ctrl -> nth_error ctrl 0 = Some false ->
  agg_apply Prefix op zero src ctrl
  = Ok (map (fun i => agg_range op zero src (blk_start ctrl i) (i + 1)) (seq 0 (length src))).
Proof.
  intros H2 HL H0. unfold agg_apply. destruct (tree_sizes_ok H2) as [sh [-> HF]]. cbn [bind].
  rewrite HL, Nat.eqb_refl, <- HL. cbn [negb throw_if bind]. cbv zeta.
  destruct (facts_half HF) as [EN [Hle [h Eh]]]. rewrite Eh in *.
  rewrite (@load_pre_ok V zero h src ctrl HL Hle). cbn [bind].
  set (X := pre_leaves zero (2 * h) src ctrl).
  assert (HX : length X = 2 * h) by (apply pre_leaves_length; assumption).
  destruct (@pre_channel _ _ X HF (eq_trans HX (eq_sym Eh))) as [D [r [HCh [HD Hat]]]]. unfold split, ent in HCh |- *. rewrite HCh. cbn [bind fst snd].
  rewrite half_div. destruct (@lanes2_evens lf V V (leaf_pre op) h X D HX (eq_trans HD HX)) as [-> ->]. cbn [bind].
  rewrite EN. rewrite (@leaf_rows_ok V zero _ (map2 (leaf_pre op) X D) h) by (rewrite ?map2_length; el).
  f_equal. apply rows_ext; [rewrite map2_length; el|].
  intros i Hi. destruct (nth_error X i) as [e|] eqn:Ee; [|apply nth_error_None in Ee; el].
  unfold ent in *. rewrite nth_error_map2, Ee, Hat by el. f_equal.
  rewrite <- (proj1 (@prefix_rows (2 * h) src ctrl r HL H0 i Hi)). fold X.
  rewrite (firstn_S_last Ee), fold_left_app. reflexivity.
Qed.

Lemma agg_suffix_ok src ctrl : 2 <= length src -> length src = length ctrl ->
  agg_apply Suffix op zero src ctrl
  = Ok (map (fun i => agg_range op zero src i (blk_end ctrl i)) (seq 0 (length src))).
Proof.
  intros H2 HL. unfold agg_apply. destruct (tree_sizes_ok H2) as [sh [-> HF]]. cbn [bind].
  rewrite HL, Nat.eqb_refl, <- HL. cbn [negb throw_if bind]. cbv zeta.
  destruct (facts_half HF) as [EN [Hle [h Eh]]]. rewrite Eh in *.
  rewrite (@load_suf_ok V zero h src ctrl HL H2 Hle). cbn [bind].
  set (X := suf_leaves zero (2 * h) src ctrl).
  assert (HX : length X = 2 * h) by (apply suf_leaves_length; try assumption; el).
  destruct (@suf_channel _ _ X HF (eq_trans HX (eq_sym Eh))) as [D [r [HCh [HD Hat]]]]. unfold split, ent in HCh |- *. rewrite HCh. cbn [bind fst snd].
  rewrite half_div. destruct (@lanes2_evens lf V V (leaf_suf op) h X D HX (eq_trans HD HX)) as [-> ->]. cbn [bind].
  rewrite EN. rewrite (@leaf_rows_ok V zero _ (map2 (leaf_suf op) X D) h) by (rewrite ?map2_length; el).
  f_equal. apply rows_ext; [rewrite map2_length; el|].
  intros i Hi. destruct (nth_error X i) as [e|] eqn:Ee; [|apply nth_error_None in Ee; el].
  unfold ent in *. rewrite nth_error_map2, Ee, Hat by el. f_equal.
  rewrite <- (@suffix_rows (2 * h) src ctrl r HL (length src - i - 1) i) by el. fold X.
  rewrite (skipn_head Ee). reflexivity.
Qed.

Lemma agg_full_ok src ctrl : 2 <= length src -> length src = length ctrl -> nth_error ctrl 0 = Some false ->
  agg_apply Full op zero src ctrl
  = Ok (map (fun i => agg_range op zero src (blk_start ctrl i) (blk_end ctrl i)) (seq 0 (length src))).
Proof.
  intros H2 HL H0. unfold agg_apply. destruct (tree_sizes_ok H2) as [sh [-> HF]]. cbn [bind].
  rewrite HL, Nat.eqb_refl, <- HL. cbn [negb throw_if bind]. cbv zeta.
  destruct (facts_half HF) as [EN [Hle [h Eh]]]. rewrite Eh in *.
  rewrite (@load_pre_ok V zero h src ctrl HL Hle). cbn [bind]. rewrite (@load_suf_ok V zero h src ctrl HL H2 Hle). cbn [bind].
  set (X := pre_leaves zero (2 * h) src ctrl). set (Y := suf_leaves zero (2 * h) src ctrl).
  assert (HX : length X = 2 * h) by (apply pre_leaves_length; assumption).
  assert (HY : length Y = 2 * h) by (apply suf_leaves_length; try assumption; el).
  destruct (@pre_channel _ _ X HF (eq_trans HX (eq_sym Eh))) as [D [r [HCh [HD Hat]]]]. unfold split, ent in HCh |- *. rewrite HCh. cbn [bind fst snd].
  destruct (@suf_channel _ _ Y HF (eq_trans HY (eq_sym Eh))) as [E [r' [HCh' [HE Hat']]]]. unfold split, ent in HCh' |- *. rewrite HCh'. cbn [bind fst snd].
  rewrite half_div.
  destruct (@evens_length _ D h (eq_trans HD HX)) as [-> ->]. destruct (@evens_length _ E h (eq_trans HE HY)) as [-> ->].
  rewrite Nat.eqb_refl. cbn [andb negb throw_if bind].
  destruct (@combine_evens lf V h X D HX (eq_trans HD HX)) as [-> ->]. destruct (@combine_evens lf V h Y E HY (eq_trans HE HY)) as [-> ->].
  set (leaf := fun a b : lf * V => leaf_full op (fst a) (snd a) (snd (fst b)) (snd b)).
  destruct (@lanes2_evens (lf * V) (lf * V) V leaf h (combine X D) (combine Y E)) as [-> ->]; try (rewrite combine_length; el). cbn [bind].
  rewrite EN. rewrite (@leaf_rows_ok V zero _ (map2 leaf (combine X D) (combine Y E)) h) by (rewrite ?map2_length, ?combine_length; el).
  f_equal. apply rows_ext; [rewrite map2_length, !combine_length; el|].
  intros i Hi. destruct (nth_error X i) as [e|] eqn:Ee; [|apply nth_error_None in Ee; el].
  destruct (nth_error Y i) as [e'|] eqn:Ee'; [|apply nth_error_None in Ee'; el].
  unfold ent in *. rewrite nth_error_map2, (combine_nth_error Ee (Hat i ltac:(el))), (combine_nth_error Ee' (Hat' i ltac:(el))). f_equal.
  unfold leaf, leaf_full. cbn [fst snd].
  change (if snd e then op (fold_left pstep (firstn i X) r) (fst e) else fst e) with (pstep (fold_left pstep (firstn i X) r) e).
  assert (EP : pstep (fold_left pstep (firstn i X) r) e = agg_range op zero src (blk_start ctrl i) (i + 1)).
  { rewrite <- (proj1 (@prefix_rows (2 * h) src ctrl r HL H0 i Hi)). fold X.
    rewrite (firstn_S_last Ee), fold_left_app. reflexivity. }
  rewrite EP.
  assert (HB : blk_start ctrl i <= i) by (apply (@prefix_rows (2 * h) src ctrl r HL H0 i Hi)).
  destruct (Nat.eq_dec (i + 1) (length src)) as [El|Nl].
  all: try (assert (Eb : snd e' = false);
    [ assert (Hc : nth_error (tl ctrl ++ [false]) i = Some false) by
       (rewrite nth_error_app2 by (destruct ctrl; simpl in *; el);
        replace (i - length (tl ctrl)) with 0 by (destruct ctrl; simpl in *; el); reflexivity);
      destruct (nth_error src i) as [x|] eqn:Ex; [|apply nth_error_None in Ex; el];
      assert (Hx : nth_error Y i = Some (x, false)) by
       (unfold Y, suf_leaves; rewrite nth_error_app1; [apply combine_nth_error; assumption|];
        rewrite combine_length, app_length; destruct ctrl; simpl in *; el);
      rewrite Ee' in Hx; apply Some_inj in Hx; subst e'; reflexivity
    | rewrite Eb, blk_end_last by el; reflexivity ]).
  all: destruct (nth_error src i) as [x|] eqn:Ex; [|apply nth_error_None in Ex; el].
  all: destruct (nth_error ctrl (i + 1)) as [c|] eqn:Ec; [|apply nth_error_None in Ec; el].
  all: assert (Hc : nth_error (tl ctrl ++ [false]) i = Some c) by
       (rewrite nth_error_app1 by (destruct ctrl; simpl in *; el); rewrite tl_nth; exact Ec).
  all: assert (Hx : nth_error Y i = Some (x, c)) by
       (unfold Y, suf_leaves; rewrite nth_error_app1; [apply combine_nth_error; assumption|];
        rewrite combine_length, app_length; destruct ctrl; simpl in *; el).
  all: rewrite Ee' in Hx; apply Some_inj in Hx; subst e'; cbn [snd].
  all: rewrite (blk_end_next Ec); destruct c; [|reflexivity].
  all: unfold Y; rewrite (@suffix_rows (2 * h) src ctrl r' HL (length src - (i + 1) - 1) (i + 1)) by el.
  all: pose proof (@blk_end_bound ctrl (i + 1) ltac:(el)) as B; apply agg_range_app; el.
Qed.

End Scan.
