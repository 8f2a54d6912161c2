From Verif Require Import Base PermModel PermSpec.

(* ---------- loops ---------- *)
Lemma forN_shift S (f : nat -> S -> outcome S) o : forall n i s,
  forN (i + o) n f s = forN i n (fun k => f (k + o)) s.
Proof.
  induction n as [|n IH]; intros i s; cbn [forN]; auto.
  destruct (f (i + o) s); cbn [bind]; auto.
  replace (i + o + 1) with (i + 1 + o) by lia. apply IH.
Qed.

Lemma forN_chunk_gen S (f : nat -> S -> outcome S) w : forall m b s,
  forN b m (fun k s => forN (w * k) w f s) s = forN (w * b) (w * m) f s.
Proof.
  induction m as [|m IH]; intros b s; cbn [forN].
  - rewrite Nat.mul_0_r. reflexivity.
  - replace (w * Datatypes.S m) with (w + w * m) by lia.
    rewrite forN_app. destruct (forN (w * b) w f s); cbn [bind]; auto.
    rewrite IH. f_equal. lia.
Qed.

Lemma forN_chunk S (f : nat -> S -> outcome S) w m s :
  forN 0 m (fun k s => forN (w * k) w f s) s = forN 0 (w * m) f s.
Proof. rewrite forN_chunk_gen. f_equal. lia. Qed.

(* a loop that carries a pointer advancing by a constant *)
Lemma forN_ptr S (g : nat -> nat -> S -> outcome S) w : forall m b s,
  forN b m (fun k (st : nat * S) => let '(d, x) := st in do x' <- g k d x; Ok (d + w, x')) (b * w, s)
  = do x <- forN b m (fun k x => g k (k * w) x) s; Ok ((b + m) * w, x).
Proof.
  induction m as [|m IH]; intros b s; cbn [forN].
  - cbn [bind]. rewrite Nat.add_0_r. reflexivity.
  - destruct (g b (b * w) s) as [x| | |]; cbn [bind]; auto.
    replace (b * w + w) with ((b + 1) * w) by lia. rewrite IH.
    destruct (forN (b + 1) m _ x); cbn [bind]; auto. do 2 f_equal. lia.
Qed.

(* ---------- the four variants reduce to one simple loop ---------- *)
Definition reg_loop {A} (pi : list nat) c (src : list A) i m :=
  do p <- get pi i; copy_row src (p * c) m (i * c) c.
Definition inv_loop {A} (pi : list nat) c (src : list A) i m :=
  do p <- get pi i; copy_row src (i * c) m (p * c) c.

Lemma div8_split n : n / 8 * 8 = 8 * (n / 8) /\ 8 * (n / 8) + (n - 8 * (n / 8)) = n.
Proof. split; lia. Qed.

Lemma apply_reg_unrolled_simple A pi c (src dst : list A) :
  apply_reg_unrolled pi c src dst = forN 0 (length pi) (reg_loop pi c src) dst.
Proof.
  unfold apply_reg_unrolled. set (n := length pi).
  destruct (div8_split n) as [E1 E2]. rewrite E1.
  assert (H : forN 0 (n / 8) (apply_reg_body8 pi c src) (0, dst)
    = do x <- forN 0 (8 * (n / 8)) (reg_loop pi c src) dst; Ok ((0 + n / 8) * (8 * c), x)).
  { rewrite <- forN_chunk, <- (forN_ptr (fun k _ x => forN (8 * k) 8 (reg_loop pi c src) x) (8 * c)).
    change (0 * (8 * c)) with 0.
    (* both loops have equal bodies on reachable pointers; go through forN_ptr once more *)
    assert (G : forall m b s,
      forN b m (apply_reg_body8 pi c src) (b * (8 * c), s) =
      forN b m (fun k (st : nat * list A) => let '(d, x) := st in
         do x' <- forN (8 * k) 8 (reg_loop pi c src) x; Ok (d + 8 * c, x')) (b * (8 * c), s)).
    { induction m as [|m IH]; intros b s; [reflexivity|].
      rewrite !(forN_S b m).
      unfold apply_reg_body8 at 1.
      replace (forN (8 * b) 8 (reg_loop pi c src) s) with
        (forN 0 8 (fun q m0 => do p <- get pi (8 * b + q);
             copy_row src (p * c) m0 (b * (8 * c) + q * c) c) s).
      - destruct (forN 0 8 _ s) as [x| | |]; cbn [bind]; auto.
        replace (b * (8 * c) + 7 * c + c) with ((b + 1) * (8 * c)) by lia.
        replace (b * (8 * c) + 8 * c) with ((b + 1) * (8 * c)) by lia. apply IH.
      - change (8 * b) with (0 + 8 * b) at 2. rewrite forN_shift. apply forN_ext.
        intros k x _. unfold reg_loop. rewrite (Nat.add_comm (8 * b) k).
        destruct (get pi (k + 8 * b)); cbn [bind]; auto. f_equal. lia. }
    apply (G (n / 8) 0 dst). }
  rewrite H. replace (forN 0 n (reg_loop pi c src) dst) with
    (forN 0 (8 * (n / 8) + (n - 8 * (n / 8))) (reg_loop pi c src) dst) by (rewrite E2; reflexivity).
  rewrite forN_app.
  destruct (forN 0 (8 * (n / 8)) _ dst); cbn [bind snd]; auto.
Qed.

Lemma apply_inv_unrolled_simple A pi c (src dst : list A) :
  apply_inv_unrolled pi c src dst = forN 0 (length pi) (inv_loop pi c src) dst.
Proof.
  unfold apply_inv_unrolled. set (n := length pi).
  destruct (div8_split n) as [E1 E2]. rewrite E1.
  assert (H : forN 0 (n / 8) (apply_inv_body8 pi c src) (0, dst)
    = do x <- forN 0 (8 * (n / 8)) (inv_loop pi c src) dst; Ok ((0 + n / 8) * (8 * c), x)).
  { rewrite <- forN_chunk, <- (forN_ptr (fun k _ x => forN (8 * k) 8 (inv_loop pi c src) x) (8 * c)).
    change (0 * (8 * c)) with 0.
    assert (G : forall m b s,
      forN b m (apply_inv_body8 pi c src) (b * (8 * c), s) =
      forN b m (fun k (st : nat * list A) => let '(d, x) := st in
         do x' <- forN (8 * k) 8 (inv_loop pi c src) x; Ok (d + 8 * c, x')) (b * (8 * c), s)).
    { induction m as [|m IH]; intros b s; [reflexivity|].
      rewrite !(forN_S b m).
      unfold apply_inv_body8 at 1.
      replace (forN (8 * b) 8 (inv_loop pi c src) s) with
        (forN 0 8 (fun q m0 => do p <- get pi (8 * b + q);
             copy_row src (b * (8 * c) + q * c) m0 (p * c) c) s).
      - destruct (forN 0 8 _ s) as [x| | |]; cbn [bind]; auto.
        replace (b * (8 * c) + 7 * c + c) with ((b + 1) * (8 * c)) by lia.
        replace (b * (8 * c) + 8 * c) with ((b + 1) * (8 * c)) by lia. apply IH.
      - change (8 * b) with (0 + 8 * b) at 2. rewrite forN_shift. apply forN_ext.
        intros k x _. unfold inv_loop. rewrite (Nat.add_comm (8 * b) k).
        destruct (get pi (k + 8 * b)); cbn [bind]; auto. f_equal. lia. }
    apply (G (n / 8) 0 dst). }
  rewrite H. replace (forN 0 n (inv_loop pi c src) dst) with
    (forN 0 (8 * (n / 8) + (n - 8 * (n / 8))) (inv_loop pi c src) dst) by (rewrite E2; reflexivity).
  rewrite forN_app.
  destruct (forN 0 (8 * (n / 8)) _ dst); cbn [bind snd]; auto.
Qed.

Lemma apply_reg_generic_simple A pi c (src dst : list A) :
  apply_reg_generic pi c src dst = forN 0 (length pi) (reg_loop pi c src) dst.
Proof.
  unfold apply_reg_generic.
  pose proof (forN_ptr (fun k d x => do p <- get pi k; copy_row src (p * c) x d c) c (length pi) 0 dst) as H.
  change (0 * c) with 0 in H.
  assert (E : forall l s, forN 0 l (fun i (s : nat * list A) => let '(d, m) := s in
       do p <- get pi i; do m' <- copy_row src (p * c) m d c; Ok (d + c, m')) s =
     forN 0 l (fun k (st : nat * list A) => let '(d, x) := st in
       do x' <- (do p <- get pi k; copy_row src (p * c) x d c); Ok (d + c, x')) s).
  { intros l s. apply forN_ext. intros k [d x] _. destruct (get pi k); reflexivity. }
  rewrite E, H. unfold reg_loop. destruct (forN 0 (length pi) _ dst); reflexivity.
Qed.

Lemma apply_inv_generic_simple A pi c (src dst : list A) :
  apply_inv_generic pi c src dst = forN 0 (length pi) (inv_loop pi c src) dst.
Proof.
  unfold apply_inv_generic.
  pose proof (forN_ptr (fun k d x => do p <- get pi k; copy_row src d x (p * c) c) c (length pi) 0 dst) as H.
  change (0 * c) with 0 in H.
  assert (E : forall l s, forN 0 l (fun i (s : nat * list A) => let '(d, m) := s in
       do p <- get pi i; do m' <- copy_row src d m (p * c) c; Ok (d + c, m')) s =
     forN 0 l (fun k (st : nat * list A) => let '(d, x) := st in
       do x' <- (do p <- get pi k; copy_row src d x (p * c) c); Ok (d + c, x')) s).
  { intros l s. apply forN_ext. intros k [d x] _. destruct (get pi k); reflexivity. }
  rewrite E, H. unfold inv_loop. destruct (forN 0 (length pi) _ dst); reflexivity.
Qed.

(* ---------- rows ---------- *)
Lemma row_slice A c (m : list A) i : row c m i = slice m (i * c) c.
Proof. reflexivity. Qed.

Lemma row_length A c (m : list A) i n : length m = n * c -> i < n -> length (row c m i) = c.
Proof. intros H Hi. rewrite row_slice. apply slice_length. rewrite H. nia. Qed.

Lemma nth_error_row A c (m : list A) i j :
  nth_error (row c m i) j = if j <? c then nth_error m (i * c + j) else None.
Proof. rewrite row_slice. apply nth_error_slice. Qed.

Lemma rows_ext A c (m m' : list A) n :
  length m = n * c -> length m' = n * c ->
  (forall i, i < n -> row c m i = row c m' i) -> m = m'.
Proof.
  intros H H' E. apply nth_error_ext_len; [lia|]. intros k Hk.
  destruct (Nat.eq_dec c 0) as [->|Hc]; [lia|].
  assert (Hq : k = k / c * c + k mod c) by (rewrite (Nat.div_mod k c) at 1; lia).
  assert (Hm : k mod c < c) by (apply Nat.mod_upper_bound; auto).
  assert (Hd : k / c < n) by (apply Nat.div_lt_upper_bound; [auto|lia]).
  specialize (E _ Hd). apply (f_equal (fun l => nth_error l (k mod c))) in E.
  rewrite !nth_error_row in E. destruct (Nat.ltb_spec (k mod c) c); [|lia].
  rewrite <- Hq in E. exact E.
Qed.

Lemma row_overwrite A c (m x : list A) i j n :
  length m = n * c -> length x = c -> i < n -> j < n ->
  row c (overwrite m (i * c) x) j = if i =? j then x else row c m j.
Proof.
  intros Hm Hx Hi Hj.
  assert (Hlen : i * c + length x <= length m) by (rewrite Hm, Hx; nia).
  apply nth_error_ext. intros k. rewrite nth_error_row.
  destruct (Nat.ltb_spec k c) as [Hk|Hk].
  - rewrite nth_error_overwrite by exact Hlen. rewrite Hx.
    destruct (Nat.eqb_spec i j) as [->|Hne].
    + destruct (Nat.leb_spec (j * c) (j * c + k)); [|lia].
      destruct (Nat.ltb_spec (j * c + k) (j * c + c)); [|lia]. simpl. f_equal. lia.
    + assert (Hout : (i * c <=? j * c + k) && (j * c + k <? i * c + c) = false).
      { destruct (Nat.leb_spec (i * c) (j * c + k)); auto.
        destruct (Nat.ltb_spec (j * c + k) (i * c + c)); auto. nia. }
      rewrite Hout, nth_error_row. destruct (Nat.ltb_spec k c); auto; lia.
  - destruct (Nat.eqb_spec i j).
    + symmetry. apply nth_error_None. lia.
    + rewrite nth_error_row. destruct (Nat.ltb_spec k c); auto; lia.
Qed.

Lemma copy_row_ok A c (src dst : list A) i j ns nd :
  length src = ns * c -> length dst = nd * c -> i < ns -> j < nd ->
  copy_row src (i * c) dst (j * c) c = Ok (overwrite dst (j * c) (row c src i)).
Proof.
  intros Hs Hd Hi Hj. unfold copy_row. rewrite readN_ok by (rewrite Hs; nia). cbn [bind].
  rewrite <- row_slice. apply writeN_ok. rewrite (row_length Hs Hi). rewrite Hd. nia.
Qed.

Lemma copy_row_len A c (src dst : list A) i j ns nd :
  length src = ns * c -> length dst = nd * c -> i < ns -> j < nd ->
  length (overwrite dst (j * c) (row c src i)) = nd * c.
Proof.
  intros Hs Hd Hi Hj. rewrite overwrite_length; auto. rewrite (row_length Hs Hi), Hd. nia.
Qed.

(* ---------- is_perm ---------- *)
Lemma is_perm_length n pi : is_perm n pi -> length pi = n.
Proof. intros H. rewrite (Permutation_length H). apply seq_length. Qed.
Lemma is_perm_NoDup n pi : is_perm n pi -> NoDup pi.
Proof. intros H. eapply Permutation_NoDup; [apply Permutation_sym, H|apply seq_NoDup]. Qed.
Lemma is_perm_lt n pi i p : is_perm n pi -> nth_error pi i = Some p -> p < n.
Proof.
  intros H Hi. apply nth_error_In in Hi. apply (Permutation_in _ H) in Hi.
  apply in_seq in Hi. lia.
Qed.
Lemma is_perm_onto n pi p : is_perm n pi -> p < n -> exists i, i < n /\ nth_error pi i = Some p.
Proof.
  intros H Hp. assert (Hin : In p pi).
  { apply (Permutation_in _ (Permutation_sym H)). apply in_seq. lia. }
  apply In_nth_error in Hin. destruct Hin as [i Hi]. exists i. split; auto.
  rewrite <- (is_perm_length H). eapply nth_error_lt; eauto.
Qed.
Lemma is_perm_intro n pi : length pi = n -> NoDup pi -> (forall p, In p pi -> p < n) -> is_perm n pi.
Proof.
  intros HL HN HB. unfold is_perm. apply NoDup_Permutation_bis; auto.
  - rewrite seq_length. lia.
  - intros p Hp. apply in_seq. specialize (HB p Hp). lia.
Qed.

(* ---------- apply Regular ---------- *)
Lemma reg_loop_spec A c pi (src dst : list A) ns :
  length src = ns * c -> length dst = length pi * c ->
  (forall i p, nth_error pi i = Some p -> p < ns) ->
  exists d, forN 0 (length pi) (reg_loop pi c src) dst = Ok d /\ gathered c pi src d.
Proof.
  intros Hs Hd Hr.
  destruct (forN_inv (P := fun k m => length m = length pi * c /\
     forall i p, i < k -> nth_error pi i = Some p -> row c m i = row c src p)
     (f := reg_loop pi c src) (n := length pi) (i := 0) (s := dst)) as [d [E [HL HP]]].
  - split; auto. intros; lia.
  - intros k m Hk [HL HP]. destruct (get_lt (l := pi) (i := k)) as [p [Eg En]]; [lia|].
    unfold reg_loop. rewrite Eg. cbn [bind]. specialize (Hr _ _ En) as Hp.
    rewrite (copy_row_ok Hs HL) by lia. eexists. split; [reflexivity|]. split.
    + apply (copy_row_len Hs HL); lia.
    + intros i q Hi Hq.
      rewrite (row_overwrite (n := length pi)); auto; try lia.
      * destruct (Nat.eqb_spec k i) as [->|Hne]; [congruence|]. apply HP; auto; lia.
      * apply (row_length Hs); auto.
  - exists d. split; auto. split; auto. intros i p Hi. apply HP; auto.
    apply nth_error_lt in Hi. lia.
Qed.

Lemma inv_loop_spec A c pi (src dst : list A) :
  is_perm (length pi) pi ->
  length src = length pi * c -> length dst = length pi * c ->
  exists d, forN 0 (length pi) (inv_loop pi c src) dst = Ok d /\ scattered c pi src d.
Proof.
  intros HP0 Hs Hd.
  destruct (forN_inv (P := fun k m => length m = length pi * c /\
     forall i p, i < k -> nth_error pi i = Some p -> row c m p = row c src i)
     (f := inv_loop pi c src) (n := length pi) (i := 0) (s := dst)) as [d [E [HL HP]]].
  - split; auto. intros; lia.
  - intros k m Hk [HL HP]. destruct (get_lt (l := pi) (i := k)) as [p [Eg En]]; [lia|].
    unfold inv_loop. rewrite Eg. cbn [bind]. pose proof (is_perm_lt HP0 En) as Hp.
    rewrite (copy_row_ok Hs HL) by lia. eexists. split; [reflexivity|]. split.
    + apply (copy_row_len Hs HL); lia.
    + intros i q Hi Hq. pose proof (is_perm_lt HP0 Hq) as Hql.
      rewrite (row_overwrite (n := length pi)); auto; try lia.
      * destruct (Nat.eqb_spec p q) as [->|Hne].
        { replace i with k; auto. apply (NoDup_nth_error_inj (is_perm_NoDup HP0) En Hq). }
        apply HP; auto. assert (i <> k) by (intros ->; congruence). lia.
      * apply (row_length Hs); lia.
  - exists d. split; auto. split; auto. intros i p Hi. apply HP; auto.
    apply nth_error_lt in Hi. lia.
Qed.

Lemma perm_apply_throw A triv pi (src dst : mat A) op :
  rows src <> length pi \/ rows dst <> length pi \/ cols src <> cols dst ->
  perm_apply triv pi src dst op = Throw.
Proof.
  intros H. unfold perm_apply, throw_if.
  destruct (Nat.eqb_spec (rows src) (length pi)); simpl; auto.
  destruct (Nat.eqb_spec (rows dst) (length pi)); simpl; auto.
  destruct (Nat.eqb_spec (cols src) (cols dst)); simpl; auto. lia.
Qed.

Lemma perm_apply_checks A triv pi (src dst : mat A) op :
  rows src = length pi -> rows dst = length pi -> cols src = cols dst ->
  perm_apply triv pi src dst op =
  do d <- match op with
          | Regular => forN 0 (length pi) (reg_loop pi (cols src) (dat src)) (dat dst)
          | Inverse => forN 0 (length pi) (inv_loop pi (cols src) (dat src)) (dat dst)
          end; Ok (Mat (rows dst) (cols dst) d).
Proof.
  intros H1 H2 H3. unfold perm_apply, throw_if. rewrite H1, H2, H3, !Nat.eqb_refl. cbn [negb bind].
  destruct op, triv; rewrite ?apply_reg_unrolled_simple, ?apply_reg_generic_simple,
    ?apply_inv_unrolled_simple, ?apply_inv_generic_simple; reflexivity.
Qed.

Lemma perm_apply_regular_spec A triv pi (src dst : mat A) :
  wf_mat src -> wf_mat dst ->
  rows src = length pi -> rows dst = length pi -> cols src = cols dst ->
  (forall i p, nth_error pi i = Some p -> p < length pi) ->
  exists d, perm_apply triv pi src dst Regular = Ok (Mat (rows dst) (cols dst) d) /\
            gathered (cols src) pi (dat src) d.
Proof.
  intros W1 W2 H1 H2 H3 Hr. rewrite perm_apply_checks by auto.
  destruct (reg_loop_spec (c := cols src) (pi := pi) (src := dat src) (dst := dat dst) (ns := length pi))
    as [d [E G]]; auto.
  - rewrite W1, H1. reflexivity.
  - rewrite W2, H2, H3. reflexivity.
  - exists d. rewrite E. auto.
Qed.

Lemma perm_apply_inverse_spec A triv pi (src dst : mat A) :
  wf_mat src -> wf_mat dst -> is_perm (length pi) pi ->
  rows src = length pi -> rows dst = length pi -> cols src = cols dst ->
  exists d, perm_apply triv pi src dst Inverse = Ok (Mat (rows dst) (cols dst) d) /\
            scattered (cols src) pi (dat src) d.
Proof.
  intros W1 W2 Hp H1 H2 H3. rewrite perm_apply_checks by auto.
  destruct (inv_loop_spec (c := cols src) (pi := pi) (src := dat src) (dst := dat dst))
    as [d [E G]]; auto.
  - rewrite W1, H1. reflexivity.
  - rewrite W2, H2, H3. reflexivity.
  - exists d. rewrite E. auto.
Qed.

(* gather then scatter, scatter then gather *)
Lemma gathered_scattered A c pi n (x y z : list A) :
  is_perm n pi -> length x = n * c ->
  gathered c pi x y -> scattered c pi y z -> z = x.
Proof.
  intros Hp Hx [Ly Gy] [Lz Sz]. pose proof (is_perm_length Hp) as HL. rewrite HL in *.
  apply (rows_ext (c := c) (n := n)); auto. intros i Hi.
  destruct (is_perm_onto Hp Hi) as [k [Hk Ek]].
  rewrite (Sz _ _ Ek), (Gy _ _ Ek). reflexivity.
Qed.

Lemma scattered_gathered A c pi n (x y z : list A) :
  is_perm n pi -> length x = n * c ->
  scattered c pi x y -> gathered c pi y z -> z = x.
Proof.
  intros Hp Hx [Ly Sy] [Lz Gz]. pose proof (is_perm_length Hp) as HL. rewrite HL in *.
  apply (rows_ext (c := c) (n := n)); auto. intros i Hi.
  destruct (nth_error_ex (l := pi) (i := i)) as [p Ep]; [lia|].
  rewrite (Gz _ _ Ep), (Sy _ _ Ep). reflexivity.
Qed.

Lemma perm_apply_roundtrip A t1 t2 pi (src d1 d2 : mat A) n :
  is_perm n pi -> wf_mat src -> wf_mat d1 -> wf_mat d2 ->
  rows src = n -> rows d1 = n -> rows d2 = n -> cols d1 = cols src -> cols d2 = cols src ->
  (exists y, perm_apply t1 pi src d1 Regular = Ok y /\ wf_mat y /\
             perm_apply t2 pi y d2 Inverse = Ok src) /\
  (exists y, perm_apply t1 pi src d1 Inverse = Ok y /\ wf_mat y /\
             perm_apply t2 pi y d2 Regular = Ok src).
Proof.
  intros Hp W0 W1 W2 R0 R1 R2 C1 C2. pose proof (is_perm_length Hp) as HL.
  assert (Hp' : is_perm (length pi) pi) by (rewrite HL; exact Hp).
  assert (Hr : forall i p, nth_error pi i = Some p -> p < length pi)
    by (intros i p; rewrite HL; apply is_perm_lt; exact Hp).
  destruct src as [rs cs xs], d1 as [r1 c1 x1], d2 as [r2 c2 x2];
    unfold wf_mat in *; simpl in *; subst rs r1 r2 c1 c2.
  split.
  - destruct (perm_apply_regular_spec t1 (pi := pi) (src := Mat n cs xs) (dst := Mat n cs x1))
      as [y [E G]]; unfold wf_mat; simpl; auto.
    exists (Mat n cs y). split; [exact E|]. simpl in *. split; [destruct G as [Gl _]; rewrite Gl, HL; reflexivity|].
    destruct (perm_apply_inverse_spec t2 (pi := pi) (src := Mat n cs y) (dst := Mat n cs x2))
      as [z [E2 S2]]; unfold wf_mat; simpl; auto.
    { destruct G as [Gl _]. rewrite Gl, HL. reflexivity. }
    simpl in *. rewrite E2. do 2 f_equal. apply (gathered_scattered Hp W0 G S2).
  - destruct (perm_apply_inverse_spec t1 (pi := pi) (src := Mat n cs xs) (dst := Mat n cs x1))
      as [y [E G]]; unfold wf_mat; simpl; auto.
    exists (Mat n cs y). split; [exact E|]. simpl in *. split; [destruct G as [Gl _]; rewrite Gl, HL; reflexivity|].
    destruct (perm_apply_regular_spec t2 (pi := pi) (src := Mat n cs y) (dst := Mat n cs x2))
      as [z [E2 S2]]; unfold wf_mat; simpl; auto.
    { destruct G as [Gl _]. rewrite Gl, HL. reflexivity. }
    simpl in *. rewrite E2. do 2 f_equal. apply (scattered_gathered Hp W0 G S2).
Qed.

(* ---------- vectors: one column ---------- *)
Lemma row1 A (m : list A) i : row 1 m i = match nth_error m i with Some a => [a] | None => [] end.
Proof.
  unfold row. rewrite Nat.mul_1_r. revert i. induction m as [|a m IH]; intros [|i]; simpl; auto.
  apply IH.
Qed.

Lemma perm_apply_vec_spec A (z : A) pi src :
  length src = length pi -> (forall i p, nth_error pi i = Some p -> p < length pi) ->
  exists d, perm_apply_vec z pi src = Ok d /\ length d = length pi /\
            forall i p, nth_error pi i = Some p -> nth_error d i = nth_error src p.
Proof.
  intros HL Hr. unfold perm_apply_vec.
  destruct (perm_apply_regular_spec true (pi := pi) (src := Mat (length src) 1 src)
     (dst := Mat (length pi) 1 (repeat z (length pi)))) as [d [E [G1 G2]]];
    unfold wf_mat; simpl; auto; try (rewrite ?repeat_length; lia).
  exists d. rewrite E. cbn [bind dat]. split; auto. simpl in G1, G2. split; [lia|].
  intros i p Hi. specialize (G2 _ _ Hi). rewrite !row1 in G2.
  pose proof (nth_error_lt Hi) as Hil.
  destruct (nth_error_ex (l := d) (i := i)) as [a Ha]; [lia|].
  specialize (Hr _ _ Hi). destruct (nth_error_ex (l := src) (i := p)) as [b Hb]; [lia|].
  rewrite Ha, Hb in *. congruence.
Qed.

Lemma perm_applyInv_vec_spec A (z : A) pi src :
  length src = length pi -> is_perm (length pi) pi ->
  exists d, perm_applyInv_vec z pi src = Ok d /\ length d = length pi /\
            forall i p, nth_error pi i = Some p -> nth_error d p = nth_error src i.
Proof.
  intros HL Hp. unfold perm_applyInv_vec.
  destruct (perm_apply_inverse_spec true (pi := pi) (src := Mat (length src) 1 src)
     (dst := Mat (length pi) 1 (repeat z (length pi)))) as [d [E [G1 G2]]];
    unfold wf_mat; simpl; auto; try (rewrite ?repeat_length; lia).
  exists d. rewrite E. cbn [bind dat]. split; auto. simpl in G1, G2. split; [lia|].
  intros i p Hi. specialize (G2 _ _ Hi). rewrite !row1 in G2.
  pose proof (nth_error_lt Hi) as Hil. pose proof (is_perm_lt Hp Hi) as Hpl.
  destruct (nth_error_ex (l := d) (i := p)) as [a Ha]; [lia|].
  destruct (nth_error_ex (l := src) (i := i)) as [b Hb]; [lia|].
  rewrite Ha, Hb in *. congruence.
Qed.

(* ---------- compose / inverse ---------- *)
Definition gather {A} (d : A) (pi : list nat) (l : list A) : list A := map (fun p => nth p l d) pi.

Lemma perm_apply_vec_gather A (z : A) pi src :
  length src = length pi -> (forall i p, nth_error pi i = Some p -> p < length pi) ->
  perm_apply_vec z pi src = Ok (gather z pi src).
Proof.
  intros HL Hr. destruct (perm_apply_vec_spec z HL Hr) as [d [E [L H]]]. rewrite E. f_equal.
  unfold gather. apply nth_error_ext_len; [rewrite map_length; auto|]. intros i Hi.
  destruct (nth_error_ex (l := pi) (i := i)) as [p Ep]; [lia|].
  rewrite nth_error_map, Ep. simpl. rewrite (H _ _ Ep). apply nth_error_nth_lt.
  specialize (Hr _ _ Ep). lia.
Qed.

Lemma perm_range n pi : is_perm n pi -> forall i p, nth_error pi i = Some p -> p < length pi.
Proof. intros H i p Hi. rewrite (is_perm_length H). eapply is_perm_lt; eauto. Qed.

Lemma perm_compose_ok n a b : is_perm n a -> is_perm n b ->
  exists c, perm_compose a b = Ok c /\ is_perm n c /\
   forall i p, nth_error a i = Some p -> nth_error c i = nth_error b p.
Proof.
  intros Ha Hb. pose proof (is_perm_length Ha) as La. pose proof (is_perm_length Hb) as Lb.
  destruct (perm_apply_vec_spec 0 (pi := a) (src := b)) as [c [E [L H]]]; [lia|apply (perm_range Ha)|].
  exists c. split; [exact E|]. split; [|exact H].
  apply is_perm_intro; [lia| |].
  - apply NoDup_nth_error. intros i j Hi Hij.
    destruct (nth_error_ex (l := a) (i := i)) as [p Ep]; [lia|].
    pose proof (is_perm_lt Ha Ep) as Hp.
    destruct (nth_error_ex (l := b) (i := p)) as [q Eq]; [lia|].
    rewrite (H _ _ Ep), Eq in Hij. symmetry in Hij. pose proof (nth_error_lt Hij) as Hj.
    destruct (nth_error_ex (l := a) (i := j)) as [p' Ep']; [lia|].
    rewrite (H _ _ Ep') in Hij.
    assert (p = p') by (apply (NoDup_nth_error_inj (is_perm_NoDup Hb) Eq Hij)). subst p'.
    apply (NoDup_nth_error_inj (is_perm_NoDup Ha) Ep Ep').
  - intros q Hq. apply In_nth_error in Hq. destruct Hq as [i Hi].
    pose proof (nth_error_lt Hi) as Hil.
    destruct (nth_error_ex (l := a) (i := i)) as [p Ep]; [lia|].
    rewrite (H _ _ Ep) in Hi. eapply is_perm_lt; eauto.
Qed.

Lemma perm_inverse_ok n a : is_perm n a ->
  exists b, perm_inverse a = Ok b /\ is_perm n b /\
   forall i p, nth_error a i = Some p <-> nth_error b p = Some i /\ i < n.
Proof.
  intros Ha. pose proof (is_perm_length Ha) as La. unfold perm_inverse.
  destruct (forN_inv (P := fun k r => length r = n /\
      forall i p, i < k -> nth_error a i = Some p -> nth_error r p = Some i)
      (f := fun i r => do p <- get a i; set r p i) (n := length a) (i := 0)
      (s := repeat 0 (length a))) as [b [E [HL HP]]].
  - rewrite repeat_length. split; auto. intros; lia.
  - intros k r Hk [HL HP]. destruct (get_lt (l := a) (i := k)) as [p [Eg En]]; [lia|].
    rewrite Eg. cbn [bind]. pose proof (is_perm_lt Ha En) as Hp.
    rewrite set_lt by lia. eexists. split; [reflexivity|]. split; [rewrite upd_length; auto|].
    intros i q Hi Hq. destruct (Nat.eq_dec p q) as [->|Hne].
    + rewrite nth_error_upd_eq by lia. f_equal. apply (NoDup_nth_error_inj (is_perm_NoDup Ha) En Hq).
    + rewrite nth_error_upd_ne by auto. apply HP; auto.
      assert (i <> k) by (intros ->; congruence). lia.
  - assert (HI : forall i p, nth_error a i = Some p <-> nth_error b p = Some i /\ i < n).
    { intros i p. split.
      - intros Hi. split; [|pose proof (nth_error_lt Hi); lia].
        apply HP; auto. apply nth_error_lt in Hi. lia.
      - intros [Hb Hi]. destruct (nth_error_ex (l := a) (i := i)) as [q Eq]; [lia|].
        assert (Hpn : p < n) by (apply nth_error_lt in Hb; lia).
        destruct (is_perm_onto Ha Hpn) as [j [Hj Ej]].
        assert (nth_error b p = Some j) by (apply HP; auto; lia). congruence. }
    exists b. split; auto. split; auto.
    apply is_perm_intro; auto.
    + apply NoDup_nth_error. intros i j Hi Hij. rewrite HL in Hi.
      destruct (nth_error_ex (l := b) (i := i)) as [p Ep]; [lia|].
      rewrite Ep in Hij. symmetry in Hij.
      destruct (is_perm_onto Ha Hi) as [k [Hk Ek]].
      pose proof (nth_error_lt Hij) as Hj. rewrite HL in Hj.
      destruct (is_perm_onto Ha Hj) as [k' [Hk' Ek']].
      assert (nth_error b i = Some k) by (apply HP; auto; lia).
      assert (nth_error b j = Some k') by (apply HP; auto; lia). congruence.
    + intros q Hq. apply In_nth_error in Hq. destruct Hq as [i Hi].
      assert (Hin : i < n) by (apply nth_error_lt in Hi; lia).
      destruct (is_perm_onto Ha Hin) as [k [Hk Ek]].
      assert (nth_error b i = Some k) by (apply HP; auto; lia). congruence.
Qed.

Lemma is_perm_identity n : is_perm n (perm_identity n).
Proof. apply Permutation_refl. Qed.

(* composition acts like function composition on every matrix *)
Lemma perm_compose_apply A t1 t2 t3 n a b c (x d1 d2 d3 : mat A) :
  is_perm n a -> is_perm n b -> perm_compose a b = Ok c ->
  wf_mat x -> wf_mat d1 -> wf_mat d2 -> wf_mat d3 ->
  rows x = n -> rows d1 = n -> rows d2 = n -> rows d3 = n ->
  cols d1 = cols x -> cols d2 = cols x -> cols d3 = cols x ->
  exists y z, perm_apply t1 b x d1 Regular = Ok y /\
              perm_apply t2 a y d2 Regular = Ok z /\
              perm_apply t3 c x d3 Regular = Ok z.
Proof.
  intros Ha Hb Hc W W1 W2 W3 R R1 R2 R3 C1 C2 C3.
  pose proof (is_perm_length Ha) as La. pose proof (is_perm_length Hb) as Lb.
  destruct (perm_compose_ok Ha Hb) as [c' [E' [Hc' HI]]]. rewrite Hc in E'. inversion E'; subst c'.
  pose proof (is_perm_length Hc') as Lc.
  destruct x as [r0 cs xs], d1 as [r1 c1 x1], d2 as [r2 c2 x2], d3 as [r3 c3 x3];
    unfold wf_mat in *; simpl in *; subst r0 r1 r2 r3 c1 c2 c3.
  destruct (perm_apply_regular_spec t1 (pi := b) (src := Mat n cs xs) (dst := Mat n cs x1))
      as [y [E1 [L1 G1]]]; unfold wf_mat; simpl; auto. { apply (perm_range Hb). }
  simpl in *.
  destruct (perm_apply_regular_spec t2 (pi := a) (src := Mat n cs y) (dst := Mat n cs x2))
      as [z [E2 [L2 G2]]]; unfold wf_mat; simpl; auto. { rewrite L1, Lb; auto. } { apply (perm_range Ha). }
  simpl in *.
  destruct (perm_apply_regular_spec t3 (pi := c) (src := Mat n cs xs) (dst := Mat n cs x3))
      as [w [E3 [L3 G3]]]; unfold wf_mat; simpl; auto. { apply (perm_range Hc'). }
  simpl in *.
  exists (Mat n cs y), (Mat n cs z). split; auto. split; auto. rewrite E3. do 2 f_equal.
  apply (rows_ext (c := cs) (n := n)).
  - rewrite L3, Lc; auto.
  - rewrite L2, La; auto.
  - intros i Hi. destruct (nth_error_ex (l := a) (i := i)) as [p Ep]; [lia|].
    pose proof (is_perm_lt Ha Ep) as Hp.
    destruct (nth_error_ex (l := b) (i := p)) as [q Eq]; [lia|].
    rewrite (G2 _ _ Ep), (G1 _ _ Eq). apply G3. rewrite (HI _ _ Ep). exact Eq.
Qed.

Lemma perm_compose_assoc n a b c :
  is_perm n a -> is_perm n b -> is_perm n c ->
  exists ab bc r, perm_compose a b = Ok ab /\ perm_compose b c = Ok bc /\
    perm_compose ab c = Ok r /\ perm_compose a bc = Ok r.
Proof.
  intros Ha Hb Hc.
  destruct (perm_compose_ok Ha Hb) as [ab [E1 [P1 I1]]].
  destruct (perm_compose_ok Hb Hc) as [bc [E2 [P2 I2]]].
  destruct (perm_compose_ok P1 Hc) as [r [E3 [P3 I3]]].
  destruct (perm_compose_ok Ha P2) as [r' [E4 [P4 I4]]].
  exists ab, bc, r. repeat split; auto. rewrite E4. f_equal.
  apply nth_error_ext_len; [rewrite (is_perm_length P4), (is_perm_length P3); auto|].
  intros i Hi. rewrite (is_perm_length P4) in Hi.
  destruct (nth_error_ex (l := a) (i := i)) as [p Ep]; [rewrite (is_perm_length Ha); auto|].
  pose proof (is_perm_lt Ha Ep) as Hp.
  destruct (nth_error_ex (l := b) (i := p)) as [q Eq]; [rewrite (is_perm_length Hb); auto|].
  rewrite (I4 _ _ Ep), (I2 _ _ Eq). symmetry. apply I3. rewrite (I1 _ _ Ep). exact Eq.
Qed.

Lemma perm_compose_identity n a : is_perm n a ->
  perm_compose a (perm_identity n) = Ok a /\ perm_compose (perm_identity n) a = Ok a.
Proof.
  intros Ha. split.
  - destruct (perm_compose_ok Ha (is_perm_identity n)) as [c [E [Pc H]]]. rewrite E. f_equal.
    apply nth_error_ext_len; [rewrite (is_perm_length Pc), (is_perm_length Ha); auto|].
    intros i Hi. rewrite (is_perm_length Pc) in Hi.
    destruct (nth_error_ex (l := a) (i := i)) as [p Ep]; [rewrite (is_perm_length Ha); auto|].
    rewrite (H _ _ Ep). pose proof (is_perm_lt Ha Ep) as Hp. unfold perm_identity.
    rewrite nth_error_seq. destruct (Nat.ltb_spec p n); [|lia]. rewrite Ep. reflexivity.
  - destruct (perm_compose_ok (is_perm_identity n) Ha) as [c [E [Pc H]]]. rewrite E. f_equal.
    apply nth_error_ext_len; [rewrite (is_perm_length Pc), (is_perm_length Ha); auto|].
    intros i Hi. rewrite (is_perm_length Pc) in Hi. apply H.
    unfold perm_identity. rewrite nth_error_seq. destruct (Nat.ltb_spec i n); [auto|lia].
Qed.

Lemma perm_inverse_compose n a : is_perm n a ->
  exists b, perm_inverse a = Ok b /\ is_perm n b /\ perm_inverse b = Ok a /\
    perm_compose a b = Ok (perm_identity n) /\ perm_compose b a = Ok (perm_identity n).
Proof.
  intros Ha. destruct (perm_inverse_ok Ha) as [b [E [Pb Hb]]].
  destruct (perm_inverse_ok Pb) as [b' [E' [Pb' Hb']]].
  exists b. split; auto. split; auto.
  pose proof (is_perm_length Ha) as La. pose proof (is_perm_length Pb) as Lb.
  pose proof (is_perm_length Pb') as Lb'.
  split.
  { rewrite E'. f_equal. apply nth_error_ext_len; [lia|]. intros i Hi.
    destruct (nth_error_ex (l := a) (i := i)) as [p Ep]; [lia|]. rewrite Ep.
    apply Hb'. pose proof (is_perm_lt Ha Ep). apply Hb. auto. }
  assert (LI : length (perm_identity n) = n) by apply seq_length.
  split.
  - destruct (perm_compose_ok Ha Pb) as [c [Ec [Pc H]]]. rewrite Ec. f_equal.
    pose proof (is_perm_length Pc) as Lc.
    apply nth_error_ext_len; [lia|].
    intros i Hi. destruct (nth_error_ex (l := a) (i := i)) as [p Ep]; [lia|].
    rewrite (H _ _ Ep). apply Hb in Ep. destruct Ep as [Ep Hin]. rewrite Ep.
    unfold perm_identity. rewrite nth_error_seq. destruct (Nat.ltb_spec i n); [auto|lia].
  - destruct (perm_compose_ok Pb Ha) as [c [Ec [Pc H]]]. rewrite Ec. f_equal.
    pose proof (is_perm_length Pc) as Lc.
    apply nth_error_ext_len; [lia|].
    intros i Hi. destruct (nth_error_ex (l := b) (i := i)) as [p Ep]; [lia|].
    rewrite (H _ _ Ep). pose proof (is_perm_lt Pb Ep).
    unfold perm_identity. rewrite nth_error_seq. destruct (Nat.ltb_spec i n); [|lia].
    apply Hb. auto.
Qed.

(* apply Inverse is apply Regular of the inverse *)
Lemma perm_apply_inverse_eq A t1 t2 n a b (x d1 d2 : mat A) :
  is_perm n a -> perm_inverse a = Ok b ->
  wf_mat x -> wf_mat d1 -> wf_mat d2 ->
  rows x = n -> rows d1 = n -> rows d2 = n -> cols d1 = cols x -> cols d2 = cols x ->
  exists y, perm_apply t1 a x d1 Inverse = Ok y /\ perm_apply t2 b x d2 Regular = Ok y.
Proof.
  intros Ha Hb W W1 W2 R R1 R2 C1 C2.
  pose proof (is_perm_length Ha) as La.
  destruct (perm_inverse_ok Ha) as [b' [E' [Pb HI]]]. rewrite Hb in E'. inversion E'; subst b'.
  pose proof (is_perm_length Pb) as Lb.
  destruct x as [r0 cs xs], d1 as [r1 c1 x1], d2 as [r2 c2 x2];
    unfold wf_mat in *; simpl in *; subst r0 r1 r2 c1 c2.
  destruct (perm_apply_inverse_spec t1 (pi := a) (src := Mat n cs xs) (dst := Mat n cs x1))
      as [y [E1 [L1 G1]]]; unfold wf_mat; simpl; auto. { rewrite La; auto. }
  destruct (perm_apply_regular_spec t2 (pi := b) (src := Mat n cs xs) (dst := Mat n cs x2))
      as [z [E2 [L2 G2]]]; unfold wf_mat; simpl; auto. { apply (perm_range Pb). }
  simpl in *. exists (Mat n cs y). split; auto. rewrite E2. do 2 f_equal.
  apply (rows_ext (c := cs) (n := n)).
  - rewrite L2, Lb; auto.
  - rewrite L1, La; auto.
  - intros i Hi. destruct (nth_error_ex (l := b) (i := i)) as [p Ep]; [lia|].
    rewrite (G2 _ _ Ep). symmetry. apply G1. apply HI. split; auto.
    eapply is_perm_lt; eauto.
Qed.

(* ---------- randomize ---------- *)
Lemma swap_ok A (l : list A) i j :
  i < length l -> j < length l ->
  exists l', swap l i j = Ok l' /\ length l' = length l /\
   forall k, nth_error l' k = if k =? j then nth_error l i else if k =? i then nth_error l j else nth_error l k.
Proof.
  intros Hi Hj. unfold swap.
  destruct (get_lt Hi) as [a [Ea Na]], (get_lt Hj) as [b [Eb Nb]].
  rewrite Ea, Eb. cbn [bind]. rewrite set_lt by auto. cbn [bind].
  rewrite set_lt by (rewrite upd_length; auto). eexists. split; [reflexivity|].
  split; [rewrite !upd_length; auto|]. intros k.
  rewrite !nth_error_upd, upd_length.
  rewrite (Nat.eqb_sym k j), (Nat.eqb_sym k i).
  destruct (Nat.ltb_spec j (length l)); [|lia]. destruct (Nat.ltb_spec i (length l)); [|lia].
  rewrite !andb_true_r. destruct (j =? k); auto. destruct (i =? k); auto.
Qed.

Lemma upd_app_r A : forall (l m : list A) i x, length l <= i -> upd (l ++ m) i x = l ++ upd m (i - length l) x.
Proof.
  induction l as [|a l IH]; intros m i x Hi; simpl in *.
  - rewrite Nat.sub_0_r. reflexivity.
  - destruct i as [|i]; [lia|]. simpl. f_equal. apply IH. lia.
Qed.

Lemma swap_split A (l : list A) i j a b :
  i < j -> nth_error l i = Some a -> nth_error l j = Some b ->
  exists l1 l2 l3, l = l1 ++ a :: l2 ++ b :: l3 /\ length l1 = i /\ length l2 = j - i - 1.
Proof.
  intros Hij Hi Hj. apply nth_error_split in Hi. destruct Hi as [l1 [r [-> HL]]].
  rewrite nth_error_app2 in Hj by lia. destruct (j - length l1) as [|k] eqn:Ek; [lia|].
  simpl in Hj. apply nth_error_split in Hj. destruct Hj as [l2 [l3 [-> HL2]]].
  exists l1, l2, l3. repeat split; auto. lia.
Qed.

Lemma swap_Permutation A (l l' : list A) i j : i < length l -> j < length l ->
  swap l i j = Ok l' -> Permutation l' l.
Proof.
  intros Hi Hj E.
  destruct (swap_ok Hi Hj) as [l'' [E' [HL HN]]]. rewrite E in E'. inversion E'; subst l''. clear E'.
  assert (Main : forall i j, i < j -> j < length l ->
     (forall k, nth_error l' k = if k =? j then nth_error l i else if k =? i then nth_error l j else nth_error l k)
     -> Permutation l' l).
  { clear - HL. intros i j Hij Hj HN.
    destruct (nth_error_ex (l := l) (i := i)) as [a Ha]; [lia|].
    destruct (nth_error_ex (l := l) (i := j)) as [b Hb]; [lia|].
    destruct (swap_split Hij Ha Hb) as [l1 [l2 [l3 [El [L1 L2]]]]].
    assert (E' : l' = l1 ++ b :: l2 ++ a :: l3).
    { apply nth_error_ext. intros k. rewrite HN, Ha, Hb. rewrite El.
      rewrite !nth_error_app, L1.
      destruct (Nat.eqb_spec k j) as [->|Hkj].
      - destruct (Nat.ltb_spec j i); [lia|]. destruct (j - i) as [|d] eqn:Ed; [lia|]. simpl.
        rewrite nth_error_app. destruct (Nat.ltb_spec d (length l2)); [lia|].
        replace (d - length l2) with 0 by lia. reflexivity.
      - destruct (Nat.eqb_spec k i) as [->|Hki].
        + destruct (Nat.ltb_spec i i); [lia|]. rewrite Nat.sub_diag. reflexivity.
        + destruct (Nat.ltb_spec k i); auto.
          destruct (k - i) as [|d] eqn:Ed; [lia|]. simpl.
          rewrite !nth_error_app. destruct (Nat.ltb_spec d (length l2)); auto.
          destruct (d - length l2) as [|e] eqn:Ee; [lia|]. reflexivity. }
    rewrite E', El. apply Permutation_app_head.
    etransitivity; [apply Permutation_cons; [reflexivity|apply Permutation_sym, Permutation_middle]|].
    etransitivity; [apply perm_swap|]. apply Permutation_cons; [reflexivity|apply Permutation_middle]. }
  destruct (Nat.lt_trichotomy i j) as [H|[->|H]].
  - eapply Main; eauto.
  - assert (l' = l); [|subst; reflexivity]. apply nth_error_ext. intros k. rewrite HN.
    destruct (Nat.eqb_spec k j); subst; auto.
  - apply (Main j i); auto. intros k. rewrite HN.
    destruct (Nat.eqb_spec k j); destruct (Nat.eqb_spec k i); subst; auto; lia.
Qed.

Lemma rand_idx_range n i w : i < n ->
  i <= N.to_nat (w mod N.of_nat (n - i)) + i < n.
Proof.
  intros H. assert (Hm : (w mod N.of_nat (n - i) < N.of_nat (n - i))%N) by (apply N.mod_lt; lia). lia.
Qed.

Lemma perm_randomize_perm n ws : n <= length ws ->
  exists pi, perm_randomize n ws = Ok pi /\ is_perm n pi.
Proof.
  intros Hws. unfold perm_randomize.
  destruct (forN_inv (P := fun _ l => is_perm n l)
    (f := fun i l => do w <- get ws i;
                     let idx := N.to_nat (w mod N.of_nat (n - i)) + i in swap l i idx)
    (n := n) (i := 0) (s := seq 0 n)) as [pi [E H]].
  - apply is_perm_identity.
  - intros k l Hk Hl. destruct (get_lt (l := ws) (i := k)) as [w [Ew Nw]]; [lia|].
    rewrite Ew. cbn [bind]. pose proof (rand_idx_range (n := n) (i := k) w) as Hi.
    pose proof (is_perm_length Hl) as HL.
    destruct (swap_ok (l := l) (i := k) (j := N.to_nat (w mod N.of_nat (n - k)) + k)) as [l' [E' _]]; try lia.
    exists l'. split; auto. unfold is_perm. etransitivity; [|exact Hl].
    eapply swap_Permutation; [| |exact E']; lia.
  - exists pi. auto.
Qed.

(* every permutation is produced by some stream of 32-bit words *)
Lemma perm_randomize_onto_aux n target : is_perm n target -> (N.of_nat n <= 2 ^ 32)%N ->
  forall m k l, m + k = n -> is_perm n l ->
  (forall i, i < k -> nth_error l i = nth_error target i) ->
  exists ws, length ws = m /\ (forall w, In w ws -> (w < 2 ^ 32)%N) /\
    forall pre, length pre = k ->
    forN k m (fun i l => do w <- get (pre ++ ws) i;
                     let idx := N.to_nat (w mod N.of_nat (n - i)) + i in swap l i idx) l = Ok target.
Proof.
  intros Ht Hn. induction m as [|m IH]; intros k l Hmk Hl Hpre.
  - exists []. split; auto. split; [intros w []|]. intros pre _. cbn [forN]. f_equal.
    apply nth_error_ext_len; [rewrite (is_perm_length Hl), (is_perm_length Ht); auto|].
    intros i Hi. apply Hpre. rewrite (is_perm_length Hl) in Hi. lia.
  - destruct (nth_error_ex (l := target) (i := k)) as [t Et]; [rewrite (is_perm_length Ht); lia|].
    destruct (is_perm_onto Hl (is_perm_lt Ht Et)) as [j [Hj Ej]].
    assert (Hjk : k <= j).
    { destruct (Nat.lt_ge_cases j k); auto. pose proof (Hpre _ H) as Hx. rewrite Ej in Hx.
      symmetry in Hx. pose proof (NoDup_nth_error_inj (is_perm_NoDup Ht) Hx Et). lia. }
    pose proof (is_perm_length Hl) as HL.
    destruct (swap_ok (l := l) (i := k) (j := j)) as [l' [E' [HL' HN]]]; try lia.
    destruct (IH (k + 1) l') as [ws [Lw [Bw Hw]]].
    + lia.
    + unfold is_perm. etransitivity; [|exact Hl]. eapply swap_Permutation; [| |exact E']; lia.
    + intros i Hi. rewrite HN. destruct (Nat.eq_dec i k) as [->|Hne].
      * destruct (Nat.eqb_spec k j) as [->|]; [congruence|]. rewrite Nat.eqb_refl. congruence.
      * destruct (Nat.eqb_spec i j); [lia|]. destruct (Nat.eqb_spec i k); [lia|]. apply Hpre. lia.
    + exists (N.of_nat (j - k) :: ws). split; [simpl; auto|]. split.
      { intros w [<-|Hin]; [lia|auto]. }
      intros pre Lp. cbn [forN].
      assert (Eg : get (pre ++ N.of_nat (j - k) :: ws) k = Ok (N.of_nat (j - k))).
      { apply get_Ok. rewrite nth_error_app2 by lia. rewrite Lp, Nat.sub_diag. reflexivity. }
      rewrite Eg. cbn [bind].
      rewrite N.mod_small by lia. rewrite Nnat.Nat2N.id. replace (j - k + k) with j by lia.
      rewrite E'. cbn [bind].
      specialize (Hw (pre ++ [N.of_nat (j - k)])).
      rewrite <- app_assoc in Hw. simpl in Hw. apply Hw. rewrite app_length. simpl. lia.
Qed.

Lemma perm_randomize_onto n target : is_perm n target -> (N.of_nat n <= 2 ^ 32)%N ->
  exists ws, length ws = n /\ (forall w, In w ws -> (w < 2 ^ 32)%N) /\ perm_randomize n ws = Ok target.
Proof.
  intros Ht Hn.
  destruct (perm_randomize_onto_aux Ht Hn (m := n) (k := 0) (l := seq 0 n)) as [ws [L [B H]]].
  - lia.
  - apply is_perm_identity.
  - intros; lia.
  - exists ws. split; auto. split; auto. apply (H []). reflexivity.
Qed.

(* ---------- validate ---------- *)
Lemma perm_validate_iff pi : perm_validate pi = Ok tt <-> is_perm (length pi) pi.
Proof.
  set (n := length pi).
  set (body := fun i v => do p <- get pi i; do _ <- throw_if (n <=? p);
                          do vv <- get v p; do _ <- throw_if vv; set v p true).
  set (Inv := fun (k : nat) (v : list bool) => length v = n /\ NoDup (firstn k pi) /\
      (forall p, In p (firstn k pi) -> p < n) /\
      (forall p, p < n -> nth_error v p = Some true <-> In p (firstn k pi))).
  assert (Step : forall k v, k < n -> Inv k v ->
     (exists v', body k v = Ok v' /\ Inv (k + 1) v') \/
     (body k v = Throw /\ ~ is_perm n pi)).
  { intros k v Hk (HL & HN & HB & HV). unfold body.
    destruct (get_lt (l := pi) (i := k)) as [p [Eg En]]; [exact Hk|]. rewrite Eg. cbn [bind].
    assert (Hsplit : firstn (k + 1) pi = firstn k pi ++ [p]).
    { clear - En. revert k En. induction pi as [|a l IH]; intros [|k] En; simpl in *; try discriminate.
      - congruence.
      - f_equal. apply IH, En. }
    unfold throw_if. destruct (Nat.leb_spec n p) as [Hp|Hp]; cbn [bind].
    - right. split; auto. intros HP. pose proof (is_perm_lt HP En). lia.
    - destruct (get_lt (l := v) (i := p)) as [b [Eb Nb]]; [lia|]. rewrite Eb. cbn [bind].
      destruct b; cbn [bind].
      + right. split; auto. intros HP.
        apply HV in Nb; auto. apply is_perm_NoDup in HP.
        apply In_nth_error in Nb. destruct Nb as [i Hi]. rewrite nth_error_firstn in Hi.
        destruct (Nat.ltb_spec i k); [|discriminate].
        pose proof (NoDup_nth_error_inj HP Hi En). lia.
      + left. rewrite set_lt by lia. eexists. split; [reflexivity|].
        assert (Hnin : ~ In p (firstn k pi)).
        { intros Hin. apply HV in Hin; auto. congruence. }
        repeat split.
        * rewrite upd_length; auto.
        * rewrite Hsplit. apply NoDup_app_remove_r with (l' := []) || idtac.
          apply (Permutation_NoDup (l := p :: firstn k pi)).
          { apply Permutation_cons_append. }
          constructor; auto.
        * intros q Hq. rewrite Hsplit in Hq. apply in_app_or in Hq. destruct Hq as [Hq|[<-|[]]]; auto.
        * rewrite nth_error_upd. destruct (Nat.eqb_spec p p0) as [->|Hne]; simpl.
          { intros _. rewrite Hsplit. apply in_or_app. right. left. reflexivity. }
          intros Hx. rewrite Hsplit. apply in_or_app. left. apply HV; auto.
        * intros Hin. rewrite nth_error_upd. destruct (Nat.eqb_spec p p0) as [->|Hne]; simpl.
          { destruct (Nat.ltb_spec p0 (length v)); auto. lia. }
          apply HV; auto. rewrite Hsplit in Hin. apply in_app_or in Hin.
          destruct Hin as [Hin|[Hin|[]]]; auto. congruence. }
  assert (Loop : forall m k v, k + m = n -> Inv k v ->
     (exists v', forN k m body v = Ok v' /\ Inv n v') \/
     (forN k m body v = Throw /\ ~ is_perm n pi)).
  { induction m as [|m IH]; intros k v Hkm HI; cbn [forN].
    - left. exists v. split; auto. replace n with k by lia. exact HI.
    - destruct (Step k v) as [[v' [E HI']]|[E HX]]; auto; [lia| |].
      + rewrite E. cbn [bind]. apply IH; auto. lia.
      + right. rewrite E. auto. }
  destruct (Loop n 0 (repeat false n)) as [[v' [E (HL & HN & HB & _)]]|[E HX]].
  - lia.
  - repeat split.
    + apply repeat_length.
    + constructor.
    + intros p [].
    + rewrite nth_error_repeat. destruct (p <? n); intros; congruence.
    + intros [].
  - unfold perm_validate. fold n. fold body. rewrite E. cbn [bind].
    unfold n in HN, HB. rewrite firstn_all in HN, HB. split; auto. intros _.
    apply is_perm_intro; auto.
  - unfold perm_validate. fold n. fold body. rewrite E. cbn [bind]. split; [discriminate|tauto].
Qed.

Lemma perm_validate_total pi : perm_validate pi = Ok tt \/ perm_validate pi = Throw.
Proof.
  unfold perm_validate. set (n := length pi).
  set (body := fun i v => do p <- get pi i; do _ <- throw_if (n <=? p);
                          do vv <- get v p; do _ <- throw_if vv; set v p true).
  assert (G : forall m k v, k + m = n -> length v = n ->
     (exists v', forN k m body v = Ok v') \/ forN k m body v = Throw).
  { induction m as [|m IH]; intros k v Hk Hv; cbn [forN]; [left; eauto|].
    unfold body at 1 3. destruct (get_lt (l := pi) (i := k)) as [p [Eg _]]; [unfold n in *; lia|].
    rewrite Eg. cbn [bind]. unfold throw_if. destruct (Nat.leb_spec n p); cbn [bind]; auto.
    destruct (get_lt (l := v) (i := p)) as [b [Eb _]]; [lia|]. rewrite Eb. cbn [bind].
    destruct b; cbn [bind]; auto. rewrite set_lt by lia. cbn [bind]. apply IH; [lia|].
    rewrite upd_length; auto. }
  destruct (G n 0 (repeat false n)) as [[v' E]|E]; [lia|apply repeat_length| |];
    fold body; rewrite E; cbn [bind]; auto.
Qed.
