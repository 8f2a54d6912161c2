(* The plaintext average. *)
From Coq Require Import Sorted Permutation.
From Verif Require BinFileProofs.
From Verif Require Import Base Words Mod3Model SimdModel PermModel PermSpec PermProofs KeyMultModel BitInjProofs ShuffleModel ShuffleSpec ShuffleSpanProofs RadixModel RadixSpec RadixSortProofs StableSortProofs
  TableModel TableSpec TrimProofs TableProofs TableSortProofs TableOpsModel TableOpsSpec JoinProofs.

Lemma store_S w x : store (S w) x = (x mod 256)%N :: store w (x / 256)%N.
Proof.
  unfold store. cbn [seq map]. f_equal.
  - unfold byteN, byte_of. change 255%N with (N.ones 8). rewrite N.land_ones. rewrite ?N.shiftr_0_r. reflexivity.
  - rewrite <- seq_shift, map_map. apply map_ext. intro i. unfold byteN, byte_of. f_equal. change 256%N with (2 ^ 8)%N. rewrite <- N.shiftr_div_pow2, N.shiftr_shiftr. f_equal. lia.
Qed.
Lemma le_bytes_store w : forall x, le_bytes w x = store w x.
Proof. induction w as [|w IH]; intro x; [easy|]. rewrite store_S. cbn [le_bytes]. now rewrite IH. Qed.
Lemma store_mod w x : store w (x mod 2 ^ N.of_nat (w * 8)) = store w x.
Proof.
  apply bytes_ext; try apply store_bytes; [now rewrite !store_length|]. intros k Hk. rewrite store_length in Hk. rewrite !store_bit by lia. apply N.mod_pow2_bits_low. lia.
Qed.
Lemma store_0 w : store w 0 = repeat 0%N w.
Proof.
  apply bytes_ext; [apply store_bytes|apply BinFileProofs.zeros_bytes|now rewrite store_length, repeat_length|]. intros k Hk. rewrite store_length in Hk. rewrite store_bit by lia.
  now rewrite N.bits_0, BinFileProofs.sbit_zeros.
Qed.

Section LOOP.
Variables (n c : nat) (keys : list (list N)) (avgs : list column) (flags : list N).
Let kn (t : nat) : N := le_num (nth t keys []).
Hypothesis HK : rows_ok n c keys.
Hypothesis MONO : forall t u, t <= u -> u < n -> (kn t <= kn u)%N.
Hypothesis HA : Forall (fun a => length (bRows (cDat a)) = n) avgs.
Hypothesis HF : flags = [] \/ length flags = n.
Let f (t : nat) : N := flag_of flags t.

Definition run_sum (w : nat -> N) (r : nat) : N := total (fun u => if (kn u =? kn r)%N then w u else 0%N) (seq r (n - r)).
Lemma total_zero (w : nat -> N) l : (forall u, In u l -> w u = 0%N) -> total w l = 0%N.
Proof. induction l as [|u l IH]; intro H; [easy|]. cbn [total fold_right]. fold (total w l). rewrite IH by (intros v Hv; apply H; now right). rewrite (H u (or_introl eq_refl)). easy. Qed.
Lemma total_ext (w w' : nat -> N) l : (forall u, In u l -> w u = w' u) -> total w l = total w' l.
Proof. induction l as [|u l IH]; intro H; [easy|]. cbn [total fold_right]. fold (total w l) (total w' l). rewrite IH by (intros v Hv; apply H; now right). now rewrite (H u (or_introl eq_refl)). Qed.
Lemma run_sum_step w r : r < n -> run_sum w r = ((if (S r <? n)%nat && (kn r =? kn (S r))%N then run_sum w (S r) else 0) + w r)%N.
Proof.
  intro H. unfold run_sum. replace (n - r) with (S (n - S r)) by lia. cbn [seq total fold_right]. rewrite N.eqb_refl. fold (total (fun u => if (kn u =? kn r)%N then w u else 0%N) (seq (S r) (n - S r))).
  rewrite N.add_comm. f_equal. destruct (Nat.ltb_spec (S r) n) as [L|L]; cbn [andb].
  - destruct (N.eqb_spec (kn r) (kn (S r))) as [E|E]; [now rewrite E|]. apply total_zero. intros u Hu. apply in_seq in Hu.
    destruct (N.eqb_spec (kn u) (kn r)) as [E'|E']; [|easy]. pose proof (@MONO r (S r) ltac:(lia) L). pose proof (@MONO (S r) u ltac:(lia) ltac:(lia)). exfalso. apply E. lia.
  - replace (n - S r) with 0 by lia. easy.
Qed.

Definition size_of (a : column) : N := (2 ^ N.of_nat (div_ceil (cBits a) 8 * 8))%N.
Definition wv (a : column) (t : nat) : N := N.shiftl (load (nth t (bRows (cDat a)) []) mod 2 ^ N.of_nat (cBits a))%N (N.of_nat (div_ceil (cBits a) 8 * 8 - cBits a)).
Definition sums_at (t : nat) : list N := map (fun a => (run_sum (wv a) t mod size_of a)%N) avgs.
Definition cnt_at (t : nat) : N := (run_sum (fun _ => 1%N) t mod 2 ^ 64)%N.
Definition lead (t : nat) : bool := (t =? 0) || negb (kn (t - 1) =? kn t)%N.
Definition outd (w : nat) (D : nat -> bool) : avg_out :=
  AO (map (fun t => if D t then f t else 0%N) (seq 0 n))
     (map (fun t => if D t && negb (f t =? 0)%N then nth t keys [] else repeat 0%N w) (seq 0 n))
     (map (fun t => if D t && negb (f t =? 0)%N then sums_at t else map (fun _ => 0%N) avgs) (seq 0 n))
     (map (fun t => if D t && negb (f t =? 0)%N then cnt_at t else 0%N) (seq 0 n)).
Lemma outd_ext w D D' : (forall t, t < n -> D t = D' t) -> outd w D = outd w D'.
Proof. intro H. unfold outd. f_equal; apply map_ext_in; intros t Ht; apply in_seq in Ht; rewrite H by lia; easy. Qed.
Lemma copy_entry_ok w D t0 : t0 < n -> copy_entry keys (sums_at t0) (cnt_at t0) flags t0 (outd w D) = Ok (outd w (fun t => D t || (t =? t0))).
Proof.
  intro H. unfold copy_entry.
  replace (if 0 <? length flags then get flags t0 else Ok 1%N) with (Ok (f t0)).
  2:{ unfold f, flag_of. destruct HF as [->|HF']; [easy|]. destruct flags as [|x fl]; [cbn in HF'; lia|]. cbn [length Nat.ltb Nat.leb]. symmetry. apply get_ok. lia. }
  cbn [bind]. cbn [outd aoAct aoKey aoSum aoCnt]. rewrite set_lt by (now rewrite map_length, seq_length). cbn [bind]. rewrite upd_map_seq.
  destruct (N.eqb_spec (f t0) 0) as [E|E].
  - f_equal. unfold outd. f_equal; apply map_ext; intro t; destruct (Nat.eqb_spec t t0) as [->|NE]; rewrite ?orb_false_r, ?orb_true_r, ?E; try easy; cbn [N.eqb negb]; now rewrite ?andb_false_r.
  - rewrite (@get_ok _ keys t0 []) by (rewrite (proj1 HK); easy). cbn [bind]. rewrite !set_lt by (now rewrite map_length, seq_length). cbn [bind]. repeat (rewrite set_lt by (now rewrite map_length, seq_length); cbn [bind]). rewrite !upd_map_seq. f_equal. unfold outd. apply N.eqb_neq in E.
    f_equal; apply map_ext; intro t; destruct (Nat.eqb_spec t t0) as [->|NE]; rewrite ?orb_false_r, ?orb_true_r, ?E; easy.
Qed.

Lemma cir_cnt x : cir_eval x [1; 0; 0; 0; 0; 0; 0; 0]%N 64 8 = ((x + 1) mod 2 ^ 64)%N.
Proof. reflexivity. Qed.
Lemma cir_sum a x t : (cir_eval (x mod size_of a) (nth t (bRows (cDat a)) []) (cBits a) (div_ceil (cBits a) 8) = (x + wv a t) mod size_of a)%N.
Proof. unfold cir_eval. fold (wv a t). unfold size_of. apply N.add_mod_idemp_l. apply N.pow_nonzero. discriminate. Qed.

Definition doneR (r t : nat) : bool := ((r <? t) || (r =? 0)) && lead t.
Lemma avg_step_ok w i : i < n -> avg_step n keys avgs flags i (sums_at (n - i), cnt_at (n - i), outd w (doneR (n - i))) =
  Ok (sums_at (n - (i + 1)), cnt_at (n - (i + 1)), outd w (doneR (n - (i + 1)))).
Proof.
  intro Hi. set (r := n - (i + 1)). replace (n - i) with (S r) by lia. unfold avg_step. replace (n - 1 - i) with r by lia. assert (Hr : r < n) by lia.
  (* after the comparison with the row above *)
  match goal with |- (do _ <- ?X; _) = _ => assert (E : X = Ok
     (if (S r <? n)%nat && (kn r =? kn (S r))%N then sums_at (S r) else map (fun _ => 0%N) avgs,
      if (S r <? n)%nat && (kn r =? kn (S r))%N then cnt_at (S r) else 0%N, outd w (fun t => (r <? t) && lead t))) end.
  { destruct (Nat.ltb_spec r (n - 1)) as [L|L].
    - replace (S r <? n) with true by (symmetry; apply Nat.ltb_lt; lia). cbn [andb].
      rewrite (@get_ok _ keys r []), (@get_ok _ keys (r + 1) []) by (rewrite (proj1 HK); lia). cbn [bind]. replace (r + 1) with (S r) by lia.
      destruct (@rows_nth _ _ _ r HK ltac:(lia)) as [L1 B1], (@rows_nth _ _ _ (S r) HK ltac:(lia)) as [L2 B2].
      rewrite (@eq_rows c) by easy. cbn [bind]. change (le_num (nth r keys [])) with (kn r). change (le_num (nth (S r) keys [])) with (kn (S r)).
      destruct (kn r =? kn (S r))%N eqn:EQ.
      + do 2 f_equal. apply outd_ext. intros t Ht. unfold doneR, lead. destruct (Nat.eqb_spec (S r) 0); [lia|]. rewrite orb_false_r. destruct (Nat.ltb_spec (S r) t), (Nat.ltb_spec r t); try easy; try lia.
        replace t with (S r) by lia. cbn [andb]. replace (S r =? 0) with false by (symmetry; apply Nat.eqb_neq; lia). replace (S r - 1) with r by lia. now rewrite EQ.
      + rewrite copy_entry_ok by lia. cbn [bind]. do 2 f_equal. apply outd_ext. intros t Ht. unfold doneR, lead. destruct (Nat.eqb_spec (S r) 0); [lia|]. rewrite orb_false_r.
        destruct (Nat.eqb_spec t (S r)) as [->|NE].
        * rewrite orb_true_r. replace (r <? S r) with true by (symmetry; apply Nat.ltb_lt; lia). cbn [andb]. replace (S r - 1) with r by lia. now rewrite EQ, orb_true_r.
        * rewrite orb_false_r. destruct (Nat.ltb_spec (S r) t), (Nat.ltb_spec r t); try easy; lia.
    - replace (S r <? n) with false by (symmetry; apply Nat.ltb_ge; lia). cbn [andb]. unfold sums_at, cnt_at, run_sum. replace (n - S r) with 0 by lia. cbn [seq total fold_right].
      match goal with |- Ok (?X, _, outd _ ?D) = Ok (?Y, _, outd _ ?D') => assert (EX : X = Y); [|assert (ED : outd w D = outd w D'); [|rewrite ED, EX; reflexivity]] end.
      + apply map_ext. intro a. apply N.mod_0_l. unfold size_of. apply N.pow_nonzero. discriminate.
      + apply outd_ext. intros t Ht. unfold doneR. destruct (Nat.eqb_spec (S r) 0); [lia|]. destruct (Nat.ltb_spec (S r) t), (Nat.ltb_spec r t); try easy; lia. }
  rewrite E. clear E. cbn [bind].
  match goal with |- context [mapM ?F (combine avgs ?X)] => assert (ES : mapM F (combine avgs X) = Ok (sums_at r)) end.
  { unfold sums_at at 2. replace (if (S r <? n)%nat && (kn r =? kn (S r))%N then sums_at (S r) else map (fun _ => 0%N) avgs)
      with (map (fun a => (((if (S r <? n)%nat && (kn r =? kn (S r))%N then run_sum (wv a) (S r) else 0) mod size_of a))%N) avgs).
    2:{ destruct ((S r <? n)%nat && (kn r =? kn (S r))%N); [easy|]. apply map_ext. intro a. apply N.mod_0_l. unfold size_of. apply N.pow_nonzero. discriminate. }
    apply mapM_combine_map. intros a Ha. cbn [fst snd]. rewrite Forall_forall in HA. rewrite (@get_ok _ (bRows (cDat a)) r []) by (rewrite (HA a Ha); easy). cbn [bind].
    rewrite cir_sum. now rewrite (run_sum_step (wv a) Hr). }
  rewrite ES. clear ES. cbn [bind]. rewrite cir_cnt.
  assert (EC : (((if (S r <? n)%nat && (kn r =? kn (S r))%N then cnt_at (S r) else 0) + 1) mod 2 ^ 64)%N = cnt_at r).
  { unfold cnt_at. rewrite (run_sum_step (fun _ => 1%N) Hr). destruct ((S r <? n)%nat && (kn r =? kn (S r))%N); [|easy]. apply N.add_mod_idemp_l. discriminate. }
  rewrite EC. destruct (Nat.eqb_spec r 0) as [Z|Z].
  - rewrite copy_entry_ok by lia. cbn [bind]. do 2 f_equal. apply outd_ext. intros t Ht. unfold doneR, lead. rewrite Z. cbn [Nat.eqb orb]. rewrite orb_true_r. cbn [andb].
    destruct (Nat.eqb_spec t 0) as [->|NE]; [easy|]. replace (0 <? t) with true by (symmetry; apply Nat.ltb_lt; lia). cbn [orb andb]. now rewrite orb_false_r.
  - do 2 f_equal. apply outd_ext. intros t Ht. unfold doneR. destruct (Nat.eqb_spec r 0); [easy|]. now rewrite orb_false_r.
Qed.

Lemma avg_loop_ok w : forN 0 n (avg_step n keys avgs flags) (map (fun _ => 0%N) avgs, 0%N, AO (repeat 0%N n) (repeat (repeat 0%N w) n) (repeat (map (fun _ => 0%N) avgs) n) (repeat 0%N n))
  = Ok (sums_at 0, cnt_at 0, outd w lead).
Proof.
  match goal with |- forN _ _ _ ?X = _ => assert (E0 : X = (sums_at (n - 0), cnt_at (n - 0), outd w (doneR (n - 0)))) end.
  { replace (n - 0) with n by lia. unfold sums_at at 1, cnt_at at 1, run_sum. rewrite !Nat.sub_diag. cbn [seq total fold_right].
    match goal with |- (?Y, _, ?Z) = (?X, _, ?W) => assert (EX : Y = X); [|assert (ED : Z = W); [|rewrite ED, EX; reflexivity]] end.
    - apply map_ext. intro a. symmetry. apply N.mod_0_l. unfold size_of. apply N.pow_nonzero. discriminate.
    - assert (R : forall A (x : A), repeat x n = map (fun _ => x) (seq 0 n)).
      { clear. intros A x. induction n as [|m IH]; [easy|]. cbn [seq map repeat]. f_equal. rewrite <- seq_shift, map_map. exact IH. }
      assert (DR : forall t, t < n -> doneR n t = false).
      { intros t Ht. unfold doneR. destruct (Nat.ltb_spec n t), (Nat.eqb_spec n 0); try easy; lia. }
      unfold outd. f_equal; rewrite R; apply map_ext_in; intros t Ht; apply in_seq in Ht; now rewrite DR by lia. }
  rewrite E0. destruct (@forN_inv _ (fun i st => st = (sums_at (n - i), cnt_at (n - i), outd w (doneR (n - i)))) (avg_step n keys avgs flags) n 0 (sums_at (n - 0), cnt_at (n - 0), outd w (doneR (n - 0)))) as [st [E ->]].
  - easy.
  - intros k st Hk ->. rewrite avg_step_ok by lia. eexists. split; [reflexivity|]. easy.
  - rewrite E. cbn [Nat.add]. rewrite Nat.sub_diag. do 2 f_equal. apply outd_ext. intros t Ht. unfold doneR. cbn [Nat.eqb]. now rewrite orb_true_r.
Qed.
End LOOP.

(* ---------- the columns of the source ---------- *)
Lemma perm_nth_lt n p t : is_perm n p -> t < n -> nth t p 0 < n.
Proof. intros P H. eapply is_perm_lt; [exact P|]. apply nth_error_nth'. now rewrite (is_perm_length P). Qed.
Lemma apply_pick A (d : A) n p l : is_perm n p -> length l = n -> perm_apply_vec d p l = Ok (pick d p l).
Proof. intros P L. rewrite pick_gather. apply perm_apply_vec_gather; [now rewrite (is_perm_length P)|apply (perm_range P)]. Qed.
Lemma existsb_in i l : existsb (Nat.eqb i) l = true <-> In i l.
Proof. rewrite existsb_exists. split; [intros [x [H E]]; apply Nat.eqb_eq in E; now subst|]. intro H. exists i. split; [easy|apply Nat.eqb_refl]. Qed.
Lemma permute_at_ok n p t i l : is_perm n p -> Forall (col_ok n) (tCols t) -> i < length (tCols t) -> ~ In i l ->
  permute_at p (left_behind p l t) i = Ok (left_behind p (l ++ [i]) t).
Proof.
  intros P C Hi NI. unfold permute_at. cbn [left_behind tCols tAct]. rewrite (@get_ok _ _ i col0) by (now rewrite map_length, seq_length). cbn [bind].
  rewrite nth_map_seq' by easy. cbn [Nat.add]. cbv zeta. destruct (existsb (Nat.eqb i) l) eqn:E; [apply existsb_in in E; contradiction|].
  set (c := nth i (tCols t) col0). assert (CC : col_ok n c) by (rewrite Forall_forall in C; apply C, nth_In; easy). pose proof (col_rows_ok CC) as R.
  unfold avg_permute. rewrite (@apply_pick _ [] n) by (try easy; apply R). cbn [bind]. rewrite set_lt by (now rewrite map_length, seq_length). cbn [bind]. rewrite upd_map_seq. unfold left_behind. do 2 f_equal.
  apply map_ext. intro e. rewrite existsb_app. cbn [existsb]. rewrite orb_false_r. destruct (Nat.eqb_spec e i) as [->|NE]; [now rewrite orb_true_r|]. now rewrite orb_false_r.
Qed.
Lemma permute_all_ok n p t l : is_perm n p -> Forall (col_ok n) (tCols t) -> forall l0, NoDup (l0 ++ l) -> Forall (fun i => i < length (tCols t)) l ->
  permute_all p l (left_behind p l0 t) = Ok (left_behind p (l0 ++ l) t).
Proof.
  intros P C. induction l as [|i l IH]; intros l0 ND L; cbn [permute_all]; [now rewrite app_nil_r|]. apply Forall_cons_iff in L. destruct L as [L1 L2].
  rewrite (@permute_at_ok n) by (try easy; apply NoDup_remove_2 in ND; intro X; apply ND; apply in_or_app; now left). cbn [bind]. rewrite IH by (try easy; now rewrite <- app_assoc). now rewrite <- app_assoc.
Qed.
Lemma left_behind_nil p t : left_behind p [] t = t.
Proof.
  destruct t as [act cols]. unfold left_behind. cbn [tAct tCols existsb]. f_equal. apply nth_ext with col0 col0; [now rewrite map_length, seq_length|]. rewrite map_length, seq_length. intros i Hi.
  now rewrite nth_map_seq' by easy.
Qed.
Lemma left_behind_get p l t i c : In i l -> nth_error (tCols t) i = Some c -> get (tCols (left_behind p l t)) i = Ok (perm_rows p c).
Proof.
  intros I E. pose proof (proj1 (nth_error_Some (tCols t) i) ltac:(congruence)) as L. cbn [left_behind tCols]. rewrite (@get_ok _ _ i col0) by (now rewrite map_length, seq_length). rewrite nth_map_seq' by easy. cbn [Nat.add].
  cbv zeta. rewrite (proj2 (existsb_in i l) I). now rewrite (nth_error_nth _ _ col0 E).
Qed.

(* ---------- sorted positions and rows ---------- *)
Lemma map_pick A (d : A) n p F G : is_perm n p -> (forall t, t < n -> F t = G (nth t p 0)) -> map F (seq 0 n) = pick d p (map G (seq 0 n)).
Proof.
  intros P H. apply nth_ext with d d; [now rewrite pick_length, map_length, seq_length, (is_perm_length P)|]. rewrite map_length, seq_length. intros t Ht.
  rewrite nth_map_seq' by easy. rewrite pick_nth by (rewrite (is_perm_length P); easy). rewrite nth_map_seq' by now apply perm_nth_lt. now apply H.
Qed.
Lemma perm_Permutation n p : is_perm n p -> Permutation p (seq 0 n).
Proof.
  intro P. apply NoDup_Permutation; [apply (is_perm_NoDup P)|apply seq_NoDup|]. intro x. rewrite in_seq. split.
  - intro H. apply In_nth with (d := 0) in H. destruct H as [t [Ht E]]. rewrite (is_perm_length P) in Ht. pose proof (perm_nth_lt P Ht). lia.
  - intro H. destruct (@is_perm_onto _ _ x P ltac:(lia)) as [t [_ E]]. eapply nth_error_In. exact E.
Qed.
Lemma total_Permutation w l l' : Permutation l l' -> total w l = total w l'.
Proof. induction 1; cbn [total fold_right] in *; unfold total in *; lia. Qed.
Lemma total_map w (g : nat -> nat) l : total w (map g l) = total (fun x => w (g x)) l.
Proof. induction l as [|x l IH]; [easy|]. cbn [map total fold_right]. fold (total w (map g l)). rewrite IH. easy. Qed.
Lemma total_filter w (b : nat -> bool) l : total (fun x => if b x then w x else 0%N) l = total w (filter b l).
Proof. induction l as [|x l IH]; [easy|]. cbn [total fold_right filter]. fold (total (fun x => if b x then w x else 0%N) l). rewrite IH. destruct (b x); [easy|]. apply N.add_0_l. Qed.
Lemma total_app w l l' : total w (l ++ l') = (total w l + total w l')%N.
Proof. induction l as [|x l IH]; [easy|]. cbn [app total fold_right]. fold (total w (l ++ l')) (total w l). rewrite IH. lia. Qed.
Lemma total_one l : total (fun _ => 1%N) l = N.of_nat (length l).
Proof. induction l as [|x l IH]; [easy|]. cbn [total fold_right length]. fold (total (fun _ => 1%N) l). rewrite IH. lia. Qed.
Lemma map_nth_seq n (p : list nat) : length p = n -> map (fun t => nth t p 0) (seq 0 n) = p.
Proof. intro L. apply nth_ext with 0 0; [now rewrite map_length, seq_length|]. rewrite map_length, seq_length. intros t Ht. now rewrite nth_map_seq' by easy. Qed.

Section GROUPS.
Variables (n : nat) (gc : column) (p : list nat).
Hypotheses (CG : col_ok n gc) (P : is_perm n p) (SO : StronglySorted (stable_rel (fun i => le_num (nth i (bRows (cDat gc)) [])) lt) p).
Let keys := pick [] p (bRows (cDat gc)).
Lemma keys_nth t : t < n -> nth t keys [] = key gc (nth t p 0).
Proof. intro H. unfold keys. rewrite pick_nth by (rewrite (is_perm_length P); easy). easy. Qed.
Lemma keys_mono t u : t <= u -> u < n -> (le_num (nth t keys []) <= le_num (nth u keys []))%N.
Proof.
  intros H Hu. destruct (Nat.eq_dec t u) as [->|NE]; [lia|]. rewrite !keys_nth by lia. pose proof (@sorted_nth _ _ p t u 0 SO) as X. rewrite (is_perm_length P) in X.
  destruct (X ltac:(lia)) as [Y|[Y _]]; unfold key; lia.
Qed.
Lemma keynum_eq i j : i < n -> j < n -> (le_num (key gc i) =? le_num (key gc j))%N = row_eq (key gc i) (key gc j).
Proof.
  intros Hi Hj. pose proof (col_rows_ok CG) as R. destruct (rows_nth R Hi) as [L1 B1], (rows_nth R Hj) as [L2 B2]. apply eq_true_iff_eq. rewrite N.eqb_eq, row_eq_iff. split; [|congruence].
  apply le_num_inj; try easy. unfold key. lia.
Qed.
Lemma lead_ok t : t < n -> lead keys t = is_leader gc (nth t p 0).
Proof.
  intro Ht. unfold is_leader. pose proof (perm_nth_lt P Ht) as Hi. set (i := nth t p 0) in *. pose proof (col_rows_ok CG) as R.
  destruct (first_eq (bRows (cDat gc)) (key gc i)) as [j|] eqn:E.
  2:{ apply first_eq_none in E. exfalso. apply E. apply nth_In. rewrite (proj1 R). easy. }
  apply first_eq_some in E. destruct E as [Hj [Ej Fj]]. rewrite (proj1 R) in Hj. change (nth j (bRows (cDat gc)) []) with (key gc j) in Ej.
  assert (LE : j <= i) by (destruct (Nat.le_gt_cases j i); [easy|]; exfalso; now apply (Fj i)).
  unfold lead. destruct (Nat.eqb_spec t 0) as [->|NZ].
  - cbn [orb]. symmetry. apply Nat.eqb_eq. destruct (@is_perm_onto _ _ j P Hj) as [u [Hu Eu]]. apply nth_error_nth with (d := 0) in Eu. destruct (Nat.eq_dec u 0) as [->|NU]; [now rewrite <- Eu|].
    pose proof (@sorted_nth _ _ p 0 u 0 SO) as X. rewrite (is_perm_length P) in X. destruct (X ltac:(lia)) as [Y|[_ Y]].
    + rewrite Eu in Y. fold i in Y. unfold key in Ej. rewrite Ej in Y. lia.
    + fold i in Y. lia.
  - cbn [orb]. rewrite !keys_nth by lia. assert (Hp : nth (t - 1) p 0 < n) by (apply perm_nth_lt; [easy|lia]). set (i' := nth (t - 1) p 0) in *. fold i. rewrite keynum_eq by easy.
    pose proof (@sorted_nth _ _ p (t - 1) t 0 SO) as X. rewrite (is_perm_length P) in X. specialize (X ltac:(lia)). fold i i' in X.
    destruct (row_eq (key gc i') (key gc i)) eqn:Q; cbn [negb].
    + apply row_eq_iff in Q. symmetry. apply Nat.eqb_neq. unfold key in Q. destruct X as [X|[_ X]]; [rewrite Q in X; lia|]. assert (j <= i'); [|lia].
      destruct (Nat.le_gt_cases j i'); [easy|]. exfalso. apply (Fj i'); [easy|]. exact Q.
    + symmetry. apply Nat.eqb_eq. destruct (Nat.eq_dec j i) as [|NE]; [easy|]. exfalso.
      destruct (@is_perm_onto _ _ j P Hj) as [u [Hu Eu]]. apply nth_error_nth with (d := 0) in Eu.
      assert (UT : u < t).
      { destruct (Nat.lt_trichotomy u t) as [H|[H|H]]; [easy|subst u; exfalso; apply NE; rewrite <- Eu; easy|]. pose proof (@sorted_nth _ _ p t u 0 SO) as Y. rewrite (is_perm_length P) in Y.
        destruct (Y ltac:(lia)) as [Z|[_ Z]]; rewrite Eu in Z; fold i in Z; [unfold key in Ej; rewrite Ej in Z; lia|lia]. }
      assert (K1 : (le_num (nth u keys []) <= le_num (nth (t - 1) keys []))%N) by (apply keys_mono; lia).
      assert (K2 : (le_num (nth (t - 1) keys []) <= le_num (nth t keys []))%N) by (apply keys_mono; lia).
      rewrite !keys_nth in K1, K2 by lia. rewrite Eu, Ej in K1. fold i i' in K1, K2. apply not_true_iff_false in Q. apply Q. rewrite <- keynum_eq by easy. apply N.eqb_eq. lia.
Qed.
Lemma run_sum_group w W t : t < n -> lead keys t = true -> (forall u, u < n -> w u = W (nth u p 0)) -> run_sum n keys w t = total W (group n gc (nth t p 0)).
Proof.
  intros Ht HL HW. unfold run_sum.
  replace (total _ (seq t (n - t))) with (total (fun u => if (le_num (nth u keys []) =? le_num (nth t keys []))%N then w u else 0%N) (seq 0 n)).
  2:{ replace n with (t + (n - t)) at 1 by lia. rewrite seq_app, total_app. cbn [Nat.add]. rewrite total_zero; [easy|]. intros u Hu. apply in_seq in Hu.
      destruct (N.eqb_spec (le_num (nth u keys [])) (le_num (nth t keys []))) as [E|E]; [|easy]. exfalso. unfold lead in HL. destruct (Nat.eqb_spec t 0); [lia|]. cbn [orb] in HL. apply negb_true_iff, N.eqb_neq in HL.
      pose proof (@keys_mono u (t - 1) ltac:(lia) ltac:(lia)). pose proof (@keys_mono (t - 1) t ltac:(lia) ltac:(lia)). lia. }
  unfold group. rewrite <- total_filter.
  match goal with |- _ = total ?F _ => transitivity (total F (map (fun t => nth t p 0) (seq 0 n))); [|rewrite (map_nth_seq (is_perm_length P)); now apply total_Permutation, perm_Permutation] end.
  rewrite total_map. apply total_ext. intros u Hu. apply in_seq in Hu.
  rewrite !keys_nth by lia. rewrite keynum_eq by (apply perm_nth_lt; easy || lia). now rewrite HW by lia.
Qed.
End GROUPS.

Lemma div_ceil_mul8 x : div_ceil (x * 8) 8 = x.
Proof. unfold div_ceil. replace (x * 8 + 8 - 1) with (7 + x * 8) by lia. rewrite Nat.div_add by lia. reflexivity. Qed.

Lemma t_average_ok n src g avg gc avgs : t_ok n src -> NoDup (g :: avg) -> nth_error (tCols src) g = Some gc -> Forall2 (fun i a => nth_error (tCols src) i = Some a) avg avgs ->
  t_average src g avg = Ok (avg_table n (tAct src) gc avgs, left_behind (col_sort gc) (g :: avg) src).
Proof.
  intros [_ [C FL]] ND EG EA. unfold t_average. pose proof (proj1 (nth_error_Some (tCols src) g) ltac:(congruence)) as LG.
  assert (CG : col_ok n gc) by (rewrite Forall_forall in C; apply C; eapply nth_error_In; exact EG).
  assert (CA : Forall (col_ok n) avgs).
  { clear - C EA. induction EA as [|i a l l' E _ IH]; constructor; [|easy]. rewrite Forall_forall in C. apply C. eapply nth_error_In. exact E. }
  destruct (col_sort_ok CG) as [P SO]. set (p := col_sort gc) in *. pose proof (col_rows_ok CG) as RG.
  rewrite (@get_ok _ _ g col0) by easy. rewrite (nth_error_nth _ _ col0 EG). cbn [bind]. fold p. replace (bm_n (cDat gc)) with n by (symmetry; apply CG).
  rewrite <- (left_behind_nil p src) at 1. rewrite (@permute_at_ok n) by easy. cbn [bind app].
  assert (FLE : (if 0 <? length (tAct src) then perm_apply_vec 0%N p (tAct src) else Ok []) = Ok (match tAct src with [] => [] | fl => pick 0%N p fl end)).
  { destruct FL as [->|FL]; [easy|]. destruct (tAct src) as [|x fl] eqn:E; [easy|]. cbn [length Nat.ltb Nat.leb]. now apply (@apply_pick _ 0%N n). }
  rewrite FLE. cbn [bind]. rewrite (@permute_all_ok n p src avg P C [g]).
  3:{ clear - EA. induction EA as [|i a l l' E _ IH]; constructor; [|easy]. apply nth_error_Some. congruence. }
  2:{ exact ND. }
  cbn [bind app]. rewrite (@left_behind_get _ _ _ _ gc) by (try easy; now left). cbn [bind].
  assert (EM : mapM (get (tCols (left_behind p (g :: avg) src))) avg = Ok (map (perm_rows p) avgs)).
  { assert (INC : incl avg (g :: avg)) by (intros x Hx; now right). revert INC. generalize (g :: avg). intros G. clear - EA. induction EA as [|i a l l' E _ IH]; intro INC; [easy|]. cbn [mapM map].
    rewrite (@left_behind_get _ _ _ _ a) by (try easy; apply INC; now left). cbn [bind]. rewrite IH; [easy|]. intros x Hx. apply INC. now right. }
  rewrite EM. cbn [bind]. set (flags := match tAct src with [] => [] | fl => pick 0%N p fl end).
  cbn [perm_rows cDat bRows cBits cName cType]. set (keys := pick [] p (bRows (cDat gc))). set (avgs' := map (perm_rows p) avgs).
  assert (RK : rows_ok n (bCols (cDat gc)) keys) by now apply pick_rows_ok.
  assert (HA : Forall (fun a => length (bRows (cDat a)) = n) avgs').
  { apply Forall_forall. intros a' Ha. apply in_map_iff in Ha. destruct Ha as [a [<- _]]. cbn [perm_rows cDat bRows]. now rewrite pick_length, (is_perm_length P). }
  assert (HF : flags = [] \/ length flags = n).
  { unfold flags. destruct (tAct src); [now left|]. right. now rewrite pick_length, (is_perm_length P). }
  rewrite (@avg_loop_ok n (bCols (cDat gc)) keys avgs' flags RK (@keys_mono n gc p P SO) HA HF (div_ceil (cBits gc) 8)). cbn [bind snd].
  assert (EB : div_ceil (cBits gc) 8 = bCols (cDat gc)) by (destruct CG as [[_ A] [_ [B _]]]; now rewrite A, B).
  (* positions *)
  assert (FT : forall t, t < n -> flag_of flags t = flag_of (tAct src) (nth t p 0)).
  { intros t Ht. unfold flags, flag_of. destruct (tAct src) as [|x fl] eqn:E; [easy|]. destruct (pick 0%N p (x :: fl)) as [|y l] eqn:E'.
    - apply (f_equal (@length _)) in E'. rewrite pick_length, (is_perm_length P) in E'. cbn in E'. lia.
    - rewrite <- E'. apply pick_nth. now rewrite (is_perm_length P). }
  assert (LD : forall t, t < n -> lead keys t = is_leader gc (nth t p 0)) by (intros t Ht; now apply (@lead_ok n)).
  (* the result *)
  match goal with |- (do _ <- mapM _ ?X; _) = _ => assert (EX : X = map (fun c => Col (cName c) (cType c) (cBits c) (BM (bBits (cDat c)) (bCols (cDat c)) (pick [] p (bRows (cDat c))))) (tCols (avg_table n (tAct src) gc avgs))) end.
  { cbn [avg_table tCols map]. rewrite map_app. cbn [map]. unfold avg_col at 1. rewrite EB, div_ceil_mul8. f_equal; [|f_equal].
    - unfold byte_col. cbn [cName cType cBits cDat bBits bCols bRows]. f_equal. f_equal. cbn [outd aoKey]. apply (@map_pick _ [] n); [easy|]. intros t Ht. unfold avg_row. rewrite (LD t Ht), (FT t Ht).
      unfold keys. now rewrite (@keys_nth n gc p P) by easy.
    - rewrite map_map. apply nth_ext with col0 col0; [rewrite !map_length, combine_length, seq_length; unfold avgs'; rewrite map_length; lia|].
      rewrite map_length, combine_length, seq_length. intros k Hk. unfold avgs' in Hk. rewrite map_length in Hk. assert (Hk' : k < length avgs) by lia.
      set (dc := (fun ja : nat * column => _)). rewrite (nth_indep _ col0 (dc (0, col0))) by (rewrite map_length, combine_length, seq_length; unfold avgs'; rewrite map_length; lia). rewrite map_nth.
      rewrite combine_nth by now rewrite seq_length. rewrite seq_nth by (unfold avgs'; now rewrite map_length). cbn [Nat.add]. unfold dc. cbn [fst snd]. cbv zeta.
      assert (N1 : nth k avgs' col0 = perm_rows p (nth k avgs col0)) by (unfold avgs'; rewrite (nth_indep _ col0 (perm_rows p col0)) by (now rewrite map_length); apply map_nth). rewrite N1.
      match goal with |- _ = nth k (map ?F avgs) col0 => rewrite (nth_indep (map F avgs) col0 (F col0)) by (now rewrite map_length); rewrite (map_nth F) end.
      set (a := nth k avgs col0) in *. assert (CAa : col_ok n a) by (rewrite Forall_forall in CA; apply CA, nth_In; easy).
      assert (EBa : div_ceil (cBits a) 8 = bCols (cDat a)) by (destruct CAa as [[_ A] [_ [B _]]]; now rewrite A, B).
      unfold avg_col, byte_col. cbn [perm_rows cName cType cBits cDat bBits bCols bRows]. rewrite EBa, div_ceil_mul8. f_equal. f_equal. cbn [outd aoSum]. rewrite map_map. apply (@map_pick _ [] n); [easy|]. intros t Ht. unfold avg_row. rewrite <- (LD t Ht), <- (FT t Ht).
      destruct (lead keys t && negb (flag_of flags t =? 0)%N) eqn:SH.
      + apply andb_true_iff in SH. destruct SH as [SH _]. unfold sums_at. rewrite (@nth_indep _ _ k 0%N ((fun a => (run_sum n keys (wv a) t mod size_of a)%N) col0)) by (rewrite map_length; unfold avgs'; now rewrite map_length).
        rewrite (map_nth (fun a => (run_sum n keys (wv a) t mod size_of a)%N)). rewrite N1. rewrite (@run_sum_group n gc p CG P SO _ (addend a) t Ht SH).
        2:{ intros u Hu. unfold wv, addend. cbn [perm_rows cBits cDat bRows]. rewrite N.shiftl_mul_pow2. do 2 f_equal. rewrite pick_nth by (rewrite (is_perm_length P); easy). unfold key. symmetry. apply le_num_load.
            apply (rows_nth (col_rows_ok CAa)). now apply perm_nth_lt. }
        unfold size_of. cbn [perm_rows cBits]. rewrite EBa, store_mod. now rewrite le_bytes_store.
      + replace (nth k (map (fun _ : column => 0%N) avgs') 0%N) with 0%N; [apply store_0|]. symmetry. change 0%N with ((fun _ : column => 0%N) col0) at 2. rewrite map_nth. easy.
    - f_equal. unfold avg_col, byte_col. cbn [cName cType cBits cDat bBits bCols bRows]. change (div_ceil 64 8 * 8) with 64. change (div_ceil 64 8) with 8. change (8 * 8) with 64. f_equal. f_equal. cbn [outd aoCnt]. rewrite map_map. apply (@map_pick _ [] n); [easy|]. intros t Ht. unfold avg_row. rewrite <- (LD t Ht), <- (FT t Ht).
      destruct (lead keys t && negb (flag_of flags t =? 0)%N) eqn:SH; [|apply store_0].
      apply andb_true_iff in SH. destruct SH as [SH _]. unfold cnt_at. rewrite (@run_sum_group n gc p CG P SO _ (fun _ => 1%N) t Ht SH) by easy. rewrite total_one. change (2 ^ 64)%N with (2 ^ N.of_nat (8 * 8))%N. rewrite store_mod. now rewrite le_bytes_store. }
  rewrite EX. clear EX.
  assert (INV : mapM (avg_permute p Inverse) (map (fun c => Col (cName c) (cType c) (cBits c) (BM (bBits (cDat c)) (bCols (cDat c)) (pick [] p (bRows (cDat c))))) (tCols (avg_table n (tAct src) gc avgs))) = Ok (tCols (avg_table n (tAct src) gc avgs))).
  { assert (W : Forall (fun c => bBits (cDat c) = bCols (cDat c) * 8 /\ length (bRows (cDat c)) = n) (tCols (avg_table n (tAct src) gc avgs))).
    { cbn [avg_table tCols]. constructor; [cbn [byte_col cDat bBits bCols bRows]; now rewrite map_length, seq_length|]. apply Forall_app. split.
      - apply Forall_forall. intros c Hc. apply in_map_iff in Hc. destruct Hc as [a [<- _]]. cbn [byte_col cDat bBits bCols bRows]. now rewrite map_length, seq_length.
      - constructor; [|constructor]. cbn [byte_col cDat bBits bCols bRows]. now rewrite map_length, seq_length. }
    revert W. generalize (tCols (avg_table n (tAct src) gc avgs)). intro cs. clear - P. induction cs as [|c cs IH]; intro W; [easy|]. apply Forall_cons_iff in W. destruct W as [[W1 W2] W3]. cbn [map mapM].
    unfold avg_permute at 1. cbn [cName cType cBits cDat bBits bCols bRows]. rewrite (@applyInv_pick _ [] [] n) by easy. cbn [bind]. rewrite (IH W3). cbn [bind]. do 2 f_equal. rewrite <- W1. destruct c as [a b d e], e; easy. }
  rewrite INV. cbn [bind].
  assert (EACT : aoAct (outd n keys avgs' flags (div_ceil (cBits gc) 8) (lead keys)) = pick 0%N p (tAct (avg_table n (tAct src) gc avgs))).
  { cbn [outd aoAct avg_table tAct]. apply (@map_pick _ 0%N n); [easy|]. intros t Ht. now rewrite (LD t Ht), (FT t Ht). }
  rewrite EACT. rewrite (@applyInv_pick _ 0%N 0%N n) by (try easy; cbn [avg_table tAct]; now rewrite map_length, seq_length). cbn [bind]. easy.
Qed.
