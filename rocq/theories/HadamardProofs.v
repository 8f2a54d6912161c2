From Verif Require Import Base Words GmwModel ShuffleModel ShuffleSpec KeyMultModel BitInjModel RadixModel RadixSpec BitInjProofs.
From Verif Require Import PermCorProofs GmwProofs ShuffleSpanProofs CompressProofs CorStartProofs.
From Coq Require Import Setoid Morphisms.

(* ---------- sums ---------- *)
Lemma zsum_ext n f g : (forall j, j < n -> f j = g j) -> zsum n f = zsum n g.
Proof. induction n as [|n IH]; intros H; cbn [zsum]; [reflexivity|]. rewrite IH by (intros; apply H; lia). rewrite H by lia. reflexivity. Qed.
Lemma zsum_eqm m n f g : (forall j, j < n -> eqm m (f j) (g j)) -> eqm m (zsum n f) (zsum n g).
Proof. induction n as [|n IH]; intros H; cbn [zsum]; [reflexivity|]. rewrite IH by (intros; apply H; lia). rewrite (H n) by lia. reflexivity. Qed.
Lemma zsum_add n f g : (zsum n (fun j => f j + g j) = zsum n f + zsum n g)%Z.
Proof. induction n as [|n IH]; cbn [zsum]; [reflexivity|]. rewrite IH. ring. Qed.
Lemma zsum_sub n f g : (zsum n (fun j => f j - g j) = zsum n f - zsum n g)%Z.
Proof. induction n as [|n IH]; cbn [zsum]; [reflexivity|]. rewrite IH. ring. Qed.
Lemma zsum_0 n f : (forall j, j < n -> f j = 0%Z) -> zsum n f = 0%Z.
Proof. induction n as [|n IH]; intros H; cbn [zsum]; [reflexivity|]. rewrite IH by (intros; apply H; lia). rewrite H by lia. reflexivity. Qed.
Lemma zsum_1 n f k : k < n -> (forall j, j < n -> j <> k -> f j = 0%Z) -> zsum n f = f k.
Proof.
  induction n as [|n IH]; intros Hk H; [lia|]. cbn [zsum]. destruct (Nat.eq_dec k n) as [->|Hn].
  - rewrite zsum_0 by (intros; apply H; lia). lia.
  - rewrite IH by (try lia; intros; apply H; lia). rewrite (H n) by lia. lia.
Qed.

Definition lsum (l : list N) : Z := zsum (length l) (fun j => Z.of_N (nth j l 0%N)).
Lemma lsum_snoc l x : (lsum (l ++ [x]) = lsum l + Z.of_N x)%Z.
Proof.
  unfold lsum. rewrite app_length. cbn [length]. rewrite Nat.add_1_r. cbn [zsum]. f_equal.
  - apply zsum_ext. intros j Hj. rewrite app_nth1 by exact Hj. reflexivity.
  - rewrite app_nth2 by lia. rewrite Nat.sub_diag. reflexivity.
Qed.
Lemma fold_add32 l x : eqm (2 ^ 32) (Z.of_N (fold_left add32 l x)) (Z.of_N x + lsum l).
Proof.
  induction l as [|a l IH] using rev_ind; [cbn [fold_left]; unfold lsum; cbn [length zsum]; apply eqm_refl'; lia|].
  rewrite fold_left_app. cbn [fold_left]. rewrite add32_eqm, IH, lsum_snoc. apply eqm_refl'. ring.
Qed.
Lemma fold_sub32 l x : eqm (2 ^ 32) (Z.of_N (fold_left sub32 l x)) (Z.of_N x - lsum l).
Proof.
  induction l as [|a l IH] using rev_ind; [cbn [fold_left]; unfold lsum; cbn [length zsum]; apply eqm_refl'; lia|].
  rewrite fold_left_app. cbn [fold_left]. rewrite sub32_eqm, IH, lsum_snoc. apply eqm_refl'. ring.
Qed.
Lemma lsum_map g n : lsum (map g (seq 0 n)) = zsum n (fun j => Z.of_N (g j)).
Proof. unfold lsum. rewrite map_length, seq_length. apply zsum_ext. intros j Hj. rewrite nth_map_seq' by exact Hj. reflexivity. Qed.
Lemma lsum_slice l o n : o + n <= length l -> lsum (slice l o n) = zsum n (fun j => Z.of_N (nth (o + j) l 0%N)).
Proof. intros H. unfold lsum. rewrite slice_length by exact H. apply zsum_ext. intros j Hj. rewrite slice_nth by exact Hj. reflexivity. Qed.

(* ---------- loops ---------- *)
Lemma upd_mid A (pre : list A) y post x : upd (pre ++ y :: post) (length pre) x = pre ++ x :: post.
Proof. induction pre as [|a pre IH]; cbn [app length upd]; [reflexivity|]. rewrite IH. reflexivity. Qed.

Lemma forN_seg A (body : nat -> list A -> outcome (list A)) g : forall sh k pre post i,
  length pre = i ->
  (forall r l, r < length sh -> length l = i + length sh + length post -> nth_error l (i + r) = nth_error sh r ->
     body (k + r) l = Ok (upd l (i + r) (g (k + r)))) ->
  forN k (length sh) body (pre ++ sh ++ post) = Ok (pre ++ map g (seq k (length sh)) ++ post).
Proof.
  induction sh as [|y sh IH]; intros k pre post i Hi H; cbn [length seq map forN app]; [reflexivity|].
  replace k with (k + 0) at 1 by lia. rewrite (H 0).
  - cbn [bind]. rewrite !Nat.add_0_r. rewrite <- Hi, upd_mid.
    replace (pre ++ g k :: sh ++ post) with ((pre ++ [g k]) ++ sh ++ post) by (rewrite <- app_assoc; reflexivity).
    rewrite (IH (k + 1) (pre ++ [g k]) post (i + 1)).
    + rewrite <- app_assoc. rewrite (Nat.add_1_r k). reflexivity.
    + rewrite app_length. cbn. lia.
    + intros r l Hr Hl Hn. replace (k + 1 + r) with (k + S r) by lia. replace (i + 1 + r) with (i + S r) by lia.
      apply (H (S r)); [cbn [length]; lia|cbn [length]; lia|]. replace (i + S r) with (i + 1 + r) by lia. exact Hn.
  - cbn [length]. lia.
  - rewrite !app_length. cbn [length]. rewrite app_length. lia.
  - rewrite Nat.add_0_r, <- Hi. rewrite nth_error_app2 by lia. rewrite Nat.sub_diag. reflexivity.
Qed.

Lemma vec_bit_ok f k : k < 8 * length f -> vec_bit f k = Ok (sbit f k).
Proof.
  intros H. unfold vec_bit. rewrite mat_bit_ok; [unfold mbit; cbn [Nat.mul]; reflexivity|].
  cbn [Nat.mul Nat.add]. apply Nat.div_lt_upper_bound; lia.
Qed.

(* one product *)
Lemma had_element (fa fb ch : bool) (x sk : N) (p : N * N) : x = (if ch then snd p else fst p) ->
  let d := xorb ch fa in
  let m0 := if d then snd p else fst p in
  let m1 := if d then fst p else snd p in
  let r := sub32 m0 (mul32 (N.b2n fb) sk) in
  let t := sub32 (add32 (mul32 (N.b2n (negb fb)) sk) r) m1 in
  eqm (2 ^ 32) (Z.of_N x + Z.of_N (mul32 t (N.b2n fa)) - Z.of_N r) (Z.b2z (xorb fa fb) * Z.of_N sk).
Proof.
  intros Hx d m0 m1 r t. rewrite mul32_eqm. unfold t. rewrite sub32_eqm, add32_eqm, mul32_eqm. unfold r. rewrite sub32_eqm, mul32_eqm.
  apply eqm_refl'. subst x. unfold m0, m1, d. destruct ch, fa, fb; cbn [xorb negb N.b2n Z.b2z Z.of_N]; ring.
Qed.

Section Pair.
Variables (rows cols : nat) (fA fB sB : list N).
Hypothesis Hc : 0 < cols.
Hypothesis HA : rows * cols <= 8 * length fA.
Hypothesis HB : rows * cols <= 8 * length fB.
Hypothesis HS : length sB = rows * cols.

Definition prod_sum (i : nat) : Z :=
  zsum cols (fun j => Z.b2z (xorb (sbit fA (i * cols + j)) (sbit fB (i * cols + j))) * Z.of_N (nth (i * cols + j) sB 0%N))%Z.

Lemma hs_run : forall ss rs i, Forall2 ot_rel ss rs -> Forall (fun s : ot_send => s <> [] /\ length s mod cols = 0) ss ->
  i <= rows -> (rows - i) * cols <= length (concat ss) ->
  exists x y, hs_send1 rows cols fA rs i = Ok x /\ hs_recv rows cols sB fB ss (fst x) i = Ok y /\
    length (snd x) = rows - i /\ length (snd y) = rows - i /\
    forall pre, length pre = i -> exists a, hs_send2 rows cols fA (fst y) (pre ++ snd x) i = Ok (pre ++ a) /\ length a = rows - i /\
      forall t, t < rows - i -> eqm (2 ^ 32) (Z.of_N (nth t a 0%N) + Z.of_N (nth t (snd y) 0%N)) (prod_sum (i + t)).
Proof.
  induction ss as [|s ss IH]; intros rs i HR HE Hi Hk.
  - cbn [concat length] in Hk. assert (rows - i = 0) by nia. inversion HR; subst. exists ([], []), ([], []).
    cbn [hs_send1 hs_recv fst snd]. replace (rows <=? i) with true by lia.
    split; [reflexivity|]. split; [reflexivity|]. split; [cbn; lia|]. split; [cbn; lia|].
    intros pre Hp. exists []. cbn [hs_send2]. replace (rows <=? i) with true by lia. split; [reflexivity|]. split; [cbn; lia|]. intros t Ht. lia.
  - apply Forall2_cons_inv_l in HR. destruct HR as (q & rs' & -> & (L1 & L2 & Hq) & HR). inversion HE as [|? ? [Hs Hmod] HE']; subst.
    cbn [hs_send1]. destruct (Nat.leb_spec rows i) as [Hd|Hd].
    { exists ([], []), ([], []). cbn [hs_recv fst snd]. replace (rows <=? i) with true by lia.
      split; [reflexivity|]. split; [reflexivity|]. split; [cbn; lia|]. split; [cbn; lia|].
      intros pre Hp. exists []. cbn [hs_send2]. replace (rows <=? i) with true by lia. split; [reflexivity|]. split; [cbn; lia|]. intros t Ht. lia. }
    assert (Ls : 0 < length s) by (destruct s; [congruence|cbn; lia]).
    replace (cols =? 0) with false by lia. rewrite <- L1. rewrite Hmod. cbn [Nat.eqb negb throw_if bind].
    assert (El : length s = cols * (length s / cols)) by (apply Nat.div_exact; lia).
    remember (length s / cols) as u eqn:Eu. remember (Nat.min (rows - i) u) as m eqn:Em.
    assert (Hu : 0 < u) by nia. assert (Hm : 0 < m) by lia. replace (m =? 0) with false by lia.
    assert (Hmu : m * cols <= length s) by nia. assert (Hmr : (i + m) * cols <= rows * cols) by nia.
    set (dd := fun t => xorb (nth t (oChoice q) false) (sbit fA (i * cols + t))).
    rewrite (@mapM_seq _ _ dd).
    2:{ intros t Ht. rewrite vec_bit_ok by nia. cbn [bind]. rewrite (get_ok false) by lia. reflexivity. }
    cbn [bind].
    set (sh := fun r => sum32 (slice (oMsg q) (r * cols) cols)).
    rewrite (@mapM_seq _ _ sh).
    2:{ intros r Hr. rewrite readN_ok by nia. reflexivity. }
    cbn [bind].
    destruct (IH rs' (i + m)) as (x & y & E1 & E2 & Lx & Ly & Hrest); [exact HR|exact HE'|lia| |].
    { cbn [concat] in Hk. rewrite app_length in Hk. destruct (Nat.min_spec (rows - i) u) as [[? E]|[? E]]; rewrite E in Em; subst m.
      - replace (rows - (i + (rows - i))) with 0 by lia. lia.
      - nia. }
    rewrite E1. cbn [bind fst snd].
    set (diff := map dd (seq 0 (m * cols))).
    assert (Ldiff : length diff = m * cols) by (unfold diff; rewrite map_length, seq_length; reflexivity).
    set (rr := fun t => let p := nth t s (0, 0)%N in
      let m0 := if dd t then snd p else fst p in
      sub32 m0 (mul32 (N.b2n (sbit fB (i * cols + t))) (nth (i * cols + t) sB 0%N))).
    set (tm := fun t => let p := nth t s (0, 0)%N in
      let m1 := if dd t then fst p else snd p in
      sub32 (add32 (mul32 (N.b2n (negb (sbit fB (i * cols + t)))) (nth (i * cols + t) sB 0%N)) (rr t)) m1).
    set (tr := map (fun t => (tm t, rr t)) (seq 0 (m * cols))).
    set (shB := fun r => fold_left sub32 (slice (map snd tr) (r * cols) cols) 0%N).
    exists (diff :: fst x, map sh (seq 0 m) ++ snd x), (map fst tr :: fst y, map shB (seq 0 m) ++ snd y).
    split; [reflexivity|]. split.
    { cbn [fst hs_recv]. replace (rows <=? i) with false by lia. replace (cols =? 0) with false by lia. rewrite Hmod. cbn [Nat.eqb negb throw_if bind].
      rewrite <- Eu, <- Em. replace (m =? 0) with false by lia. rewrite Ldiff, Nat.eqb_refl. cbn [negb throw_if bind].
      rewrite (@mapM_seq _ _ (fun t => (tm t, rr t))).
      2:{ intros t Ht. rewrite vec_bit_ok by nia. cbn [bind]. rewrite (get_ok 0%N) by nia. cbn [bind]. rewrite (get_ok false) by lia. cbn [bind].
          rewrite (get_ok (0, 0)%N) by lia. cbn [bind]. unfold diff. rewrite nth_map_seq' by lia. cbn [Nat.add]. reflexivity. }
      cbn [bind]. rewrite (@mapM_seq _ _ shB).
      2:{ intros r Hr. rewrite readN_ok; [reflexivity|]. rewrite !map_length, seq_length. nia. }
      cbn [bind]. rewrite E2. reflexivity. }
    cbn [snd fst]. split; [rewrite app_length, map_length, seq_length, Lx; lia|]. split; [rewrite app_length, map_length, seq_length, Ly; lia|].
    intros pre Hp. cbn [hs_send2]. replace (rows <=? i) with false by lia. replace (cols =? 0) with false by lia.
    assert (Ltm : length (map fst tr) = m * cols) by (unfold tr; rewrite !map_length, seq_length; reflexivity).
    rewrite Ltm. rewrite Nat.div_mul by lia. replace (Nat.min (rows - i) m) with m by lia. replace (m =? 0) with false by lia.
    set (g := fun r => fold_left add32 (map (fun j => mul32 (tm (r * cols + j)) (N.b2n (sbit fA ((i + r) * cols + j)))) (seq 0 cols)) (sh r)).
    assert (EF : forN 0 (length (map sh (seq 0 m))) (fun (r : nat) (sh : list N) =>
       do x0 <- get sh (i + r);
       do a <- mapM (fun j : nat => do fk <- vec_bit fA ((i + r) * cols + j); do t <- get (map fst tr) (r * cols + j); Ok (mul32 t (N.b2n fk))) (seq 0 cols);
       set sh (i + r) (fold_left add32 a x0)) (pre ++ map sh (seq 0 m) ++ snd x) = Ok (pre ++ map g (seq 0 (length (map sh (seq 0 m)))) ++ snd x)).
    { apply forN_seg with (i := i); [exact Hp|]. intros r l Hr Hl Hn. rewrite map_length, seq_length in Hr. cbn [Nat.add].
      rewrite map_length, seq_length in Hl.
      assert (EG : get l (i + r) = Ok (sh r)).
      { apply get_Ok. rewrite Hn. rewrite (nth_error_nth_lt 0%N) by (rewrite map_length, seq_length; exact Hr). rewrite nth_map_seq' by exact Hr. reflexivity. }
      rewrite EG. cbn [bind]. rewrite (@mapM_seq _ _ (fun j => mul32 (tm (r * cols + j)) (N.b2n (sbit fA ((i + r) * cols + j))))).
      2:{ intros j Hj. rewrite vec_bit_ok by nia. cbn [bind]. rewrite (get_ok 0%N) by (rewrite Ltm; nia). cbn [bind].
          unfold tr. rewrite map_map. rewrite nth_map_seq' by nia. cbn [fst Nat.add]. reflexivity. }
      cbn [bind]. rewrite set_lt by lia. reflexivity. }
    rewrite map_length, seq_length in EF. rewrite EF. cbn [bind].
    destruct (Hrest (pre ++ map g (seq 0 m))) as (a & Ea & La & Ha); [rewrite app_length, map_length, seq_length; lia|].
    rewrite <- app_assoc in Ea. rewrite Ea.
    exists (map g (seq 0 m) ++ a). rewrite <- app_assoc. split; [reflexivity|]. split; [rewrite app_length, map_length, seq_length, La; lia|].
    intros t Ht. destruct (Nat.lt_ge_cases t m) as [Htm|Htm].
    + rewrite !app_nth1 by (rewrite map_length, seq_length; exact Htm). rewrite !nth_map_seq' by exact Htm. cbn [Nat.add].
      unfold g, shB. rewrite fold_add32, fold_sub32. unfold sh, sum32. rewrite fold_add32.
      rewrite lsum_map. rewrite lsum_slice by nia. rewrite lsum_slice by (unfold tr; rewrite !map_length, seq_length; nia).
      cbn [Z.of_N]. unfold prod_sum.
      replace (0 + zsum cols (fun j => Z.of_N (nth (t * cols + j) (oMsg q) 0%N)) +
        zsum cols (fun j => Z.of_N (mul32 (tm (t * cols + j)%nat) (N.b2n (sbit fA ((i + t) * cols + j))))) +
        (0 - zsum cols (fun j => Z.of_N (nth (t * cols + j) (map snd tr) 0%N))))%Z with
       (zsum cols (fun j => Z.of_N (nth (t * cols + j) (oMsg q) 0%N) + Z.of_N (mul32 (tm (t * cols + j)%nat) (N.b2n (sbit fA ((i + t) * cols + j))))
         - Z.of_N (nth (t * cols + j) (map snd tr) 0%N))%Z) by (rewrite zsum_sub, zsum_add; ring).
      apply zsum_eqm. intros j Hj. set (k := t * cols + j). assert (Hk' : k < m * cols) by (unfold k; nia).
      replace ((i + t) * cols + j) with (i * cols + k) by (unfold k; lia).
      unfold tr. rewrite map_map. rewrite nth_map_seq' by exact Hk'. cbn [snd Nat.add].
      unfold tm, rr. unfold dd. apply had_element. apply Hq. lia.
    + rewrite !app_nth2 by (rewrite map_length, seq_length; exact Htm). rewrite !map_length, !seq_length.
      specialize (Ha (t - m) ltac:(lia)). replace (i + m + (t - m)) with (i + t) in Ha by lia. exact Ha.
Qed.

Lemma hs_pair_ok ss rs : Forall2 ot_rel ss rs -> Forall (fun s : ot_send => s <> [] /\ length s mod cols = 0) ss -> rows * cols <= length (concat ss) ->
  exists a b, hs_pair rows cols fA rs fB sB ss = Ok (a, b) /\ length a = rows /\ length b = rows /\
    forall i, i < rows -> eqm (2 ^ 32) (Z.of_N (nth i a 0%N) + Z.of_N (nth i b 0%N)) (prod_sum i).
Proof.
  intros HR HE HK. destruct (@hs_run ss rs 0 HR HE) as (x & y & E1 & E2 & Lx & Ly & H); [lia|nia|].
  destruct (H []) as (a & Ea & La & Ha); [reflexivity|]. cbn [app] in Ea. unfold hs_pair. rewrite E1. cbn [bind]. rewrite E2. cbn [bind]. rewrite Ea. cbn [bind].
  exists a, (snd y). rewrite Nat.sub_0_r in *. split; [reflexivity|]. split; [exact La|]. split; [exact Ly|]. intros i Hi. apply (Ha i Hi).
Qed.
End Pair.

Lemma Forall_and A (P Q : A -> Prop) l : Forall P l -> Forall Q l -> Forall (fun x => P x /\ Q x) l.
Proof. intros HP HQ. apply Forall_forall. intros x Hx. rewrite Forall_forall in HP, HQ. split; [apply HP|apply HQ]; exact Hx. Qed.

Lemma hadamard_arith_ok rows cols f0 f1 s0 s1 o : 0 < cols -> rows * cols <= 8 * length f0 -> rows * cols <= 8 * length f1 ->
  length s0 = rows * cols -> length s1 = rows * cols -> hots_ok (rows * cols) cols o ->
  exists a b, hadamard_arith rows cols f0 f1 s0 s1 o = Ok (a, b) /\ length a = rows /\ length b = rows /\
    forall i, i < rows -> eqm (2 ^ 32) (Z.of_N (nth i a 0%N) + Z.of_N (nth i b 0%N))
      (zsum cols (fun j => Z.b2z (xorb (sbit f0 (i * cols + j)) (sbit f1 (i * cols + j))) *
         (Z.of_N (nth (i * cols + j) s0 0%N) + Z.of_N (nth (i * cols + j) s1 0%N)))%Z).
Proof.
  intros Hc H0 H1 L0 L1 ((R1 & N1 & K1) & (R2 & N2 & K2) & M1 & M2). unfold hadamard_arith.
  destruct (@hs_pair_ok rows cols f0 f1 s1 Hc H0 H1 L1 _ _ R1 (Forall_and N1 M1) K1) as (a & b & E & La & Lb & Hab).
  destruct (@hs_pair_ok rows cols f1 f0 s0 Hc H1 H0 L0 _ _ R2 (Forall_and N2 M2) K2) as (a' & b' & E' & La' & Lb' & Hab').
  rewrite E. cbn [bind]. rewrite E'. cbn [bind fst snd]. exists (map2 add32 b' a), (map2 add32 b a').
  split; [reflexivity|]. split; [rewrite map2_length; lia|]. split; [rewrite map2_length; lia|]. intros i Hi.
  rewrite !(@map2_nth _ _ _ add32 _ _ i 0%N 0%N) by lia. rewrite !add32_eqm.
  replace (Z.of_N (nth i b' 0%N) + Z.of_N (nth i a 0%N) + (Z.of_N (nth i b 0%N) + Z.of_N (nth i a' 0%N)))%Z with
    ((Z.of_N (nth i a 0%N) + Z.of_N (nth i b 0%N)) + (Z.of_N (nth i a' 0%N) + Z.of_N (nth i b' 0%N)))%Z by ring.
  rewrite (Hab i Hi), (Hab' i Hi). unfold prod_sum. rewrite <- zsum_add. apply eqm_refl', zsum_ext. intros j Hj.
  rewrite (xorb_comm (sbit f1 (i * cols + j))). ring.
Qed.
