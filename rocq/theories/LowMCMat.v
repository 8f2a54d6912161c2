(* Linear algebra over GF(2) for rank_of_Matrix and invert_Matrix. *)
From Verif Require Import Base LowMCModel LowMCSpec.

(* ---------------- bits ---------------- *)
Definition small (n : nat) (x : N) : Prop := (x < 2 ^ N.of_nat n)%N.

Lemma small_iff n x : small n x <-> forall i, n <= i -> bit_at x i = false.
Proof.
  unfold small, bit_at. split.
  - intros H i Hi. destruct (N.eq_dec x 0) as [->|Hx]; [apply N.bits_0|].
    apply N.bits_above_log2. apply N.log2_lt_pow2 in H; lia.
  - intros H. destruct (N.eq_dec x 0) as [->|Hx]; [apply N.neq_0_lt_0, N.pow_nonzero; discriminate|].
    apply N.log2_lt_pow2; [lia|]. destruct (N.lt_ge_cases (N.log2 x) (N.of_nat n)) as [L|L]; auto.
    exfalso. pose proof (N.bit_log2 x Hx) as B. specialize (H (N.to_nat (N.log2 x))).
    rewrite N2Nat.id in H. rewrite H in B by lia. discriminate.
Qed.

Lemma bits_eq a b : (forall i, bit_at a i = bit_at b i) -> a = b.
Proof.
  intros H. apply N.bits_inj. intros i. specialize (H (N.to_nat i)). unfold bit_at in H.
  rewrite N2Nat.id in H. exact H.
Qed.

Lemma bits_eq_small n a b : small n a -> small n b -> (forall i, i < n -> bit_at a i = bit_at b i) -> a = b.
Proof.
  intros Ha Hb H. apply bits_eq. intros i. destruct (Nat.lt_ge_cases i n); auto.
  rewrite (proj1 (small_iff n a) Ha), (proj1 (small_iff n b) Hb); auto.
Qed.

Lemma bit_lxor a b i : bit_at (N.lxor a b) i = xorb (bit_at a i) (bit_at b i).
Proof. apply N.lxor_spec. Qed.
Lemma bit_0 i : bit_at 0 i = false.
Proof. apply N.bits_0. Qed.
Lemma bit_put x i b j : bit_at (put_bit x i b) j = if j =? i then b else bit_at x j.
Proof.
  unfold put_bit, bit_at. destruct b.
  - rewrite N.setbit_eqb. destruct (Nat.eqb_spec j i) as [->|]; [rewrite N.eqb_refl; auto|].
    destruct (N.eqb_spec (N.of_nat i) (N.of_nat j)); [lia|auto].
  - rewrite N.clearbit_eqb. destruct (Nat.eqb_spec j i) as [->|]; [rewrite N.eqb_refl, andb_false_r; auto|].
    destruct (N.eqb_spec (N.of_nat i) (N.of_nat j)); [lia|apply andb_true_r].
Qed.
Lemma small_lxor n a b : small n a -> small n b -> small n (N.lxor a b).
Proof.
  rewrite !small_iff. intros Ha Hb i Hi. rewrite bit_lxor, Ha, Hb by auto. reflexivity.
Qed.
Lemma small_0 n : small n 0.
Proof. apply small_iff. intros; apply bit_0. Qed.
Lemma small_put n x i b : small n x -> i < n -> small n (put_bit x i b).
Proof.
  rewrite !small_iff. intros H Hi j Hj. rewrite bit_put. destruct (Nat.eqb_spec j i); [lia|auto].
Qed.

(* ---------------- sums ---------------- *)
Lemma xsum_ext n f g : (forall i, i < n -> f i = g i) -> xsum n f = xsum n g.
Proof. induction n as [|n IH]; intros H; cbn; auto. rewrite IH, H by (intros; auto). reflexivity. Qed.
Lemma xsum_xorb n f g : xsum n (fun i => xorb (f i) (g i)) = xorb (xsum n f) (xsum n g).
Proof.
  induction n as [|n IH]; cbn; auto. rewrite IH.
  destruct (xsum n f), (xsum n g), (f n), (g n); reflexivity.
Qed.
Lemma xsum_zero n f : (forall i, i < n -> f i = false) -> xsum n f = false.
Proof. induction n as [|n IH]; intros H; cbn; auto. rewrite IH, H by auto. reflexivity. Qed.
Lemma xsum_single n f j : j < n -> (forall i, i < n -> i <> j -> f i = false) -> xsum n f = f j.
Proof.
  induction n as [|n IH]; intros Hj H; [lia|]. cbn. destruct (Nat.eq_dec j n) as [->|].
  - rewrite xsum_zero by (intros; apply H; lia). apply xorb_false_l.
  - rewrite IH, (H n) by (try lia; intros; apply H; lia). apply xorb_false_r.
Qed.
Lemma xsum_head n f : xsum (S n) f = xorb (f 0) (xsum n (fun i => f (S i))).
Proof.
  induction n as [|n IH]; [cbn; destruct (f 0); reflexivity|].
  change (xsum (S (S n)) f) with (xorb (xsum (S n) f) (f (S n))). rewrite IH. cbn [xsum].
  rewrite xorb_assoc. reflexivity.
Qed.
Lemma xsum_and_l n b f : xsum n (fun i => b && f i) = b && xsum n f.
Proof.
  induction n as [|n IH]; cbn; [rewrite andb_false_r; auto|]. rewrite IH.
  destruct b; reflexivity.
Qed.
Lemma xsum_swap n m (f : nat -> nat -> bool) :
  xsum n (fun i => xsum m (fun j => f i j)) = xsum m (fun j => xsum n (fun i => f i j)).
Proof.
  induction n as [|n IH]; cbn.
  - symmetry. apply xsum_zero. auto.
  - rewrite IH, xsum_xorb. reflexivity.
Qed.

(* the parity of the number of ones *)
Lemma odd_count n : forall x, small n x -> Nat.odd (bit_count x) = xsum n (bit_at x).
Proof.
  induction n as [|n IH]; intros x Hx.
  - assert (x = 0%N) as -> by (unfold small in Hx; cbn in Hx; lia). reflexivity.
  - rewrite xsum_head.
    assert (E : forall i, bit_at x (S i) = bit_at (N.div2 x) i).
    { intros i. unfold bit_at. rewrite N.div2_spec, N.shiftr_spec by lia. f_equal. lia. }
    rewrite (xsum_ext (n := n) (g := bit_at (N.div2 x))) by (intros; apply E).
    rewrite <- IH.
    2:{ apply small_iff. intros i Hi. rewrite <- E. apply (proj1 (small_iff (S n) x) Hx). lia. }
    destruct x as [|[q|q|]]; cbn [N.div2 bit_count pos_count]; try reflexivity.
    + rewrite Nat.odd_succ, <- Nat.negb_odd. unfold bit_at. cbn. reflexivity.
    + unfold bit_at. cbn [N.of_nat N.testbit Pos.testbit]. rewrite xorb_false_l. reflexivity.
Qed.

(* ---------------- products ---------------- *)
Definition dot (n : nat) (a x : N) : bool := xsum n (fun j => bit_at a j && bit_at x j).
Notation row m i := (nth i m 0%N).

Lemma dot_lxor_l n a b x : dot n (N.lxor a b) x = xorb (dot n a x) (dot n b x).
Proof.
  unfold dot. rewrite <- xsum_xorb. apply xsum_ext. intros i _. rewrite bit_lxor.
  destruct (bit_at a i), (bit_at b i), (bit_at x i); reflexivity.
Qed.
Lemma dot_lxor_r n a x y : dot n a (N.lxor x y) = xorb (dot n a x) (dot n a y).
Proof.
  unfold dot. rewrite <- xsum_xorb. apply xsum_ext. intros i _. rewrite bit_lxor.
  destruct (bit_at a i), (bit_at x i), (bit_at y i); reflexivity.
Qed.
Lemma dot_unit n a j : j < n -> dot n a (put_bit 0 j true) = bit_at a j.
Proof.
  intros Hj. unfold dot. rewrite (xsum_single Hj).
  - rewrite bit_put, Nat.eqb_refl. apply andb_true_r.
  - intros i _ Hi. rewrite bit_put, bit_0. destruct (Nat.eqb_spec i j); [lia|apply andb_false_r].
Qed.

Lemma getr m i : i < length m -> get m i = Ok (row m i).
Proof. intros H. apply get_Ok. apply nth_error_nth_lt. exact H. Qed.
Lemma rowu m i x j : i < length m -> row (upd m i x) j = if j =? i then x else row m j.
Proof.
  intros H. destruct (Nat.eqb_spec j i) as [->|N].
  - apply nth_error_nth. apply nth_error_upd_eq. exact H.
  - destruct (Nat.lt_ge_cases j (length m)) as [L|L].
    + apply nth_error_nth. rewrite nth_error_upd_ne by auto. apply nth_error_nth_lt. exact L.
    + rewrite !nth_overflow by (rewrite ?upd_length; lia). reflexivity.
Qed.

Lemma mul_mat_ok n bits mat x : length mat = bits -> small n x ->
  exists y, mul_mat bits mat x = Ok y /\ small bits y /\ forall i, i < bits -> bit_at y i = dot n (row mat i) x.
Proof.
  intros HL Hx. unfold mul_mat.
  destruct (@forN_inv _ (fun k y => small bits y /\ forall i, i < k -> bit_at y i = dot n (row mat i) x)
    (fun i t => do r <- get mat i; Ok (put_bit t i (Nat.odd (bit_count (N.land x r))))) bits 0 0%N)
    as (y & E & Hy & Hb).
  - split; [apply small_0|lia].
  - intros k y Hk [Hy Hb]. rewrite getr by lia. cbn [bind].
    exists (put_bit y k (Nat.odd (bit_count (N.land x (row mat k))))). split; [reflexivity|].
    split; [apply small_put; [auto|lia]|].
    intros i Hi. rewrite bit_put. destruct (Nat.eqb_spec i k) as [->|]; [|apply Hb; lia].
    rewrite (odd_count (n := n)).
    + unfold dot. apply xsum_ext. intros j _. unfold bit_at. rewrite N.land_spec. apply andb_comm.
    + apply small_iff. intros j Hj. unfold bit_at. rewrite N.land_spec.
      change (N.testbit x (N.of_nat j)) with (bit_at x j).
      rewrite (proj1 (small_iff n x) Hx) by auto. reflexivity.
  - exists y. split; [exact E|]. split; [exact Hy|exact Hb].
Qed.

(* ---------------- row operations ---------------- *)
(* mat' is mat with row p added to the rows of [lo, hi) whose bit in sel is set *)
Definition added (lo hi p col : nat) (sel m m' : list N) : Prop :=
  length m' = length m /\ forall i, i < length m ->
    row m' i = if (lo <=? i) && (i <? hi) && bit_at (row sel i) col then N.lxor (row m i) (row m p) else row m i.
Definition swapped (i j : nat) (m m' : list N) : Prop :=
  length m' = length m /\ forall t, row m' t = if t =? j then row m i else if t =? i then row m j else row m t.

Lemma clear_rows_ok mat lo k p col : lo + k <= length mat -> p < lo -> 
  exists m', clear_rows lo k p col mat = Ok m' /\ added lo (lo + k) p col mat mat m'.
Proof.
  intros HL Hp. unfold clear_rows.
  apply (@forN_inv _ (fun k' m' => added lo k' p col mat mat m')).
  - split; auto. intros i Hi. destruct (Nat.leb_spec lo i), (Nat.ltb_spec i lo); cbn [andb]; auto; lia.
  - intros t m Ht [Lm Hm]. rewrite getr by lia. cbn [bind].
    assert (Et : row m t = row mat t) by (rewrite Hm by lia; destruct (Nat.ltb_spec t t); [lia|rewrite andb_false_r; auto]).
    assert (Ep : row m p = row mat p) by (rewrite Hm by lia; destruct (Nat.leb_spec lo p); [lia|auto]).
    rewrite Et. destruct (bit_at (row mat t) col) eqn:B.
    + rewrite getr by lia. cbn [bind]. rewrite set_lt by lia. rewrite Ep. eexists. split; [reflexivity|].
      split; [rewrite upd_length; auto|]. intros i Hi. rewrite rowu by lia.
      destruct (Nat.eqb_spec i t) as [->|N].
      * rewrite B. destruct (Nat.leb_spec lo t), (Nat.ltb_spec t (t + 1)); cbn [andb]; auto; lia.
      * rewrite Hm by auto. destruct (Nat.ltb_spec i t), (Nat.ltb_spec i (t + 1)); auto; lia.
    + exists m. split; auto. split; auto. intros i Hi. rewrite Hm by auto.
      destruct (Nat.eqb_spec i t) as [->|N]; [rewrite B, !andb_false_r; auto|].
      destruct (Nat.ltb_spec i t), (Nat.ltb_spec i (t + 1)); auto; lia.
Qed.

Lemma add_rows_ok mat inv lo k p col : length inv = length mat -> lo + k <= length mat -> p < length mat ->
  p < lo \/ lo + k <= p ->
  exists m' v', add_rows lo k p col (mat, inv) = Ok (m', v') /\
    added lo (lo + k) p col mat mat m' /\ added lo (lo + k) p col mat inv v'.
Proof.
  intros HE HL Hpl Hp. unfold add_rows.
  destruct (@forN_inv _ (fun k' (s : list N * list N) => added lo k' p col mat mat (fst s) /\ added lo k' p col mat inv (snd s))
    (fun i s => do x <- get (fst s) i;
      if bit_at x col then
        do pp <- get (fst s) p; do mat <- set (fst s) i (N.lxor x pp);
        do y <- get (snd s) i; do q <- get (snd s) p; do inv <- set (snd s) i (N.lxor y q); Ok (mat, inv)
      else Ok s) k lo (mat, inv)) as ([m' v'] & E & H1 & H2).
  - cbn [fst snd]. split; split; auto; intros i Hi; destruct (Nat.leb_spec lo i), (Nat.ltb_spec i lo); cbn [andb]; auto; lia.
  - intros t [m v] Ht [[Lm Hm] [Lv Hv]]. cbn [fst snd] in *. rewrite getr by lia. cbn [bind].
    assert (Et : row m t = row mat t) by (rewrite Hm by lia; destruct (Nat.ltb_spec t t); [lia|rewrite andb_false_r; auto]).
    assert (Ep : row m p = row mat p).
    { rewrite Hm by lia. destruct (Nat.leb_spec lo p), (Nat.ltb_spec p t); cbn [andb]; auto; lia. }
    assert (Etv : row v t = row inv t) by (rewrite Hv by lia; destruct (Nat.ltb_spec t t); [lia|rewrite andb_false_r; auto]).
    assert (Epv : row v p = row inv p).
    { rewrite Hv by lia. destruct (Nat.leb_spec lo p), (Nat.ltb_spec p t); cbn [andb]; auto; lia. }
    rewrite Et. destruct (bit_at (row mat t) col) eqn:B.
    + rewrite getr by lia. cbn [bind]. rewrite set_lt by lia. cbn [bind].
      rewrite !getr by lia. cbn [bind]. rewrite set_lt by lia. cbn [bind]. rewrite Ep, Etv, Epv.
      eexists. split; [reflexivity|]. cbn [fst snd].
      split; (split; [rewrite upd_length; auto|]); intros i Hi; rewrite rowu by lia;
        (destruct (Nat.eqb_spec i t) as [->|N];
         [rewrite B; destruct (Nat.leb_spec lo t), (Nat.ltb_spec t (t + 1)); cbn [andb]; auto; lia|]).
      * rewrite Hm by auto. destruct (Nat.ltb_spec i t), (Nat.ltb_spec i (t + 1)); auto; lia.
      * rewrite Hv by auto. destruct (Nat.ltb_spec i t), (Nat.ltb_spec i (t + 1)); auto; lia.
    + exists (m, v). split; auto. cbn [fst snd]. split; (split; auto); intros i Hi.
      * rewrite Hm by auto. destruct (Nat.eqb_spec i t) as [->|N]; [rewrite B, !andb_false_r; auto|].
        destruct (Nat.ltb_spec i t), (Nat.ltb_spec i (t + 1)); auto; lia.
      * rewrite Hv by auto. destruct (Nat.eqb_spec i t) as [->|N]; [rewrite B, !andb_false_r; auto|].
        destruct (Nat.ltb_spec i t), (Nat.ltb_spec i (t + 1)); auto; lia.
  - exists m', v'. auto.
Qed.

Lemma swap_rows_ok m i j : i < length m -> j < length m ->
  exists m', swap_rows m i j = Ok m' /\ swapped i j m m'.
Proof.
  intros Hi Hj. unfold swap_rows. rewrite !getr by auto. cbn [bind]. rewrite set_lt by auto. cbn [bind].
  rewrite set_lt by (rewrite upd_length; auto). eexists. split; [reflexivity|].
  split; [rewrite !upd_length; auto|]. intros t. rewrite rowu by (rewrite upd_length; auto). rewrite rowu by auto.
  reflexivity.
Qed.

Lemma seek_ok mat col : forall fuel r, length mat - r <= fuel -> r <= length mat ->
  let q := seek fuel mat col r in
  r <= q <= length mat /\ (q < length mat -> bit_at (row mat q) col = true) /\
  (forall t, r <= t < q -> bit_at (row mat t) col = false).
Proof.
  induction fuel as [|fuel IH]; intros r Hf Hr; cbn [seek].
  - split; [lia|]. split; intros; lia.
  - destruct (nth_error mat r) as [x|] eqn:E.
    + pose proof (nth_error_nth mat r 0%N E) as Ex. pose proof (nth_error_lt E) as Hl.
      destruct (bit_at x col) eqn:B.
      * split; [lia|]. split; [intros; rewrite Ex; auto|intros; lia].
      * specialize (IH (r + 1) ltac:(lia) ltac:(lia)). cbn zeta in IH. destruct IH as (A & B1 & C).
        split; [lia|]. split; auto. intros t Ht. destruct (Nat.eq_dec t r) as [->|]; [rewrite Ex; auto|apply C; lia].
    + apply nth_error_None in E. split; [lia|]. split; intros; lia.
Qed.

(* ---------------- kernels ---------------- *)
Definition ker (n : nat) (m : list N) (x : N) : Prop := forall i, i < length m -> dot n (row m i) x = false.

Lemma ker_added n lo hi p col m m' x : added lo hi p col m m m' -> p < length m -> p < lo \/ hi <= p ->
  ker n m x <-> ker n m' x.
Proof.
  intros [L H] Hp Ho.
  assert (Ep : row m' p = row m p).
  { rewrite H by auto. destruct (Nat.leb_spec lo p), (Nat.ltb_spec p hi); cbn [andb]; auto; lia. }
  split; intros K i Hi.
  - rewrite L in Hi. rewrite H by auto.
    destruct ((lo <=? i) && (i <? hi) && bit_at (row m i) col); [rewrite dot_lxor_l, !K by auto|apply K]; auto.
  - pose proof (K i ltac:(lia)) as Ki. rewrite H in Ki by auto.
    destruct ((lo <=? i) && (i <? hi) && bit_at (row m i) col); auto.
    pose proof (K p ltac:(lia)) as Kp. rewrite Ep in Kp. rewrite dot_lxor_l, Kp, xorb_false_r in Ki. exact Ki.
Qed.
Lemma ker_swapped n i j m m' x : swapped i j m m' -> i < length m -> j < length m -> ker n m x <-> ker n m' x.
Proof.
  intros [L H] Hi Hj. split; intros K t Ht.
  - rewrite H. destruct (t =? j), (t =? i); apply K; auto; lia.
  - destruct (Nat.eq_dec t i) as [->|]; [specialize (K j ltac:(lia)); rewrite H, Nat.eqb_refl in K; exact K|].
    destruct (Nat.eq_dec t j) as [->|].
    + specialize (K i ltac:(lia)). rewrite H, Nat.eqb_refl in K. destruct (Nat.eqb_spec i j); [lia|exact K].
    + specialize (K t ltac:(lia)). rewrite H in K. destruct (Nat.eqb_spec t j), (Nat.eqb_spec t i); try lia. exact K.
Qed.

(* ---------------- rank_of_Matrix ---------------- *)
(* the first k pivots, from the last column on *)
Definition pivots (n k : nat) (m : list N) : Prop :=
  forall i, i < k -> bit_at (row m i) (n - (i + 1)) = true /\
    forall t, i < t < length m -> bit_at (row m t) (n - (i + 1)) = false.

Lemma pivots_added n k m m' : pivots n k m -> k < length m -> bit_at (row m k) (n - (k + 1)) = true ->
  added (k + 1) (length m) k (n - (k + 1)) m m m' -> pivots n (k + 1) m'.
Proof.
  intros P Hk B [L H] i Hi.
  destruct (Nat.eq_dec i k) as [->|N].
  - split.
    + rewrite H by auto. destruct (Nat.leb_spec (k + 1) k); [lia|auto].
    + intros t Ht. rewrite H by lia. destruct (Nat.leb_spec (k + 1) t), (Nat.ltb_spec t (length m)); try lia.
      cbn [andb]. destruct (bit_at (row m t) (n - (k + 1))) eqn:E; auto. rewrite bit_lxor, E, B. reflexivity.
  - destruct (P i ltac:(lia)) as [P1 P2]. split.
    + rewrite H by lia. destruct (Nat.leb_spec (k + 1) i); [lia|auto].
    + intros t Ht. rewrite H by lia.
      destruct ((k + 1 <=? t) && (t <? length m) && bit_at (row m t) (n - (k + 1))); [|apply P2; lia].
      rewrite bit_lxor, !P2 by lia. reflexivity.
Qed.

Lemma pivots_swapped n k r m m' : pivots n k m -> k <= r < length m -> swapped k r m m' -> pivots n k m'.
Proof.
  intros P Hr [L H] i Hi. destruct (P i Hi) as [P1 P2]. split.
  - rewrite H. destruct (Nat.eqb_spec i r), (Nat.eqb_spec i k); try lia. auto.
  - intros t Ht. rewrite H. destruct (t =? r), (t =? k); apply P2; lia.
Qed.

Lemma rank_ok n mat : n <= length mat -> 0 < length mat ->
  exists r m', rank_of n mat = Ok r /\ r <= n /\ length m' = length mat /\ 
    (forall x, ker n mat x -> ker n m' x) /\ (r = n -> pivots n n m').
Proof.
  intros HL H0. unfold rank_of. rewrite getr by auto. cbn [bind].
  destruct (@forN_inv _ (fun k (s : nat * list N) => fst s <= k /\ length (snd s) = length mat /\
      (forall x, ker n mat x -> ker n (snd s) x) /\ (fst s = k -> pivots n k (snd s)))
    (rank_step n) n 0 (0, mat)) as ([r m'] & E & H1 & H2 & H3 & H4).
  - cbn [fst snd]. repeat split; auto; intros; lia.
  - intros k [rw m] Hk (A & B & C & D). cbn [fst snd] in *. unfold rank_step.
    destruct (Nat.eqb_spec rw n) as [->|Nr]; [lia|].
    rewrite getr by lia. cbn [bind].
    destruct (bit_at (row m rw) (n - (k + 1))) eqn:Bt.
    + destruct (@clear_rows_ok m (rw + 1) (length m - (rw + 1)) rw (n - (k + 1))) as (m' & E' & A'); [lia|lia|].
      rewrite E'. cbn [bind]. exists (rw + 1, m'). split; auto. cbn [fst snd].
      replace (rw + 1 + (length m - (rw + 1))) with (length m) in A' by lia.
      split; [lia|]. split; [destruct A'; lia|]. split.
      * intros x Kx. apply (@ker_added n _ _ _ _ _ _ x A'); [lia|lia|auto].
      * intros Ek. assert (rw = k) by lia. subst rw. eapply pivots_added; eauto; lia.
    + pose proof (@seek_ok m (n - (k + 1)) (length m) rw ltac:(lia) ltac:(lia)) as (S1 & S2 & S3).
      set (q := seek (length m) m (n - (k + 1)) rw) in *.
      destruct (Nat.leb_spec (length m) q) as [Q|Q].
      * exists (rw, m). split; auto. cbn [fst snd]. repeat split; auto; try lia; intros; lia.
      * destruct (@swap_rows_ok m rw q ltac:(lia) Q) as (m1 & E1 & A1). rewrite E1. cbn [bind].
        assert (L1 : length m1 = length m) by (destruct A1; auto).
        destruct (@clear_rows_ok m1 (rw + 1) (length m1 - (rw + 1)) rw (n - (k + 1))) as (m' & E' & A'); [lia|lia|].
        rewrite E'. cbn [bind]. exists (rw + 1, m'). split; auto. cbn [fst snd].
        replace (rw + 1 + (length m1 - (rw + 1))) with (length m1) in A' by lia.
        split; [lia|]. split; [destruct A'; lia|]. split.
        -- intros x Kx. apply (@ker_added n _ _ _ _ _ _ x A'); [lia|lia|].
           apply (@ker_swapped n _ _ _ _ x A1); [lia|lia|auto].
        -- intros Ek. assert (rw = k) by lia. subst rw. apply (@pivots_added n k m1 m'); [|lia| |exact A'].
           ++ apply (@pivots_swapped n k q m m1); [auto|lia|exact A1].
           ++ destruct A1 as [_ A1]. rewrite A1, Nat.eqb_refl.
              destruct (Nat.eqb_spec k q) as [<-|]; apply S2; auto.
  - rewrite E. cbn [bind fst]. exists r, m'. cbn [fst snd Nat.add] in *. split; auto.
Qed.

Lemma pivots_kernel n m x : n <= length m -> pivots n n m -> ker n m x -> forall j, j < n -> bit_at x j = false.
Proof.
  intros HL P K j. induction j as [j IH] using lt_wf_ind. intros Hj.
  pose proof (K (n - (j + 1)) ltac:(lia)) as D.
  destruct (P (n - (j + 1)) ltac:(lia)) as [P1 _].
  replace (n - (n - (j + 1) + 1)) with j in P1 by lia.
  unfold dot in D. rewrite (xsum_single Hj) in D; [rewrite P1 in D; exact D|].
  intros i Hi Ne. destruct (Nat.lt_ge_cases i j) as [Lt|Ge].
  - rewrite IH by lia. apply andb_false_r.
  - destruct (P (n - (i + 1)) ltac:(lia)) as [_ P2].
    specialize (P2 (n - (j + 1)) ltac:(lia)). replace (n - (n - (i + 1) + 1)) with i in P2 by lia.
    rewrite P2. reflexivity.
Qed.

(* the kernel of a matrix of full rank is trivial *)
Lemma rank_full_kernel n mat : length mat = n -> 0 < n -> rank_of n mat = Ok n ->
  forall x, ker n mat x -> forall j, j < n -> bit_at x j = false.
Proof.
  intros HL H0 HR x K. destruct (@rank_ok n mat) as (r & m' & E & _ & L & Hk & Hp); [lia|lia|].
  assert (r = n) by congruence. subst r.
  apply (@pivots_kernel n m' x); [lia|auto|auto].
Qed.

(* ---------------- invert_Matrix ---------------- *)
(* the sum of the rows of m chosen by the bits of c *)
Fixpoint comb (k : nat) (c : N) (m : list N) : N :=
  match k with 0 => 0%N | S j => N.lxor (comb j c m) (if bit_at c j then row m j else 0%N) end.
Lemma comb_lxor k c d m : comb k (N.lxor c d) m = N.lxor (comb k c m) (comb k d m).
Proof.
  induction k as [|k IH]; [reflexivity|]. cbn [comb]. rewrite IH, bit_lxor.
  apply bits_eq. intros i. rewrite !bit_lxor.
  destruct (bit_at c k), (bit_at d k); cbn [xorb]; rewrite ?bit_0;
    destruct (bit_at (comb k c m) i), (bit_at (comb k d m) i); try destruct (bit_at (row m k) i); reflexivity.
Qed.
Lemma comb_zero k m : forall c, (forall j, j < k -> bit_at c j = false) -> comb k c m = 0%N.
Proof.
  induction k as [|k IH]; intros c H; [reflexivity|]. cbn [comb]. rewrite IH, H by auto. reflexivity.
Qed.
Lemma comb_unit k i m : i < k -> comb k (put_bit 0 i true) m = row m i.
Proof.
  induction k as [|k IH]; intros Hi; [lia|]. cbn [comb]. rewrite bit_put.
  destruct (Nat.eqb_spec k i) as [->|].
  - rewrite comb_zero; [apply N.lxor_0_l|]. intros j Hj. rewrite bit_put, bit_0.
    destruct (Nat.eqb_spec j i); [lia|auto].
  - rewrite IH by lia. rewrite bit_0. apply N.lxor_0_r.
Qed.
Lemma dot_comb n k c m x : dot n (comb k c m) x = xsum k (fun j => bit_at c j && dot n (row m j) x).
Proof.
  induction k as [|k IH]; cbn [comb xsum].
  - apply xsum_zero. intros i _. rewrite bit_0. reflexivity.
  - rewrite dot_lxor_l, IH. f_equal. destruct (bit_at c k); cbn [andb]; auto.
    apply xsum_zero. intros i _. rewrite bit_0. reflexivity.
Qed.

Definition tracked (n : nat) (m0 m v : list N) : Prop :=
  length m = n /\ length v = n /\ (forall i, i < n -> row m i = comb n (row v i) m0) /\
  (forall i, i < n -> small n (row m i)) /\ (forall i, i < n -> small n (row v i)).

Lemma tracked_added n m0 m v lo hi p col m' v' : tracked n m0 m v -> p < n ->
  added lo hi p col m m m' -> added lo hi p col m v v' -> tracked n m0 m' v'.
Proof.
  intros (A & B & C & D & F) Hp [L1 H1] [L2 H2]. split; [lia|]. split; [lia|].
  split; [|split]; intros i Hi; rewrite ?H1, ?H2 by lia;
    destruct ((lo <=? i) && (i <? hi) && bit_at (row m i) col); auto.
  - rewrite comb_lxor, !C by auto. reflexivity.
  - apply small_lxor; auto.
  - apply small_lxor; auto.
Qed.
Lemma tracked_swapped n m0 m v i j m' v' : tracked n m0 m v -> i < n -> j < n ->
  swapped i j m m' -> swapped i j v v' -> tracked n m0 m' v'.
Proof.
  intros (A & B & C & D & F) Hi Hj [L1 H1] [L2 H2]. split; [lia|]. split; [lia|].
  split; [|split]; intros t Ht; rewrite ?H1, ?H2; destruct (t =? j), (t =? i); auto.
Qed.

(* the first k columns are those of an upper triangular matrix with ones on the diagonal *)
Definition upper (n k : nat) (m : list N) : Prop :=
  forall i, i < k -> bit_at (row m i) i = true /\ forall t, i < t < n -> bit_at (row m t) i = false.

Lemma back_sub n k m : upper n k m -> k < n -> forall d, d <= k ->
  exists x, small n x /\ bit_at x k = true /\ (forall t, k < t -> bit_at x t = false) /\
    forall i, k - d <= i < k -> dot n (row m i) x = false.
Proof.
  intros U Hk. induction d as [|d IH]; intros Hd.
  - exists (put_bit 0 k true). split; [apply small_put; [apply small_0|auto]|].
    split; [rewrite bit_put, Nat.eqb_refl; auto|]. split.
    + intros t Ht. rewrite bit_put, bit_0. destruct (Nat.eqb_spec t k); [lia|auto].
    + intros i Hi. lia.
  - destruct IH as (x & A & B & C & D); [lia|]. set (j := k - S d) in *.
    destruct (dot n (row m j) x) eqn:E.
    + exists (N.lxor x (put_bit 0 j true)).
      split; [apply small_lxor; [auto|apply small_put; [apply small_0|lia]]|].
      split; [rewrite bit_lxor, bit_put, bit_0, B; destruct (Nat.eqb_spec k j); [lia|auto]|].
      split; [intros t Ht; rewrite bit_lxor, bit_put, bit_0, C by auto; destruct (Nat.eqb_spec t j); [lia|auto]|].
      intros i Hi. rewrite dot_lxor_r, dot_unit by lia. destruct (U j ltac:(lia)) as [U1 U2].
      destruct (Nat.eq_dec i j) as [->|]; [rewrite E, U1; auto|].
      rewrite D by lia. rewrite U2 by lia. reflexivity.
    + exists x. repeat split; auto. intros i Hi. destruct (Nat.eq_dec i j) as [->|]; auto. apply D. lia.
Qed.

Lemma upper_added n k m m' : upper n k m -> length m = n -> k < n -> bit_at (row m k) k = true ->
  added (k + 1) n k k m m m' -> upper n (k + 1) m'.
Proof.
  intros U L Hk B [L' H] i Hi. destruct (Nat.eq_dec i k) as [->|].
  - split.
    + rewrite H by lia. destruct (Nat.leb_spec (k + 1) k); [lia|auto].
    + intros t Ht. rewrite H by lia. destruct (Nat.leb_spec (k + 1) t), (Nat.ltb_spec t n); try lia.
      cbn [andb]. destruct (bit_at (row m t) k) eqn:E; auto. rewrite bit_lxor, E, B. reflexivity.
  - destruct (U i ltac:(lia)) as [U1 U2]. split.
    + rewrite H by lia. destruct (Nat.leb_spec (k + 1) i); [lia|auto].
    + intros t Ht. rewrite H by lia. destruct ((k + 1 <=? t) && (t <? n) && bit_at (row m t) k); [|apply U2; lia].
      rewrite bit_lxor, !U2 by lia. reflexivity.
Qed.
Lemma upper_swapped n k r m m' : upper n k m -> k <= r < n -> swapped k r m m' -> upper n k m'.
Proof.
  intros U Hr [L H] i Hi. destruct (U i Hi) as [U1 U2]. split.
  - rewrite H. destruct (Nat.eqb_spec i r), (Nat.eqb_spec i k); try lia. auto.
  - intros t Ht. rewrite H. destruct (t =? r), (t =? k); apply U2; lia.
Qed.

Lemma inv_forward n mat inv : 0 < n -> tracked n mat mat inv ->
  (forall x, ker n mat x -> forall j, j < n -> bit_at x j = false) ->
  exists m v, forN 0 n inv_step (0, (mat, inv)) = Ok (n, (m, v)) /\ tracked n mat m v /\ upper n n m.
Proof.
  intros H0 HT HK.
  destruct (@forN_inv _ (fun k (s : nat * (list N * list N)) => fst s = k /\ tracked n mat (fst (snd s)) (snd (snd s)) /\
      (forall x, ker n (fst (snd s)) x -> ker n mat x) /\ upper n k (fst (snd s)))
    inv_step n 0 (0, (mat, inv))) as ((r & m & v) & E & H1 & H2 & _ & H4).
  - cbn [fst snd]. split; auto. split; auto. split; auto. intros i Hi. lia.
  - intros k (rw & m & v) Hk (A & T & C & U). cbn [fst snd] in *. subst rw. unfold inv_step.
    pose proof T as (Lm & Lv & _ & _ & _). rewrite getr by lia. cbn [bind].
    destruct (bit_at (row m k) k) eqn:Bt.
    + destruct (@add_rows_ok m v (k + 1) (length m - (k + 1)) k k) as (m' & v' & E' & A1 & A2); [lia|lia|lia|lia|].
      rewrite E'. cbn [bind]. exists (k + 1, (m', v')). split; auto. cbn [fst snd].
      replace (k + 1 + (length m - (k + 1))) with n in A1, A2 by lia.
      split; auto. split; [apply (tracked_added T (p := k) (lo := k + 1) (hi := n) (col := k)); [lia|exact A1|exact A2]|]. split.
      * intros x Kx. apply C. apply (@ker_added n _ _ _ _ _ _ x A1); [lia|lia|auto].
      * apply (@upper_added n k m m'); [auto|lia|lia|auto|exact A1].
    + pose proof (@seek_ok m k (length m) (k + 1) ltac:(lia) ltac:(lia)) as (S1 & S2 & S3).
      set (q := seek (length m) m k (k + 1)) in *.
      destruct (Nat.leb_spec (length m) q) as [Q|Q].
      * exfalso. destruct (@back_sub n k m U ltac:(lia) k) as (x & X1 & X2 & X3 & X4); [lia|].
        assert (Kx : ker n m x).
        { intros i Hi. destruct (Nat.lt_ge_cases i k) as [Lt|Ge]; [apply X4; lia|].
          apply xsum_zero. intros t Ht. destruct (lt_eq_lt_dec t k) as [[Lt| ->]|Gt].
          - destruct (U t Lt) as [_ U2]. rewrite U2 by lia. reflexivity.
          - destruct (Nat.eq_dec i k) as [->|]; [rewrite Bt; auto|]. rewrite S3 by lia. reflexivity.
          - rewrite X3 by auto. apply andb_false_r. }
        specialize (HK x (C x Kx) k ltac:(lia)). congruence.
      * destruct (@swap_rows_ok m k q ltac:(lia) Q) as (m1 & E1 & A1). rewrite E1. cbn [bind].
        destruct (@swap_rows_ok v k q ltac:(lia) ltac:(lia)) as (v1 & E2 & A2). rewrite E2. cbn [bind].
        assert (L1 : length m1 = n) by (destruct A1; lia).
        assert (L2 : length v1 = n) by (destruct A2; lia).
        destruct (@add_rows_ok m1 v1 (k + 1) (length m1 - (k + 1)) k k) as (m' & v' & E' & B1 & B2); [lia|lia|lia|lia|].
        rewrite E'. cbn [bind]. exists (k + 1, (m', v')). split; auto. cbn [fst snd].
        replace (k + 1 + (length m1 - (k + 1))) with n in B1, B2 by lia.
        split; auto. split.
        -- apply (@tracked_added n mat m1 v1 (k + 1) n k k m' v'); [|lia|exact B1|exact B2].
           apply (tracked_swapped T (i := k) (j := q)); [lia|lia|exact A1|exact A2].
        -- split.
           ++ intros x Kx. apply C. apply (@ker_swapped n _ _ _ _ x A1); [lia|lia|].
              apply (@ker_added n _ _ _ _ _ _ x B1); [lia|lia|auto].
           ++ apply (@upper_added n k m1 m'); [apply (@upper_swapped n k q m m1); [auto|lia|exact A1]|lia|lia| |exact B1].
              destruct A1 as [_ A1]. rewrite A1, Nat.eqb_refl. destruct (Nat.eqb_spec k q); [lia|apply S2; auto].
  - exists m, v. cbn [fst snd Nat.add] in *. subst r. auto.
Qed.

Lemma inv_backward n mat m v : tracked n mat m v -> upper n n m ->
  exists m' v', forN 0 n (fun k s => add_rows 0 (n - k - 1) (n - k - 1) (n - k - 1) s) (m, v) = Ok (m', v') /\
    tracked n mat m' v' /\ forall i, i < n -> row m' i = put_bit 0 i true.
Proof.
  intros HT HU.
  destruct (@forN_inv _ (fun k (s : list N * list N) => tracked n mat (fst s) (snd s) /\ upper n n (fst s) /\
      forall c i, n - k <= c < n -> i < n -> i <> c -> bit_at (row (fst s) i) c = false)
    (fun k s => add_rows 0 (n - k - 1) (n - k - 1) (n - k - 1) s) n 0 (m, v))
    as ((m' & v') & E & H1 & H2 & H3).
  - cbn [fst snd]. split; auto. split; auto. intros; lia.
  - intros k [a b] Hk (T & U & C). cbn [fst snd] in *. cbn zeta.
    pose proof T as (La & Lb & _ & _ & _). set (c := n - k - 1) in *.
    destruct (@add_rows_ok a b 0 c c c) as (a' & b' & E' & A1 & A2); [lia|lia|lia|lia|].
    cbn [Nat.add] in A1, A2. exists (a', b'). split; auto. cbn [fst snd].
    split; [eapply tracked_added; [exact T| |exact A1|exact A2]; lia|].
    destruct A1 as [L1 A1].
    assert (Rc : forall t, t < n -> t <> c -> bit_at (row a c) t = false).
    { intros t Ht Ne. destruct (Nat.lt_ge_cases t c) as [Lt|Ge].
      - destruct (U t Ht) as [_ U2]. apply U2. lia.
      - apply C; lia. }
    assert (G : forall i t, i < n -> t < n -> t <> c -> bit_at (row a' i) t = bit_at (row a i) t).
    { intros i t Hi Ht Ne. rewrite A1 by lia.
      destruct ((0 <=? i) && (i <? c) && bit_at (row a i) c); auto. rewrite bit_lxor, Rc by auto. apply xorb_false_r. }
    assert (Gc : forall i, i < n -> bit_at (row a' i) c = (i =? c)).
    { intros i Hi. rewrite A1 by lia. destruct (U c ltac:(lia)) as [U1 U2].
      destruct (Nat.leb_spec 0 i); [|lia]. destruct (Nat.ltb_spec i c), (Nat.eqb_spec i c); try lia; cbn [andb].
      - destruct (bit_at (row a i) c) eqn:Eb; auto. rewrite bit_lxor, Eb, U1. reflexivity.
      - subst i. auto.
      - apply U2. lia. }
    split.
    + intros i Hi. destruct (Nat.eq_dec i c) as [->|Ne].
      * split; [rewrite Gc by lia; apply Nat.eqb_refl|]. intros t Ht. rewrite Gc by lia. apply Nat.eqb_neq. lia.
      * destruct (U i Hi) as [U1 U2]. split; [rewrite G by lia; auto|]. intros t Ht. rewrite G by lia. apply U2. lia.
    + intros t i Ht Hi Ne. destruct (Nat.eq_dec t c) as [->|].
      * rewrite Gc by lia. apply Nat.eqb_neq. lia.
      * rewrite G by lia. apply C; lia.
  - exists m', v'. cbn [fst snd Nat.add] in *. split; auto. split; auto. intros i Hi.
    apply (@bits_eq_small n).
    + destruct H1 as (_ & _ & _ & S1 & _). auto.
    + apply small_put; [apply small_0|auto].
    + intros j Hj. rewrite bit_put, bit_0. destruct (Nat.eqb_spec j i) as [->|].
      * apply H2. auto.
      * apply H3; lia.
Qed.

Lemma identity_ok n : exists v, 
  forN 0 n (fun i inv => do x <- get inv i; set inv i (put_bit x i true)) (repeat 0%N n) = Ok v /\
  length v = n /\ forall i, i < n -> row v i = put_bit 0 i true.
Proof.
  destruct (@forN_inv _ (fun k v => length v = n /\ forall i, i < n -> row v i = if i <? k then put_bit 0 i true else 0%N)
    (fun i inv => do x <- get inv i; set inv i (put_bit x i true)) n 0 (repeat 0%N n)) as (v & E & L & H).
  - split; [apply repeat_length|]. intros i Hi. rewrite nth_repeat. reflexivity.
  - intros k v Hk [L H]. rewrite getr by lia. cbn [bind]. rewrite set_lt by lia. eexists. split; [reflexivity|].
    split; [rewrite upd_length; auto|]. intros i Hi. rewrite rowu by lia.
    destruct (Nat.eqb_spec i k) as [->|].
    + rewrite H by lia. destruct (Nat.ltb_spec k k), (Nat.ltb_spec k (k + 1)); try lia; reflexivity.
    + rewrite H by lia. destruct (Nat.ltb_spec i k), (Nat.ltb_spec i (k + 1)); try lia; reflexivity.
  - exists v. split; auto. split; auto. intros i Hi. rewrite H by auto. destruct (Nat.ltb_spec i (0 + n)); [auto|lia].
Qed.

Lemma invert_ok n mat : 0 < n -> length mat = n -> (forall i, i < n -> small n (row mat i)) ->
  (forall x, ker n mat x -> forall j, j < n -> bit_at x j = false) ->
  exists v, invert_matrix n mat = Ok v /\ length v = n /\ (forall i, i < n -> small n (row v i)) /\
    forall i, i < n -> comb n (row v i) mat = put_bit 0 i true.
Proof.
  intros H0 HL HS HK. unfold invert_matrix. rewrite getr by lia. cbn [bind].
  destruct (identity_ok n) as (v0 & E0 & L0 & V0). rewrite E0. cbn [bind].
  destruct (@inv_forward n mat v0) as (m1 & v1 & E1 & T1 & U1); auto.
  { split; auto. split; auto. split; [|split]; auto; intros i Hi; rewrite V0 by auto.
    - symmetry. apply comb_unit. auto.
    - apply small_put; [apply small_0|auto]. }
  rewrite E1. cbn [bind snd].
  destruct (inv_backward T1 U1) as (m2 & v2 & E2 & T2 & I2). rewrite E2. cbn [bind snd].
  destruct T2 as (A & B & C & _ & D). exists v2. split; auto. split; auto. split; auto. intros i Hi. rewrite <- C, I2; auto.
Qed.

(* ---------------- regular matrices have full rank ---------------- *)
Lemma back_sub_low n k m : pivots n k m -> k < n -> n <= length m -> forall d, d <= k ->
  exists x, bit_at x (n - (k + 1)) = true /\ (forall t, t < n - (k + 1) -> bit_at x t = false) /\
    forall i, k - d <= i < k -> dot n (row m i) x = false.
Proof.
  intros U Hk HL. induction d as [|d IH]; intros Hd.
  - exists (put_bit 0 (n - (k + 1)) true).
    split; [rewrite bit_put, Nat.eqb_refl; auto|]. split.
    + intros t Ht. rewrite bit_put, bit_0. destruct (Nat.eqb_spec t (n - (k + 1))); [lia|auto].
    + intros i Hi. lia.
  - destruct IH as (x & B & C & D); [lia|]. set (j := k - S d) in *.
    destruct (dot n (row m j) x) eqn:E.
    + exists (N.lxor x (put_bit 0 (n - (j + 1)) true)).
      split; [rewrite bit_lxor, bit_put, bit_0, B; destruct (Nat.eqb_spec (n - (k + 1)) (n - (j + 1))); [lia|auto]|].
      split; [intros t Ht; rewrite bit_lxor, bit_put, bit_0, C by auto; destruct (Nat.eqb_spec t (n - (j + 1))); [lia|auto]|].
      intros i Hi. rewrite dot_lxor_r, dot_unit by lia. destruct (U j ltac:(lia)) as [U1 U2].
      destruct (Nat.eq_dec i j) as [->|]; [rewrite E, U1; auto|].
      rewrite D by lia. rewrite U2 by lia. reflexivity.
    + exists x. split; auto. split; auto. intros i Hi. destruct (Nat.eq_dec i j) as [->|]; auto. apply D. lia.
Qed.

Lemma kernel_full_rank n mat : length mat = n -> 0 < n ->
  (forall x, ker n mat x -> forall j, j < n -> bit_at x j = false) -> rank_of n mat = Ok n.
Proof.
  intros HL H0 HK. unfold rank_of. rewrite getr by lia. cbn [bind].
  destruct (@forN_inv _ (fun k (s : nat * list N) => fst s = k /\ length (snd s) = n /\
      (forall x, ker n (snd s) x -> ker n mat x) /\ pivots n k (snd s))
    (rank_step n) n 0 (0, mat)) as ([r m'] & E & H1 & _).
  - cbn [fst snd]. split; auto. split; auto. split; auto. intros i Hi; lia.
  - intros k [rw m] Hk (A & B & C & D). cbn [fst snd] in *. subst rw. unfold rank_step.
    destruct (Nat.eqb_spec k n) as [->|Nr]; [lia|].
    rewrite getr by lia. cbn [bind].
    destruct (bit_at (row m k) (n - (k + 1))) eqn:Bt.
    + destruct (@clear_rows_ok m (k + 1) (length m - (k + 1)) k (n - (k + 1))) as (m' & E' & A'); [lia|lia|].
      rewrite E'. cbn [bind]. exists (k + 1, m'). split; auto. cbn [fst snd].
      replace (k + 1 + (length m - (k + 1))) with (length m) in A' by lia.
      split; auto. split; [destruct A'; lia|]. split.
      * intros x Kx. apply C. apply (@ker_added n _ _ _ _ _ _ x A'); [lia|lia|auto].
      * apply (@pivots_added n k m m'); auto; lia.
    + pose proof (@seek_ok m (n - (k + 1)) (length m) k ltac:(lia) ltac:(lia)) as (S1 & S2 & S3).
      set (q := seek (length m) m (n - (k + 1)) k) in *.
      destruct (Nat.leb_spec (length m) q) as [Q|Q].
      * exfalso. destruct (@back_sub_low n k m D ltac:(lia) ltac:(lia) k) as (x & X1 & X2 & X3); [lia|].
        assert (Kx : ker n m x).
        { intros i Hi. destruct (Nat.lt_ge_cases i k) as [Lt|Ge]; [apply X3; lia|].
          apply xsum_zero. intros t Ht. destruct (lt_eq_lt_dec t (n - (k + 1))) as [[Lt|Eq]|Gt].
          - rewrite X2 by auto. apply andb_false_r.
          - subst t. rewrite S3 by lia. reflexivity.
          - destruct (D (n - (t + 1)) ltac:(lia)) as [_ D2]. specialize (D2 i ltac:(lia)).
            replace (n - (n - (t + 1) + 1)) with t in D2 by lia. rewrite D2. reflexivity. }
        specialize (HK x (C x Kx) (n - (k + 1)) ltac:(lia)). congruence.
      * destruct (@swap_rows_ok m k q ltac:(lia) Q) as (m1 & E1 & A1). rewrite E1. cbn [bind].
        assert (L1 : length m1 = length m) by (destruct A1; auto).
        destruct (@clear_rows_ok m1 (k + 1) (length m1 - (k + 1)) k (n - (k + 1))) as (m' & E' & A'); [lia|lia|].
        rewrite E'. cbn [bind]. exists (k + 1, m'). split; auto. cbn [fst snd].
        replace (k + 1 + (length m1 - (k + 1))) with (length m1) in A' by lia.
        split; auto. split; [destruct A'; lia|]. split.
        -- intros x Kx. apply C. apply (@ker_swapped n _ _ _ _ x A1); [lia|lia|].
           apply (@ker_added n _ _ _ _ _ _ x A'); [lia|lia|auto].
        -- apply (@pivots_added n k m1 m'); [|lia| |exact A'].
           ++ apply (@pivots_swapped n k q m m1); [auto|lia|exact A1].
           ++ destruct A1 as [_ A1]. rewrite A1, Nat.eqb_refl.
              destruct (Nat.eqb_spec k q) as [<-|]; apply S2; auto.
  - rewrite E. cbn [bind fst]. cbn [fst Nat.add] in H1. subst r. reflexivity.
Qed.

(* ---------------- vectors of bits ---------------- *)
Fixpoint pack (n : nat) (x : bvec) : N := match n with 0 => 0%N | S k => put_bit (pack k x) k (x k) end.
Lemma pack_ok n x : small n (pack n x) /\ forall i, i < n -> bit_at (pack n x) i = x i.
Proof.
  induction n as [|n [S1 B1]]; cbn [pack]; [split; [apply small_0|lia]|].
  assert (Sn : small (S n) (pack n x)) by (apply small_iff; intros i Hi; apply (proj1 (small_iff n (pack n x)) S1); lia).
  split; [apply small_put; [exact Sn|lia]|].
  intros i Hi. rewrite bit_put. destruct (Nat.eqb_spec i n) as [->|]; auto. apply B1. lia.
Qed.
Lemma matvec_ext n m x y i : (forall j, j < n -> x j = y j) -> matvec n m x i = matvec n m y i.
Proof. intros H. apply xsum_ext. intros j Hj. rewrite H by auto. reflexivity. Qed.
Lemma matvec_dot n m x i : matvec n m (bit_at x) i = dot n (row m i) x.
Proof. reflexivity. Qed.
Lemma matvec_pack n m x i : matvec n m x i = dot n (row m i) (pack n x).
Proof.
  rewrite <- matvec_dot. apply matvec_ext. intros j Hj. symmetry. apply (proj2 (pack_ok n x)). auto.
Qed.

Lemma regular_ker n mat : length mat = n ->
  regular n mat <-> forall x, ker n mat x -> forall j, j < n -> bit_at x j = false.
Proof.
  intros HL. split.
  - intros R x K j Hj. apply (R (bit_at x)); auto. intros i Hi. rewrite matvec_dot. apply K. lia.
  - intros K x H i Hi. rewrite <- (proj2 (pack_ok n x) i Hi). apply K; auto.
    intros t Ht. rewrite <- matvec_pack. apply H. lia.
Qed.

Lemma left_inverse n mat v : length mat = n -> (forall i, i < n -> comb n (row v i) mat = put_bit 0 i true) ->
  forall (x : bvec) i, i < n -> matvec n v (matvec n mat x) i = x i.
Proof.
  intros HL HC x i Hi.
  assert (E : matvec n v (matvec n mat x) i = dot n (comb n (row v i) mat) (pack n x)).
  { rewrite dot_comb. apply xsum_ext. intros j Hj. rewrite <- matvec_pack. reflexivity. }
  rewrite E, HC by auto. unfold dot. rewrite (xsum_single Hi).
  - rewrite bit_put, Nat.eqb_refl. apply (proj2 (pack_ok n x)). auto.
  - intros j _ Hj. rewrite bit_put, bit_0. destruct (Nat.eqb_spec j i); [lia|reflexivity].
Qed.

(* a left inverse of a square matrix is a right inverse, by counting *)
Lemma right_inverse n mat v :
  (forall (x : bvec) i, i < n -> matvec n v (matvec n mat x) i = x i) ->
  forall (x : bvec) i, i < n -> matvec n mat (matvec n v x) i = x i.
Proof.
  intros H x i Hi.
  set (f := fun y => pack n (matvec n mat (bit_at y))).
  set (L := map N.of_nat (seq 0 (2 ^ n))).
  assert (In_L : forall y, In y L <-> small n y).
  { assert (P2 : (N.of_nat (2 ^ n) = 2 ^ N.of_nat n)%N).
    { clear. induction n as [|n IH]; [reflexivity|]. rewrite Nat.pow_succ_r', Nat2N.inj_succ, N.pow_succ_r', <- IH. lia. }
    intros y. unfold L, small. rewrite in_map_iff, <- P2. generalize (2 ^ n). intros M. split.
    - intros (k & <- & Hk). apply in_seq in Hk. lia.
    - intros Hy. exists (N.to_nat y). split; [lia|]. apply in_seq. lia. }
  assert (Inj : forall a b, small n a -> small n b -> f a = f b -> a = b).
  { intros a b Sa Sb E. apply (bits_eq_small Sa Sb). intros j Hj.
    rewrite <- (H (bit_at a) j Hj), <- (H (bit_at b) j Hj). apply matvec_ext. intros t Ht.
    rewrite <- (proj2 (pack_ok n (matvec n mat (bit_at a))) t Ht), <- (proj2 (pack_ok n (matvec n mat (bit_at b))) t Ht).
    unfold f in E. rewrite E. reflexivity. }
  assert (ND : NoDup (map f L)).
  { assert (NL : NoDup L).
    { unfold L. generalize (seq_NoDup (2 ^ n) 0). generalize (seq 0 (2 ^ n)). clear.
      induction l as [|a l IH]; intros Hn; [constructor|]. inversion Hn as [|? ? Ha Hl]; subst. cbn [map].
      constructor; auto. rewrite in_map_iff. intros (k & E & Hk). apply Nat2N.inj in E. congruence. }
    assert (SL : forall y, In y L -> small n y) by (intros y; apply In_L). revert NL SL. generalize L. clear In_L.
    intros l. induction l as [|a l IH]; intros Hn Hs; [constructor|]. inversion Hn as [|? ? Ha Hl]; subst. cbn [map].
    constructor; [|apply IH; auto; intros y Hy; apply Hs; right; auto].
    rewrite in_map_iff. intros (k & E & Hk). apply Inj in E; [subst k; auto|apply Hs; right; auto|apply Hs; left; auto]. }
  assert (Surj : incl L (map f L)).
  { apply NoDup_length_incl; [exact ND|rewrite map_length; auto|].
    intros y Hy. apply in_map_iff in Hy. destruct Hy as (k & <- & _). apply In_L. apply pack_ok. }
  destruct (pack_ok n x) as [Sx Bx].
  pose proof (Surj (pack n x) (proj2 (In_L _) Sx)) as HI. apply in_map_iff in HI. destruct HI as (a & Ea & Ia).
  assert (Q : forall j, j < n -> matvec n mat (bit_at a) j = x j).
  { intros j Hj. rewrite <- Bx by auto. rewrite <- Ea. symmetry. apply (proj2 (pack_ok n (matvec n mat (bit_at a)))). auto. }
  rewrite <- (Q i Hi). apply matvec_ext. intros j Hj. rewrite <- (H (bit_at a) j Hj).
  apply matvec_ext. intros t Ht. symmetry. apply Q. auto.
Qed.

Lemma square_small n mat : square n mat -> length mat = n /\ forall i, i < n -> small n (row mat i).
Proof.
  intros [L F]. split; auto. intros i Hi. rewrite Forall_forall in F. apply F. apply nth_In. lia.
Qed.
Lemma square_intro n mat : length mat = n -> (forall i, i < n -> small n (row mat i)) -> square n mat.
Proof.
  intros L S1. split; auto. apply Forall_forall. intros y Hy. apply (In_nth _ _ 0%N) in Hy.
  destruct Hy as (i & Hi & <-). apply S1. lia.
Qed.

Theorem rank_regular n mat : 0 < n -> square n mat -> (rank_of n mat = Ok n <-> regular n mat).
Proof.
  intros H0 Sq. apply square_small in Sq. destruct Sq as [L S1]. rewrite regular_ker by auto. split.
  - intros R. apply rank_full_kernel; auto.
  - intros K. apply kernel_full_rank; auto.
Qed.

Theorem invert_inverse n mat : 0 < n -> square n mat -> regular n mat ->
  exists v, invert_matrix n mat = Ok v /\ square n v /\ inverse_of n mat v.
Proof.
  intros H0 Sq R. apply square_small in Sq. destruct Sq as [L S1].
  destruct (@invert_ok n mat H0 L S1) as (v & E & Lv & Sv & C); [apply regular_ker; auto|].
  exists v. split; auto. split; [apply square_intro; auto|].
  pose proof (left_inverse L C) as Li. intros x i Hi. split; [apply Li; auto|]. apply right_inverse; auto.
Qed.
