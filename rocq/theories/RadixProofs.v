From Verif Require Import Base Words GmwModel ShuffleModel ShuffleSpec KeyMultModel PrfModel BitInjModel RadixModel RadixSpec BitInjProofs HadamardProofs.
From Verif Require Import PermSpec PermProofs PrfProofs PermCorProofs GmwProofs ShuffleSpanProofs CompressProofs CorStartProofs Mod3Proofs.
From Coq Require Import Setoid Morphisms.

(* ---------- aggregateSum ---------- *)
Definition el (f : list (list N)) (i j : nat) : Z := Z.of_N (nth j (nth i f []) 0%N).

Lemma zsum_shift n f : (zsum (S n) f = f 0%nat + zsum n (fun i => f (S i)))%Z.
Proof. induction n as [|n IH]; [cbn; lia|]. cbn [zsum] in *. rewrite IH. lia. Qed.

Lemma agg_run_ok cols : forall f p, length p = cols -> Forall (fun x => length x = cols) f ->
  let r := agg_run p f in
  length (fst r) = length f /\ Forall (fun x => length x = cols) (fst r) /\ length (snd r) = cols /\
  (forall i j, i < length f -> j < cols -> eqm (2 ^ 32) (el (fst r) i j) (Z.of_N (nth j p 0%N) + zsum (S i) (fun i' => el f i' j))) /\
  (forall j, j < cols -> eqm (2 ^ 32) (Z.of_N (nth j (snd r) 0%N)) (Z.of_N (nth j p 0%N) + zsum (length f) (fun i' => el f i' j))).
Proof.
  induction f as [|x f IH]; intros p Hp Hf; cbn [agg_run].
  - cbn [fst snd length zsum]. split; [reflexivity|]. split; [constructor|]. split; [exact Hp|]. split; [intros; lia|].
    intros j Hj. apply eqm_refl'. lia.
  - inversion Hf as [|? ? Hx Hf']; subst. assert (Lp : length (map2 add32 p x) = length p) by (rewrite map2_length; lia).
    destruct (IH (map2 add32 p x)) as (L1 & L2 & L3 & H1 & H2); [exact Lp|exact Hf'|]. cbn zeta. cbn [fst snd length].
    split; [rewrite L1; reflexivity|]. split; [constructor; [exact Lp|exact L2]|]. split; [exact L3|].
    assert (EP : forall j, j < length p -> eqm (2 ^ 32) (Z.of_N (nth j (map2 add32 p x) 0%N)) (Z.of_N (nth j p 0%N) + Z.of_N (nth j x 0%N))).
    { intros j Hj. rewrite (@map2_nth _ _ _ add32 _ _ j 0%N 0%N) by lia. apply add32_eqm. }
    split.
    + intros i j Hi Hj. rewrite zsum_shift. destruct i as [|i].
      * unfold el at 1. cbn [nth]. rewrite EP by exact Hj. unfold el. cbn [nth zsum]. apply eqm_refl'. lia.
      * change (el (map2 add32 p x :: fst (agg_run (map2 add32 p x) f)) (S i) j) with (el (fst (agg_run (map2 add32 p x) f)) i j).
        rewrite H1 by lia. rewrite EP by exact Hj. apply eqm_refl'.
        change (zsum (S i) (fun i0 => el (x :: f) (S i0) j)) with (zsum (S i) (fun i' => el f i' j)). unfold el at 2. cbn [nth]. lia.
    + intros j Hj. rewrite H2 by exact Hj. rewrite EP by exact Hj. rewrite zsum_shift. apply eqm_refl'.
      change (zsum (length f) (fun i0 => el (x :: f) (S i0) j)) with (zsum (length f) (fun i' => el f i' j)). unfold el at 2. cbn [nth]. lia.
Qed.

Lemma excl_length : forall p prev, length (excl_sums prev p) = length p.
Proof. induction p as [|a p IH]; intros prev; cbn [excl_sums length]; [reflexivity|]. rewrite IH. reflexivity. Qed.
Lemma excl_ok : forall p prev j, j < length p -> eqm (2 ^ 32) (Z.of_N (nth j (excl_sums prev p) 0%N)) (Z.of_N prev + zsum j (fun k => Z.of_N (nth k p 0%N))).
Proof.
  induction p as [|a p IH]; intros prev j Hj; cbn [length] in Hj; [lia|]. cbn [excl_sums]. destruct j as [|j].
  - cbn [nth zsum]. apply eqm_refl'. lia.
  - cbn [nth]. rewrite IH by lia. rewrite add32_eqm, zsum_shift. cbn [nth]. apply eqm_refl'. lia.
Qed.

Lemma set_party_ok party cols j : 0 < cols -> j < cols ->
  eqm (2 ^ 32) (Z.of_N (nth j (upd (repeat 0%N cols) 0 (w32 (- Z.of_nat party))) 0%N)) (if j =? 0 then - Z.of_nat party else 0).
Proof.
  intros Hc Hj. destruct cols as [|c]; [lia|]. cbn [repeat upd]. destruct j as [|j]; cbn [nth Nat.eqb]; [apply w32_eqm|].
  apply eqm_refl'. assert (E : nth j (repeat 0%N c) 0%N = 0%N); [|rewrite E; reflexivity].
  destruct (nth_in_or_default j (repeat 0%N c) 0%N) as [Hn|Hn]; [apply repeat_spec in Hn; exact Hn|exact Hn].
Qed.

Lemma aggregate_ok party cols f : 0 < cols -> Forall (fun x => length x = cols) f ->
  exists s, aggregate_sum party cols f = Ok s /\ length s = length f /\ Forall (fun x => length x = cols) s /\
  forall i j, i < length f -> j < cols ->
    eqm (2 ^ 32) (el s i j) (zsum (S i) (fun i' => el f i' j) + zsum j (fun j' => zsum (length f) (fun i' => el f i' j')) - Z.of_nat party).
Proof.
  intros Hc Hf. unfold aggregate_sum. rewrite set_lt by (rewrite repeat_length; exact Hc). cbn [bind].
  set (p := upd (repeat 0%N cols) 0 (w32 (- Z.of_nat party))).
  assert (Lp : length p = cols) by (unfold p; rewrite upd_length, repeat_length; reflexivity).
  destruct (agg_run_ok Lp Hf) as (L1 & L2 & L3 & H1 & H2). cbv zeta in *. set (r := agg_run p f) in *.
  eexists. split; [reflexivity|]. split; [rewrite map_length; exact L1|].
  split. { apply Forall_forall. intros x Hx. apply in_map_iff in Hx. destruct Hx as (y & <- & Hy). rewrite Forall_forall in L2.
    rewrite map2_length, excl_length, (L2 y Hy), L3. lia. }
  intros i j Hi Hj. unfold el at 1.
  assert (EN : nth i (map (fun x => map2 add32 x (excl_sums 0 (snd r))) (fst r)) [] = map2 add32 (nth i (fst r) []) (excl_sums 0 (snd r))).
  { rewrite (nth_indep _ [] (map2 add32 [] (excl_sums 0 (snd r)))) by (rewrite map_length; lia). apply (map_nth (fun x => map2 add32 x (excl_sums 0 (snd r)))). }
  rewrite EN. assert (Ln : length (nth i (fst r) []) = cols) by (rewrite Forall_forall in L2; apply L2, nth_In; lia).
  rewrite (@map2_nth _ _ _ add32 _ _ j 0%N 0%N) by (rewrite ?excl_length; lia). rewrite add32_eqm.
  change (Z.of_N (nth j (nth i (fst r) []) 0%N)) with (el (fst r) i j). rewrite H1 by assumption. rewrite excl_ok by lia. cbn [Z.of_N].
  unfold p at 1. rewrite set_party_ok by assumption.
  assert (E : eqm (2 ^ 32) (zsum j (fun k => Z.of_N (nth k (snd r) 0%N)))
     (zsum j (fun k => (if (k =? 0)%nat then - Z.of_nat party else 0) + zsum (length f) (fun i' => el f i' k))%Z)).
  { apply zsum_eqm. intros k Hk. rewrite H2 by lia. unfold p. rewrite set_party_ok by lia. reflexivity. }
  rewrite E. rewrite zsum_add. apply eqm_refl'.
  assert (EJ : (zsum j (fun k => if (k =? 0)%nat then - Z.of_nat party else 0) = if (j =? 0)%nat then 0 else - Z.of_nat party)%Z).
  { destruct j as [|j]; [reflexivity|]. cbn [Nat.eqb]. rewrite (@zsum_1 _ _ 0); [reflexivity|lia|]. intros k _ Hk. destruct k; [congruence|reflexivity]. }
  rewrite EJ. destruct (j =? 0); lia.
Qed.

(* ---------- one-hot ---------- *)
Definition active (L y m : nat) : bool := let d := Nat.log2 (m + 1) in m + 1 =? 2 ^ d + y / 2 ^ (L - d).

Lemma testbit_nat L x k : k < L -> N.testbit x (N.of_nat k) = Nat.odd (N.to_nat (x mod 2 ^ N.of_nat L) / 2 ^ k).
Proof.
  intros Hk. rewrite <- (N.mod_pow2_bits_low x (N.of_nat L)) by lia.
  set (y := (x mod 2 ^ N.of_nat L)%N). rewrite N.testbit_odd, N.shiftr_div_pow2.
  rewrite <- (N2Nat.id y) at 1. rewrite <- (Nat2N.inj_pow 2 k : N.of_nat (2 ^ k) = (2 ^ N.of_nat k)%N).
  rewrite <- Nat2N.inj_div. rewrite <- N.negb_even, <- Nat.negb_even. rewrite even_ofnat. reflexivity.
Qed.

Lemma log2_double a : 0 < a -> Nat.log2 (2 * a) = S (Nat.log2 a) /\ Nat.log2 (2 * a + 1) = S (Nat.log2 a).
Proof. intros H. split; [apply Nat.log2_double; exact H|apply Nat.log2_succ_double; exact H]. Qed.

Lemma active_children L y i : Nat.log2 (i + 1) < L ->
  let b := Nat.odd (y / 2 ^ (L - 1 - Nat.log2 (i + 1))) in
  active L y ((i + 1) * 2) = active L y i && b /\ active L y ((i + 1) * 2 - 1) = active L y i && negb b.
Proof.
  intros Hd b. unfold active. cbv zeta.
  replace ((i + 1) * 2 - 1 + 1) with (2 * (i + 1)) by lia. replace ((i + 1) * 2 + 1) with (2 * (i + 1) + 1) by lia.
  destruct (@log2_double (i + 1)) as [E1 E2]; [lia|]. rewrite E1, E2. set (d := Nat.log2 (i + 1)) in *.
  replace (L - S d) with (L - 1 - d) by lia. replace (L - d) with (S (L - 1 - d)) by lia. cbn [Nat.pow].
  rewrite <- !(Nat.mul_comm (2 ^ _) 2). rewrite <- (Nat.div_div y (2 ^ (L - 1 - d)) 2) by (try apply Nat.pow_nonzero; lia).
  unfold b. fold d. set (q := y / 2 ^ (L - 1 - d)).
  assert (Q : q = 2 * (q / 2) + Nat.b2n (Nat.odd q)) by (rewrite <- Nat.div2_div; apply Nat.div2_odd).
  set (h := q / 2) in *. destruct (Nat.odd q); cbn [Nat.b2n negb andb] in *; split; lia.
Qed.

Lemma one_hot_ok L x : 0 < L -> one_hot L x = Ok (map (fun v => v =? N.to_nat (x mod 2 ^ N.of_nat L)) (seq 0 (2 ^ L))).
Proof.
  intros HL. unfold one_hot. set (y := N.to_nat (x mod 2 ^ N.of_nat L)).
  assert (P2 : 2 <= 2 ^ L) by (change 2 with (2 ^ 1) at 1; apply Nat.pow_le_mono_r; lia).
  assert (Hy : y < 2 ^ L).
  { unfold y. pose proof (N.mod_lt x (2 ^ N.of_nat L) ltac:(apply N.pow_nonzero; discriminate)) as Hm.
    rewrite <- (Nat2N.inj_pow 2 L : N.of_nat (2 ^ L) = (2 ^ N.of_nat L)%N) in *. lia. }
  cbv zeta. set (nodes0 := true :: repeat false (2 ^ L - 1 - 1 + 2 ^ L)).
  assert (Ln0 : length nodes0 = 2 * 2 ^ L - 1) by (unfold nodes0; cbn [length]; rewrite repeat_length; lia).
  destruct (@forN_inv _ (fun k nodes => length nodes = 2 * 2 ^ L - 1 /\ forall m, m <= 2 * k -> nth m nodes false = active L y m)
    (fun i nodes =>
    do prnt <- get nodes i;
    let cmp := N.testbit x (N.of_nat (L - 1 - Nat.log2 (i + 1))) in
    let c1 := prnt && cmp in
    do nodes <- set nodes ((i + 1) * 2) c1;
    set nodes ((i + 1) * 2 - 1) (xorb prnt c1)) (2 ^ L - 1) 0 nodes0) as (nodes & E & Ln & Hn).
  - split; [exact Ln0|]. intros m Hm. replace m with 0 by lia. unfold active. cbn [Nat.add Nat.log2 Nat.pow]. change (Nat.log2 1) with 0. rewrite Nat.sub_0_r.
    rewrite Nat.div_small by exact Hy. reflexivity.
  - intros k nodes Hk (Ln & Hn). rewrite (get_ok false) by lia. cbn [bind].
    assert (Hd : Nat.log2 (k + 1) < L) by (apply Nat.log2_lt_pow2; lia).
    destruct (@active_children L y k Hd) as [A1 A2].
    rewrite (@testbit_nat L) by lia. fold y. rewrite (Hn k) by lia.
    rewrite set_lt by lia. cbn [bind]. rewrite set_lt by (rewrite upd_length; lia).
    eexists. split; [reflexivity|]. split; [rewrite !upd_length; exact Ln|].
    intros m Hm. rewrite !F2CodeProofs.nth_upd. rewrite upd_length.
    destruct (Nat.eqb_spec ((k + 1) * 2 - 1) m) as [<-|N1].
    { replace ((k + 1) * 2 - 1 <? length nodes) with true by lia. cbn [andb]. rewrite A2. destruct (active L y k), (Nat.odd (y / 2 ^ (L - 1 - Nat.log2 (k + 1)))); reflexivity. }
    cbn [andb]. destruct (Nat.eqb_spec ((k + 1) * 2) m) as [<-|N2].
    { replace ((k + 1) * 2 <? length nodes) with true by lia. cbn [andb]. rewrite A1. reflexivity. }
    cbn [andb]. apply Hn. lia.
  - match goal with |- bind ?e _ = _ => change e with (forN 0 (2 ^ L - 1) (fun i nodes =>
    do prnt <- get nodes i;
    let cmp := N.testbit x (N.of_nat (L - 1 - Nat.log2 (i + 1))) in
    let c1 := prnt && cmp in
    do nodes <- set nodes ((i + 1) * 2) c1;
    set nodes ((i + 1) * 2 - 1) (xorb prnt c1)) nodes0) end.
    rewrite E. cbn [bind]. rewrite readN_ok by lia. f_equal. apply nth_ext with false false.
    + rewrite slice_length by lia. rewrite map_length, seq_length. reflexivity.
    + rewrite slice_length by lia. intros v Hv. rewrite slice_nth by exact Hv. rewrite Hn by lia. rewrite nth_map_seq' by exact Hv. cbn [Nat.add].
      unfold active. replace (2 ^ L - 1 + v + 1) with (2 ^ L + v) by lia.
      assert (EL : Nat.log2 (2 ^ L + v) = L) by (apply Nat.log2_unique; cbn [Nat.pow]; lia). rewrite EL, Nat.sub_diag, Nat.pow_0_r, Nat.div_1_r.
      destruct (Nat.eqb_spec (2 ^ L + v) (2 ^ L + y)); destruct (Nat.eqb_spec v y); lia || reflexivity.
Qed.
