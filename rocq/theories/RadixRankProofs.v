From Verif Require Import Base Words GmwModel ShuffleModel ShuffleSpec KeyMultModel PrfModel BitInjModel RadixModel RadixSpec BitInjProofs HadamardProofs RadixProofs RadixFlagProofs.
From Verif Require Import PermSpec PermProofs PrfProofs PermCorSpec PermCorProofs GmwProofs ShuffleSpanProofs CompressProofs CorStartProofs Mod3Proofs.

(* ---------- ranks ---------- *)
Definition before (key : nat -> N) (i' i : nat) : bool := (key i' <? key i)%N || ((key i' =? key i)%N && (i' <? i)).
Definition rank (n : nat) (key : nat -> N) (i : nat) : Z := zsum n (fun i' => Z.b2z (before key i' i)).

Lemma before_iff key i j : before key i j = true <-> (key i < key j)%N \/ (key i = key j /\ i < j).
Proof. unfold before. rewrite orb_true_iff, andb_true_iff, N.ltb_lt, N.eqb_eq, Nat.ltb_lt. reflexivity. Qed.

Lemma zsum_le n f g : (forall j, j < n -> (f j <= g j)%Z) -> (zsum n f <= zsum n g)%Z.
Proof. induction n as [|n IH]; intros H; cbn [zsum]; [lia|]. specialize (IH ltac:(intros; apply H; lia)). specialize (H n ltac:(lia)). lia. Qed.
Lemma zsum_lt n f g k : k < n -> (forall j, j < n -> (f j <= g j)%Z) -> (f k < g k)%Z -> (zsum n f < zsum n g)%Z.
Proof.
  induction n as [|n IH]; intros Hk H Hs; cbn [zsum]; [lia|]. pose proof (H n ltac:(lia)). destruct (Nat.eq_dec k n) as [->|Hn].
  - pose proof (@zsum_le n f g ltac:(intros; apply H; lia)). lia.
  - specialize (IH ltac:(lia) ltac:(intros; apply H; lia) Hs). lia.
Qed.
Lemma zsum_const n c : zsum n (fun _ => c) = (Z.of_nat n * c)%Z.
Proof. induction n as [|n IH]; cbn [zsum]; [lia|]. rewrite IH. lia. Qed.
Lemma zsum_swap n m f : zsum n (fun j => zsum m (f j)) = zsum m (fun i => zsum n (fun j => f j i)).
Proof.
  induction n as [|n IH]; cbn [zsum]; [symmetry; apply zsum_0; reflexivity|]. rewrite IH, <- zsum_add. reflexivity.
Qed.

Lemma rank_bounds n key i : i < n -> (0 <= rank n key i < Z.of_nat n)%Z.
Proof.
  intros Hi. unfold rank. split.
  - pose proof (@zsum_le n (fun _ => 0%Z) (fun i' => Z.b2z (before key i' i)) ltac:(intros; destruct (before key j i); cbn; lia)) as H.
    rewrite zsum_const in H. lia.
  - pose proof (@zsum_lt n (fun i' => Z.b2z (before key i' i)) (fun _ => 1%Z) i Hi ltac:(intros; destruct (before key j i); cbn; lia)) as H.
    rewrite zsum_const in H. assert (before key i i = false) as E by (unfold before; rewrite N.ltb_irrefl, N.eqb_refl, Nat.ltb_irrefl; reflexivity).
    rewrite E in H. cbn in H. lia.
Qed.
Lemma rank_mono n key i j : i < n -> j < n -> before key i j = true -> (rank n key i < rank n key j)%Z.
Proof.
  intros Hi Hj H. unfold rank. apply zsum_lt with i; [exact Hi| |].
  - intros k Hk. destruct (before key k i) eqn:E; [|destruct (before key k j); cbn; lia].
    assert (before key k j = true) as -> by (apply before_iff in E, H; apply before_iff; lia). cbn. lia.
  - rewrite H. assert (before key i i = false) as E by (unfold before; rewrite N.ltb_irrefl, N.eqb_refl, Nat.ltb_irrefl; reflexivity). rewrite E. cbn. lia.
Qed.

Lemma rank_sorts n key p : length p = n -> (forall i, i < n -> Z.of_nat (nth i p 0) = rank n key i) -> sorts n key p.
Proof.
  intros HL HR.
  assert (HI : forall i j, i < n -> j < n -> (nth i p 0 < nth j p 0 <-> (key i < key j)%N \/ (key i = key j /\ i < j))).
  { intros i j Hi Hj. pose proof (HR i Hi) as Ri. pose proof (HR j Hj) as Rj. split.
    - intros Hlt. destruct (before key i j) eqn:E; [apply before_iff; exact E|]. exfalso.
      destruct (Nat.eq_dec i j) as [->|Hne]; [lia|].
      assert (before key j i = true) as E'.
      { apply before_iff. destruct (N.lt_trichotomy (key i) (key j)) as [Hl|[He|Hg]].
        - assert (before key i j = true) by (apply before_iff; left; exact Hl). congruence.
        - right. split; [congruence|]. destruct (Nat.lt_ge_cases i j) as [Hlt'|Hge]; [|lia].
          assert (before key i j = true) by (apply before_iff; right; split; assumption). congruence.
        - left. exact Hg. }
      pose proof (@rank_mono n key j i Hj Hi E'). lia.
    - intros Hb. apply before_iff in Hb. pose proof (@rank_mono n key i j Hi Hj Hb). lia. }
  split; [|exact HI]. apply is_perm_intro; [exact HL| |].
  - apply (NoDup_nth p 0). rewrite HL. intros i j Hi Hj E. destruct (Nat.lt_trichotomy i j) as [H|[H|H]]; [|exact H|].
    + exfalso. assert (key i = key j) as Ek.
      { destruct (N.lt_trichotomy (key i) (key j)) as [H1|[H1|H1]]; [|exact H1|].
        - assert (nth i p 0 < nth j p 0) by (apply HI; auto). lia.
        - assert (nth j p 0 < nth i p 0) by (apply HI; auto). lia. }
      assert (nth i p 0 < nth j p 0) by (apply HI; auto). lia.
    + exfalso. assert (key i = key j) as Ek.
      { destruct (N.lt_trichotomy (key i) (key j)) as [H1|[H1|H1]]; [|exact H1|].
        - assert (nth i p 0 < nth j p 0) by (apply HI; auto). lia.
        - assert (nth j p 0 < nth i p 0) by (apply HI; auto). lia. }
      assert (nth j p 0 < nth i p 0) by (apply HI; auto). lia.
  - intros x Hx. apply (In_nth _ _ 0) in Hx. destruct Hx as (i & Hi & <-). rewrite HL in Hi.
    pose proof (HR i Hi). pose proof (@rank_bounds n key i Hi). lia.
Qed.

(* ---------- hadamardSum with the conversion ---------- *)
Lemma a2b_bits_pos n : 0 < a2b_bits n.
Proof. unfold a2b_bits. lia. Qed.
Lemma of_nat_le_pow n k : (N.of_nat n <= 2 ^ N.of_nat k)%N -> n <= 2 ^ k.
Proof. intros H. rewrite <- (Nat2N.inj_pow 2 k : N.of_nat (2 ^ k) = (2 ^ N.of_nat k)%N) in H. lia. Qed.
Lemma a2b_bits_le n : (N.of_nat n <= 2 ^ 32)%N -> a2b_bits n <= 32.
Proof.
  intros H. unfold a2b_bits. apply Nat.max_lub; [lia|].
  destruct (Nat.le_gt_cases n 1) as [H1|H1]; [rewrite Nat.log2_up_eqn0 by lia; lia|].
  apply Nat.log2_up_le_pow2; [lia|]. apply of_nat_le_pow. exact H.
Qed.
Lemma a2b_bits_fits n : n <= 2 ^ a2b_bits n.
Proof.
  unfold a2b_bits. destruct (Nat.le_gt_cases n 1) as [H|H].
  - assert (2 ^ 0 <= 2 ^ Nat.max 1 (Nat.log2_up n)) by (apply Nat.pow_le_mono_r; lia). cbn in H0. lia.
  - pose proof (Nat.log2_up_spec n H) as [_ H2]. assert (2 ^ Nat.log2_up n <= 2 ^ Nat.max 1 (Nat.log2_up n)) by (apply Nat.pow_le_mono_r; lia). lia.
Qed.

Lemma hadamard_sum_ok rows cols f0 f1 s0 s1 o r : 0 < cols -> rows * cols <= 8 * length f0 -> rows * cols <= 8 * length f1 ->
  length s0 = rows * cols -> length s1 = rows * cols -> hots_ok (rows * cols) cols o -> length r = rows -> (N.of_nat rows <= 2 ^ 32)%N ->
  exists p0 p1, hadamard_sum (a2b_bits rows) rows rows cols f0 f1 s0 s1 o r = Ok (p0, p1) /\ length p0 = rows /\ length p1 = rows /\ p0 = r /\
    forall i, i < rows -> (Z.of_N (N.lxor (nth i p0 0%N) (nth i p1 0%N)) =
      (zsum cols (fun j => Z.b2z (xorb (sbit f0 (i * cols + j)) (sbit f1 (i * cols + j))) *
         (Z.of_N (nth (i * cols + j) s0 0%N) + Z.of_N (nth (i * cols + j) s1 0%N)))) mod 2 ^ Z.of_nat (a2b_bits rows))%Z.
Proof.
  intros Hc H0 H1 L0 L1 Ho Hr Hn. unfold hadamard_sum.
  destruct (@hadamard_arith_ok rows cols f0 f1 s0 s1 o Hc H0 H1 L0 L1 Ho) as (a & b & E & La & Lb & Hab). rewrite E. cbn [bind]. cbv zeta.
  rewrite Nat.eqb_refl. cbn [negb throw_if bind]. rewrite Nat.eqb_refl. cbn [negb throw_if bind]. rewrite Hr, Nat.eqb_refl. cbn [negb throw_if bind fst snd].
  eexists r, _. split; [reflexivity|]. split; [exact Hr|]. split; [rewrite !map2_length; lia|]. split; [reflexivity|]. intros i Hi.
  rewrite (@map2_nth _ _ _ N.lxor _ _ i 0%N 0%N) by (rewrite ?map2_length; lia).
  rewrite (@map2_nth _ _ _ (fun x y => ((x + y) mod 2 ^ N.of_nat (a2b_bits rows))%N) _ _ i 0%N 0%N) by lia.
  rewrite <- N.lxor_assoc, N.lxor_nilpotent, N.lxor_0_l.
  rewrite N2Z.inj_mod, N2Z.inj_add, N2Z.inj_pow. rewrite nat_N_Z. apply eqm_eq. apply (@eqm_weaken (2 ^ 32)%Z); [apply pow_div, a2b_bits_le, Hn|]. apply Hab. exact Hi.
Qed.

(* ---------- genBitPerm ---------- *)
Lemma zsum_split n i f : i <= n -> (zsum n f = zsum i f + zsum (n - i) (fun t => f (i + t)%nat))%Z.
Proof.
  intros H. replace n with (i + (n - i)) at 1 by lia. generalize (n - i) as m. induction m as [|m IH]; [rewrite Nat.add_0_r; cbn; lia|].
  rewrite Nat.add_succ_r. cbn [zsum]. rewrite IH. lia.
Qed.

Lemma rank_formula n L (d : nat -> nat) i : i < n -> (forall t, t < n -> d t < L) ->
  zsum L (fun v => (Z.b2z (v =? d i)%nat * (zsum (S i) (fun i' => Z.b2z (v =? d i')%nat) + zsum v (fun v' => zsum n (fun i' => Z.b2z (v' =? d i')%nat)) - 1))%Z) =
  rank n (fun i => N.of_nat (d i)) i.
Proof.
  intros Hi Hd. rewrite (@zsum_1 L _ (d i)); [|apply Hd; exact Hi|].
  2:{ intros j Hj Hne. replace (j =? d i) with false by lia. cbn [Z.b2z]. lia. }
  rewrite Nat.eqb_refl. change (Z.b2z true) with 1%Z. rewrite Z.mul_1_l.
  rewrite zsum_swap. cbn [zsum]. rewrite Nat.eqb_refl. change (Z.b2z true) with 1%Z.
  unfold rank. rewrite (@zsum_ext n (fun i' => Z.b2z (before (fun i => N.of_nat (d i)) i' i)) (fun i' => (Z.b2z (d i' <? d i)%nat + Z.b2z ((d i =? d i')%nat && (i' <? i)%nat))%Z)).
  2:{ intros j Hj. unfold before. destruct (Nat.ltb_spec (d j) (d i)), (Nat.eqb_spec (d i) (d j)), (N.ltb_spec (N.of_nat (d j)) (N.of_nat (d i))), (N.eqb_spec (N.of_nat (d j)) (N.of_nat (d i))); try lia;
      destruct (j <? i); reflexivity. }
  rewrite zsum_add.
  assert (E1 : zsum n (fun i' => zsum (d i) (fun v' => Z.b2z (v' =? d i'))) = zsum n (fun i' => Z.b2z (d i' <? d i))).
  { apply zsum_ext. intros j Hj. destruct (Nat.ltb_spec (d j) (d i)) as [Hlt|Hge].
    - rewrite (@zsum_1 _ _ (d j)); [rewrite Nat.eqb_refl; reflexivity|exact Hlt|]. intros k Hk Hne. replace (k =? d j) with false by lia. reflexivity.
    - apply zsum_0. intros k Hk. replace (k =? d j) with false by lia. reflexivity. }
  assert (E2 : zsum n (fun i' => Z.b2z ((d i =? d i') && (i' <? i))) = zsum i (fun i' => Z.b2z (d i =? d i'))).
  { rewrite (@zsum_split n i) by lia. rewrite (zsum_0 (n := n - i)).
    - rewrite Z.add_0_r. apply zsum_ext. intros j Hj. replace (j <? i) with true by lia. rewrite andb_true_r. reflexivity.
    - intros j Hj. replace (i + j <? i) with false by lia. rewrite andb_false_r. reflexivity. }
  rewrite E2. 
  match goal with |- (_ + 1 + ?a - 1)%Z = _ => change a with (zsum n (fun i' => zsum (d i) (fun v' => Z.b2z (v' =? d i')))) end. rewrite E1. lia.
Qed.

Lemma rows_of_ok n c d : length d = n * c -> length (rows_of n c d) = n /\ Forall (fun x => length x = c) (rows_of n c d) /\
  forall i j, i < n -> j < c -> nth j (nth i (rows_of n c d) []) 0%N = nth (i * c + j) d 0%N.
Proof.
  intros H. unfold rows_of. split; [rewrite map_length, seq_length; reflexivity|]. split.
  - apply Forall_forall. intros x Hx. apply in_map_iff in Hx. destruct Hx as (i & <- & Hi). apply in_seq in Hi. apply slice_length. nia.
  - intros i j Hi Hj. rewrite nth_map_seq' by exact Hi. cbn [Nat.add]. apply slice_nth. exact Hj.
Qed.

Lemma concat_el c f i j : Forall (fun x : list N => length x = c) f -> i < length f -> j < c ->
  nth (i * c + j) (concat f) 0%N = nth j (nth i f []) 0%N.
Proof.
  intros H Hi Hj. rewrite Forall_forall in H. rewrite <- (slice_nth (concat f) (i * c) (n := c)) by exact Hj. rewrite (slice_concat H) by exact Hi. reflexivity.
Qed.

Lemma shares_bit_eqm b x y : shares_bit 32 b x y -> eqm (2 ^ 32) (Z.of_N x + Z.of_N y) (Z.b2z b).
Proof.
  intros (_ & _ & H). change (N.of_nat 32) with 32%N in H. assert (E : Z.of_N ((x + y) mod 2 ^ 32) = Z.of_N (N.b2n b)) by (rewrite H; reflexivity).
  rewrite N2Z.inj_mod, N2Z.inj_add in E. change (Z.of_N (2 ^ 32)) with (2 ^ 32)%Z in E. replace (Z.b2z b) with (Z.of_N (N.b2n b)) by (destruct b; reflexivity).
  rewrite <- E. symmetry. apply eqm_mod. reflexivity.
Qed.

Lemma gen_bit_perm_ok L n kc k0 k1 rd : 0 < L -> L <= kc * 8 -> length k0 = n -> length k1 = n -> (N.of_nat n <= 2 ^ 32)%N ->
  (L = 1 -> Forall (fun k => (k < 2)%N) k0 /\ Forall (fun k => (k < 2)%N) k1) -> rround_ok L n rd ->
  exists p0 p1, gen_bit_perm L n L n kc k0 k1 rd = Ok (p0, p1) /\ length p0 = n /\ length p1 = n /\
    sorts n (fun i => N.of_nat (digit L k0 k1 i)) (map N.to_nat (xors p0 p1)).
Proof.
  intros HL Hkc L0 L1 Hn Hone (Ho & Hhot & Hhs & Lr & Br). unfold gen_bit_perm. replace (kc * 8 <? L) with false by lia. cbn [throw_if bind]. cbv zeta.
  destruct (@gen_val_masks_ok L n k0 k1 (rdHot rd) (rdInj0 rd) (rdInj1 rd) HL L0 L1 Hone Hhot Ho) as (b0 & b1 & f0 & f1 & E & B0 & B1 & F0 & F1 & HV).
  rewrite E. cbn [bind]. set (c := 2 ^ L) in *. assert (Hc : 0 < c) by (unfold c; pose proof (Nat.pow_nonzero 2 L); lia).
  destruct (@rows_of_ok n c f0 F0) as (RL0 & RF0 & RE0). destruct (@rows_of_ok n c f1 F1) as (RL1 & RF1 & RE1).
  destruct (@aggregate_ok 0 c (rows_of n c f0) Hc RF0) as (s0 & E0 & SL0 & SF0 & SE0). rewrite E0. cbn [bind].
  destruct (@aggregate_ok 1 c (rows_of n c f1) Hc RF1) as (s1 & E1 & SL1 & SF1 & SE1). rewrite E1. cbn [bind].
  rewrite RL0 in *. rewrite RL1 in *.
  assert (LC0 : length (concat s0) = n * c) by (rewrite (concat_length (proj1 (Forall_forall _ _) SF0)); lia).
  assert (LC1 : length (concat s1) = n * c) by (rewrite (concat_length (proj1 (Forall_forall _ _) SF1)); lia).
  destruct (@hadamard_sum_ok n c b0 b1 (concat s0) (concat s1) (rdHs rd) (rdA2b rd) Hc B0 B1 LC0 LC1 Hhs Lr Hn) as (p0 & p1 & EH & P0 & P1 & _ & HP).
  rewrite EH. exists p0, p1. split; [reflexivity|]. split; [exact P0|]. split; [exact P1|].
  apply rank_sorts; [rewrite map_length; unfold xors; rewrite map2_length; lia|].
  intros i Hi. rewrite (nth_indep _ 0 (N.to_nat 0%N)) by (rewrite map_length; unfold xors; rewrite map2_length; lia). rewrite map_nth.
  unfold xors. rewrite (@map2_nth _ _ _ N.lxor _ _ i 0%N 0%N) by lia. rewrite N_nat_Z. rewrite HP by exact Hi.
  rewrite <- (@rank_formula n c (digit L k0 k1) i Hi); [|intros; apply digit_lt].
  set (X := zsum c (fun v => (Z.b2z (v =? digit L k0 k1 i)%nat * (zsum (S i) (fun i' => Z.b2z (v =? digit L k0 k1 i')%nat) + zsum v (fun v' => zsum n (fun i' => Z.b2z (v' =? digit L k0 k1 i')%nat)) - 1))%Z)).
  assert (HX : (0 <= X < Z.of_nat n)%Z) by (unfold X; rewrite (@rank_formula n c (digit L k0 k1) i Hi); [apply rank_bounds; exact Hi|intros; apply digit_lt]).
  rewrite <- (Z.mod_small X (2 ^ Z.of_nat (a2b_bits n))).
  2:{ pose proof (a2b_bits_fits n) as HF. assert (Z.of_nat (2 ^ a2b_bits n) = 2 ^ Z.of_nat (a2b_bits n))%Z as EP by (rewrite Nat2Z.inj_pow; reflexivity). lia. }
  apply eqm_eq. apply (@eqm_weaken (2 ^ 32)%Z); [apply pow_div, a2b_bits_le, Hn|]. unfold X. apply zsum_eqm. intros v Hv.
  destruct (HV i v Hi Hv) as [EX _]. rewrite EX. rewrite !concat_el by (assumption || lia).
  change (Z.of_N (nth v (nth i s0 []) 0%N)) with (el s0 i v). change (Z.of_N (nth v (nth i s1 []) 0%N)) with (el s1 i v).
  rewrite SE0, SE1 by assumption.
  assert (HE : forall i' v', i' < n -> v' < c -> eqm (2 ^ 32) (el (rows_of n c f0) i' v' + el (rows_of n c f1) i' v') (Z.b2z (v' =? digit L k0 k1 i'))).
  { intros i' v' Hi' Hv'. unfold el. rewrite RE0, RE1 by assumption. apply shares_bit_eqm, HV; assumption. }
  assert (Q1 : eqm (2 ^ 32) (zsum (S i) (fun i' => (el (rows_of n c f0) i' v + el (rows_of n c f1) i' v)%Z)) (zsum (S i) (fun i' => Z.b2z (v =? digit L k0 k1 i')%nat))).
  { apply zsum_eqm. intros; apply HE; lia. }
  assert (Q2 : eqm (2 ^ 32) (zsum v (fun v' => zsum n (fun i' => (el (rows_of n c f0) i' v' + el (rows_of n c f1) i' v')%Z))) (zsum v (fun v' => zsum n (fun i' => Z.b2z (v' =? digit L k0 k1 i')%nat)))).
  { apply zsum_eqm. intros j Hj. apply zsum_eqm. intros t Ht. apply HE; lia. }
  rewrite <- Q1, <- Q2.
  rewrite zsum_add. rewrite (@zsum_ext v (fun v' => zsum n (fun i' => (el (rows_of n c f0) i' v' + el (rows_of n c f1) i' v')%Z)) (fun v' => (zsum n (fun i' => el (rows_of n c f0) i' v') + zsum n (fun i' => el (rows_of n c f1) i' v'))%Z)) by (intros; apply zsum_add).
  rewrite zsum_add. apply eqm_refl'. change (Z.of_nat 0) with 0%Z. change (Z.of_nat 1) with 1%Z. lia.
Qed.

(* ---------- positions ---------- *)
Lemma rank_sum n key i : i < n -> rank n key i = (zsum n (fun i' => Z.b2z (key i' <? key i)%N) + zsum i (fun i' => Z.b2z (key i' =? key i)%N))%Z.
Proof.
  intros Hi. unfold rank. rewrite (@zsum_ext n (fun i' => Z.b2z (before key i' i)) (fun i' => (Z.b2z (key i' <? key i)%N + Z.b2z ((key i' =? key i)%N && (i' <? i)%nat))%Z)).
  2:{ intros j Hj. unfold before. destruct (N.ltb_spec (key j) (key i)), (N.eqb_spec (key j) (key i)); try lia; destruct (j <? i); reflexivity. }
  rewrite zsum_add. f_equal. rewrite (@zsum_split n i) by lia. rewrite (zsum_0 (n := n - i)).
  - rewrite Z.add_0_r. apply zsum_ext. intros j Hj. replace (j <? i) with true by lia. rewrite andb_true_r. reflexivity.
  - intros j Hj. replace (i + j <? i) with false by lia. rewrite andb_false_r. reflexivity.
Qed.

(* the number of positions before a position, two ways *)
Lemma zsum_perm n p f : is_perm n p -> zsum n (fun i => f (nth i p 0)) = zsum n f.
Proof.
  intros Hp. assert (HF : forall l, zsum (length l) (fun i => f (nth i l 0)) = fold_right Z.add 0%Z (map f l)).
  { induction l as [|x l IH]; [reflexivity|]. cbn [length map fold_right]. rewrite zsum_shift. cbn [nth]. rewrite IH. reflexivity. }
  assert (HP : forall l l', Permutation l l' -> fold_right Z.add 0%Z (map f l) = fold_right Z.add 0%Z (map f l')).
  { intros l l' H. induction H; cbn [map fold_right]; try lia. }
  pose proof (HF p) as H1. rewrite (is_perm_length Hp) in H1. rewrite H1, (HP _ _ Hp), <- HF, seq_length. apply zsum_ext. intros j Hj. rewrite seq_nth by exact Hj. reflexivity.
Qed.
Lemma zsum_below n x : x <= n -> zsum n (fun k => Z.b2z (k <? x)) = Z.of_nat x.
Proof.
  intros H. rewrite (@zsum_split n x) by lia. rewrite (@zsum_ext x _ (fun _ => 1%Z)) by (intros j Hj; replace (j <? x) with true by lia; reflexivity).
  rewrite zsum_const. rewrite zsum_0; [lia|]. intros j Hj. replace (x + j <? x) with false by lia. reflexivity.
Qed.
Lemma sorts_rank n key p : sorts n key p -> forall i, i < n -> Z.of_nat (nth i p 0) = rank n key i.
Proof.
  intros [Hp HS] i Hi. assert (Hl : nth i p 0 < n).
  { apply (is_perm_lt Hp (i := i)). apply nth_error_nth'. rewrite (is_perm_length Hp). exact Hi. }
  rewrite <- (@zsum_below n (nth i p 0)) by lia. rewrite <- (zsum_perm (fun k => Z.b2z (k <? nth i p 0)) Hp). unfold rank. apply zsum_ext. intros j Hj. f_equal.
  apply eq_iff_eq_true. rewrite Nat.ltb_lt, before_iff. apply HS; assumption.
Qed.
Lemma sorts_unique n key p q : sorts n key p -> sorts n key q -> p = q.
Proof.
  intros Hp Hq. pose proof (is_perm_length (proj1 Hp)) as Lp. pose proof (is_perm_length (proj1 Hq)) as Lq.
  apply nth_ext with 0 0; [congruence|]. rewrite Lp. intros i Hi. apply Nat2Z.inj. rewrite (sorts_rank Hp), (sorts_rank Hq) by exact Hi. reflexivity.
Qed.
