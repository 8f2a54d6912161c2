From Verif Require Import Base Words PermModel PermCorModel GmwModel SimdModel ShuffleModel ShuffleSpec KeyMultModel PrfModel BitInjModel RadixModel RadixSpec BitInjProofs HadamardProofs RadixProofs RadixFlagProofs RadixRankProofs.
From Verif Require Import PermSpec PermProofs PrfProofs PermCorSpec PermCorProofs CompPermProofs GmwProofs ShuffleSpanProofs CompressProofs CorStartProofs Mod3Proofs.

(* ---------- keys ---------- *)
Lemma le_num_load l : bytes l -> le_num l = load l.
Proof.
  induction l as [|x l IH]; intros H; [reflexivity|]. inversion H; subst. cbn [le_num load of_words fold_right].
  change (fold_right (fun b acc => (b + 256 * acc)%N) 0%N l) with (le_num l). rewrite IH by assumption.
  change (fold_right (fun b acc => N.lor b (N.shiftl acc 8)) 0%N l) with (load l).
  rewrite N.shiftl_mul_pow2. change (2 ^ 8)%N with 256%N. rewrite N.add_nocarry_lxor.
  - rewrite (N.mul_comm 256). apply N.bits_inj. intros i. rewrite N.lxor_spec, N.lor_spec.
    destruct (N.lt_ge_cases i 8) as [Hi|Hi].
    + change 256%N with (2 ^ 8)%N. rewrite N.mul_pow2_bits_low by exact Hi. destruct (N.testbit x i); reflexivity.
    + rewrite (@pow2_bits_high x 8 i) by assumption. destruct (N.testbit _ i); reflexivity.
  - apply N.bits_inj. intros i. rewrite N.land_spec, N.bits_0. destruct (N.lt_ge_cases i 8) as [Hi|Hi].
    + rewrite (N.mul_comm 256). change 256%N with (2 ^ 8)%N. rewrite N.mul_pow2_bits_low by exact Hi. apply andb_false_r.
    + rewrite (@pow2_bits_high x 8 i) by assumption. reflexivity.
Qed.
Lemma le_num_bit l k : bytes l -> N.testbit (le_num l) (N.of_nat k) = sbit l k.
Proof. intros H. rewrite le_num_load by exact H. apply load_bit. exact H. Qed.

Lemma keyn_bit c k i j : bytes k -> N.testbit (keyn c k i) (N.of_nat j) = (j <? 8 * c) && sbit k (8 * (i * c) + j).
Proof.
  intros H. unfold keyn. rewrite le_num_bit by (apply slice_bytes; exact H). destruct (Nat.ltb_spec j (8 * c)) as [Hj|Hj]; cbn [andb].
  - apply slice_bit. exact Hj.
  - unfold sbit. rewrite nth_overflow; [apply N.bits_0|]. unfold slice. rewrite firstn_length.
    assert (c <= j / 8) by (apply Nat.div_le_lower_bound; lia). lia.
Qed.

Lemma bytes_xors a b : bytes a -> bytes b -> bytes (xors a b).
Proof.
  revert b. induction a as [|x a IH]; intros [|y b] Ha Hb; try constructor; inversion Ha; inversion Hb; subst.
  - change 256%N with (2 ^ 8)%N. apply bits_high_pow2. intros i Hi. rewrite N.lxor_spec. rewrite !(@pow2_bits_high _ 8 i) by assumption. reflexivity.
  - apply IH; assumption.
Qed.

Lemma keyn_xors c k0 k1 i : length k0 = length k1 -> bytes k0 -> bytes k1 -> keyn c (xors k0 k1) i = N.lxor (keyn c k0 i) (keyn c k1 i).
Proof.
  intros HL H0 H1. apply N.bits_inj. intros j. rewrite <- (N2Nat.id j). rewrite N.lxor_spec, !keyn_bit by (try apply bytes_xors; assumption).
  unfold xors. rewrite map2_lxor_bit by exact HL. destruct (_ <? _); cbn [andb]; reflexivity.
Qed.

(* bits begin .. begin+size-1 of a number *)
Definition part (begin size : nat) (x : N) : N := ((x / 2 ^ N.of_nat begin) mod 2 ^ N.of_nat size)%N.
Lemma part_bit begin size x t : N.testbit (part begin size x) (N.of_nat t) = (t <? size) && N.testbit x (N.of_nat (begin + t)).
Proof.
  unfold part. rewrite <- N.shiftr_div_pow2. destruct (Nat.ltb_spec t size) as [H|H]; cbn [andb].
  - rewrite N.mod_pow2_bits_low by lia. rewrite N.shiftr_spec'. f_equal. lia.
  - apply N.mod_pow2_bits_high. lia.
Qed.
Lemma part_xor b s x y : part b s (N.lxor x y) = N.lxor (part b s x) (part b s y).
Proof.
  apply N.bits_inj. intros i. rewrite <- (N2Nat.id i). rewrite N.lxor_spec, !part_bit, N.lxor_spec. destruct (_ <? _); cbn [andb]; reflexivity.
Qed.
Lemma part_lt b s x : (part b s x < 2 ^ N.of_nat s)%N.
Proof. apply N.mod_lt, N.pow_nonzero. discriminate. Qed.

(* ---------- extract ---------- *)
Lemma window_ok c k i begin size len : bytes k -> size <= 8 -> begin < 8 * c ->
  i * c + begin / 8 + len <= length k -> (len = 2 \/ (len = 1 /\ 8 * c <= 8 * (begin / 8) + 8)) ->
  N.land (N.shiftr (load (slice k (i * c + begin / 8) len)) (N.of_nat (begin mod 8))) (N.ones (N.of_nat (Nat.min size (c * 8 - begin)))) =
  part begin size (keyn c k i).
Proof.
  intros Hk Hs Hb Hlen Hl. pose proof (Nat.div_mod begin 8 ltac:(lia)) as D. pose proof (Nat.mod_upper_bound begin 8 ltac:(lia)) as U.
  apply N.bits_inj. intros t'. rewrite <- (N2Nat.id t'). generalize (N.to_nat t') as t. intros t. rewrite part_bit, keyn_bit by exact Hk.
  rewrite N.land_spec. destruct (Nat.ltb_spec t size) as [Ht|Ht]; cbn [andb].
  2:{ rewrite N.ones_spec_high by lia. apply andb_false_r. }
  destruct (Nat.ltb_spec (begin + t) (8 * c)) as [Hc|Hc]; cbn [andb].
  2:{ rewrite N.ones_spec_high by lia. apply andb_false_r. }
  rewrite N.ones_spec_low by lia. rewrite andb_true_r. rewrite N.shiftr_spec'. rewrite <- Nat2N.inj_add.
  rewrite load_bit by (apply slice_bytes; exact Hk). rewrite slice_bit by (destruct Hl as [-> | [-> ?]]; lia). f_equal. lia.
Qed.

Lemma extract_ok begin size n c k : bytes k -> 0 < n -> 0 < size <= 8 -> begin < 8 * c -> length k = n * c ->
  extract begin size n c k = Ok (map (fun i => part begin size (keyn c k i)) (seq 0 n)).
Proof.
  intros Hk Hn Hs Hb Hl. unfold extract. cbv zeta. replace (8 <? size) with false by lia. cbn [throw_if bind].
  replace (c * 8 <=? begin) with false by lia. replace (size =? 0) with false by lia. replace (n =? 0) with false by lia.
  pose proof (Nat.div_mod begin 8 ltac:(lia)) as D. pose proof (Nat.mod_upper_bound begin 8 ltac:(lia)) as U.
  destruct n as [|n]; [lia|]. cbn [Nat.sub]. rewrite Nat.sub_0_r.
  rewrite (@mapM_seq _ _ (fun i => part begin size (keyn c k i))).
  2:{ intros i Hi. cbn [Nat.add] in *. assert (i * c + begin / 8 + 2 <= length k) as HB by nia. rewrite readN_ok by lia. cbn [bind]. f_equal.
      apply window_ok; try assumption; lia. }
  cbn [bind]. assert (E : length k - n * c - begin / 8 = c - begin / 8) by (rewrite Hl; cbn [Nat.mul]; lia). rewrite E.
  assert (Hq : begin / 8 < c) by lia. remember (Nat.min 2 (c - begin / 8)) as s eqn:Es.
  assert (HB : n * c + begin / 8 + s <= length k) by (rewrite Hl; cbn [Nat.mul]; lia).
  rewrite readN_ok by lia. cbn [bind]. f_equal. rewrite seq_S, map_app. cbn [map Nat.add]. do 2 f_equal. apply window_ok; try assumption; lia.
Qed.

(* ---------- genPerm ---------- *)
Lemma part_split a L x : (x mod 2 ^ N.of_nat (a + L) = x mod 2 ^ N.of_nat a + 2 ^ N.of_nat a * part a L x)%N.
Proof.
  unfold part. rewrite Nat2N.inj_add, N.pow_add_r. rewrite N.mod_mul_r by (apply N.pow_nonzero; discriminate). lia.
Qed.

Lemma lex_num (m a b c d : N) : (a < m -> b < m -> (a + m * c < b + m * d <-> c < d \/ (c = d /\ a < b)))%N.
Proof.
  intros Ha Hb. destruct (N.lt_trichotomy c d) as [H|[->|H]].
  - assert (m * (c + 1) <= m * d)%N by (apply N.mul_le_mono_l; lia). lia.
  - lia.
  - assert (m * (d + 1) <= m * c)%N by (apply N.mul_le_mono_l; lia). lia.
Qed.
Lemma lex_lt a L x y : (x mod 2 ^ N.of_nat (a + L) < y mod 2 ^ N.of_nat (a + L) <->
   part a L x < part a L y \/ (part a L x = part a L y /\ x mod 2 ^ N.of_nat a < y mod 2 ^ N.of_nat a))%N.
Proof.
  rewrite !part_split. set (m := (2 ^ N.of_nat a)%N). assert (m <> 0)%N as Hm by (apply N.pow_nonzero; discriminate).
  pose proof (N.mod_lt x m Hm). pose proof (N.mod_lt y m Hm). apply lex_num; assumption.
Qed.
Lemma lex_eq a L x y : (x mod 2 ^ N.of_nat (a + L) = y mod 2 ^ N.of_nat (a + L) <->
   part a L x = part a L y /\ x mod 2 ^ N.of_nat a = y mod 2 ^ N.of_nat a)%N.
Proof.
  rewrite !part_split. set (m := (2 ^ N.of_nat a)%N). assert (m <> 0)%N as Hm by (apply N.pow_nonzero; discriminate).
  pose proof (N.mod_lt x m Hm). pose proof (N.mod_lt y m Hm).
  split; [|intros [-> ->]; reflexivity]. intros E.
  pose proof (@lex_num m (x mod m) (y mod m) (part a L x) (part a L y)). pose proof (@lex_num m (y mod m) (x mod m) (part a L y) (part a L x)). lia.
Qed.

Lemma sorts_ext n key key' p : (forall i, i < n -> key i = key' i) -> sorts n key p -> sorts n key' p.
Proof.
  intros H [HP HS]. split; [exact HP|]. intros i j Hi Hj. rewrite <- !H by assumption. apply HS; assumption.
Qed.

(* one more digit *)
Lemma sorts_compose n a L (key : nat -> N) p rho q dg : sorts n (fun i => (key i mod 2 ^ N.of_nat a)%N) p -> sorts n dg rho ->
  (forall i, i < n -> dg (nth i p 0) = part a L (key i)) ->
  length q = n -> (forall i, i < n -> nth i q 0 = nth (nth i p 0) rho 0) ->
  sorts n (fun i => (key i mod 2 ^ N.of_nat (a + L))%N) q.
Proof.
  intros [Pp Sp] [Pr Sr] Hd Lq Hq.
  assert (Bp : forall i, i < n -> nth i p 0 < n).
  { intros i Hi. apply (is_perm_lt Pp (i := i)). apply nth_error_nth'. rewrite (is_perm_length Pp). exact Hi. }
  assert (Eq : q = map (fun i => nth i rho 0) p).
  { apply nth_ext with 0 0; [rewrite map_length, (is_perm_length Pp); exact Lq|]. rewrite Lq. intros i Hi. rewrite Hq by exact Hi.
    rewrite (nth_indep (map _ p) 0 (nth 0 rho 0)) by (rewrite map_length, (is_perm_length Pp); exact Hi). rewrite (map_nth (fun i => nth i rho 0)). reflexivity. }
  split; [rewrite Eq; apply map_nth_perm; assumption|]. intros i j Hi Hj. rewrite !Hq by assumption.
  rewrite Sr by (apply Bp; assumption). rewrite !Hd by assumption. rewrite Sp by assumption. rewrite lex_lt, lex_eq. tauto.
Qed.

Lemma row1 (l : list N) i : i < length l -> PermSpec.row 1 l i = [nth i l 0%N].
Proof.
  intros H. unfold PermSpec.row. rewrite Nat.mul_1_r. revert i H. induction l as [|x l IH]; intros i H; cbn [length] in H; [lia|].
  destruct i as [|i]; [reflexivity|]. cbn [skipn nth]. apply IH. lia.
Qed.

Lemma digit_part L k0 k1 i x : (part 0 L x = x -> N.lxor (nth i k0 0%N) (nth i k1 0%N) = x -> N.of_nat (digit L k0 k1 i) = x)%N.
Proof. intros H E. unfold digit. rewrite E, N2Nat.id. unfold part in H. cbn [N.of_nat] in H. change (2 ^ 0)%N with 1%N in H. rewrite N.div_1_r in H. exact H. Qed.
Lemma part_part b L x : part 0 L (part b L x) = part b L x.
Proof. unfold part at 1. change (2 ^ N.of_nat 0)%N with 1%N. rewrite N.div_1_r. apply N.mod_small, part_lt. Qed.

Lemma gen_perm_loop_ok L n cap c k0 k1 : 2 <= L <= 8 -> 9 <= cap -> (N.of_nat cap < 2 ^ 64)%N -> 0 < n -> (N.of_nat n <= 2 ^ 32)%N -> bytes k0 -> bytes k1 -> length k0 = n * c -> length k1 = n * c ->
  forall rds kIdx d0 d1, kIdx + (length rds - 1) * L < 8 * c \/ rds = [] ->
    Forall (fun x => comps_ok n cap (fst x) /\ rround_ok L n (snd x)) rds ->
    length d0 = n -> length d1 = n -> sorts n (fun i => (keyn c (xors k0 k1) i mod 2 ^ N.of_nat kIdx)%N) (map N.to_nat (xors d0 d1)) ->
    exists p0 p1, gen_perm_loop L n n c k0 k1 kIdx rds d0 d1 = Ok (p0, p1) /\ length p0 = n /\ length p1 = n /\
      sorts n (fun i => (keyn c (xors k0 k1) i mod 2 ^ N.of_nat (kIdx + length rds * L))%N) (map N.to_nat (xors p0 p1)).
Proof.
  intros HL Hcap Hcap' Hn Hn32 B0 B1 L0 L1. induction rds as [|[[c0 c1] rd] rds IH]; intros kIdx d0 d1 Hk HR Ld0 Ld1 HS.
  - exists d0, d1. split; [reflexivity|]. split; [exact Ld0|]. split; [exact Ld1|]. cbn [length Nat.mul]. rewrite Nat.add_0_r. exact HS.
  - destruct Hk as [Hk|Hk]; [|discriminate]. cbn [length] in Hk. apply Forall_cons_iff in HR. destruct HR as [[(HC & O0 & O1) HRD] HR']. cbn [fst snd] in *.
    cbn [gen_perm_loop]. rewrite !extract_ok by (assumption || lia). cbn [bind].
    set (sk0 := map (fun i => part kIdx L (keyn c k0 i)) (seq 0 n)). set (sk1 := map (fun i => part kIdx L (keyn c k1 i)) (seq 0 n)).
    pose proof HS as [HP _].
    assert (HB : forall i, i < n -> (N.lxor (nth i d0 0%N) (nth i d1 0%N) < 2 ^ 32)%N).
    { intros i Hi. assert (Hin : nth i (map N.to_nat (xors d0 d1)) 0 < n).
      { apply (is_perm_lt HP (i := i)). apply nth_error_nth'. rewrite (is_perm_length HP). exact Hi. }
      rewrite (nth_indep _ 0 (N.to_nat 0%N)) in Hin by (rewrite (is_perm_length HP); exact Hi). rewrite map_nth in Hin.
      unfold xors in Hin. rewrite (@map2_nth _ _ _ N.lxor _ _ i 0%N 0%N) in Hin by lia. lia. }
    destruct (@comp_derand_ok n cap c0 c1 d0 d1 Hn Hcap' HC ltac:(lia) Ld0 Ld1 HB HP) as (e0 & e1 & E1 & HC1 & HP1 & Oe0 & Oe1).
    rewrite E1. cbn [bind fst snd].
    assert (Ls0 : length sk0 = n * 1) by (unfold sk0; rewrite map_length, seq_length; lia).
    assert (Ls1 : length sk1 = n * 1) by (unfold sk1; rewrite map_length, seq_length; lia).
    destruct (@comp_apply_ok n cap e0 e1 Inverse 1 sk0 sk1 (zmat n 1) (zmat n 1) Hn Hcap' HC1 ltac:(lia) ltac:(lia) Ls0 Ls1 eq_refl eq_refl eq_refl eq_refl)
      as (z0 & z1 & g0 & g1 & E2 & Lz0 & Lz1 & HPm & HC2 & HP2 & Og0 & Og1).
    rewrite E2. cbn [bind dat]. rewrite Nat.mul_1_r in *.
    destruct (@gen_bit_perm_ok L n 1 z0 z1 rd ltac:(lia) ltac:(lia) Lz0 Lz1 Hn32 ltac:(lia) HRD) as (r0 & r1 & E3 & Lr0 & Lr1 & HSr).
    rewrite E3. cbn [bind fst snd]. pose proof HSr as [HPr _].
    assert (HBr : forall i, i < n -> (N.lxor (nth i r0 0%N) (nth i r1 0%N) < 2 ^ 32)%N).
    { intros i Hi. assert (Hin : nth i (map N.to_nat (xors r0 r1)) 0 < n).
      { apply (is_perm_lt HPr (i := i)). apply nth_error_nth'. rewrite (is_perm_length HPr). exact Hi. }
      rewrite (nth_indep _ 0 (N.to_nat 0%N)) in Hin by (rewrite (is_perm_length HPr); exact Hi). rewrite map_nth in Hin.
      unfold xors in Hin. rewrite (@map2_nth _ _ _ N.lxor _ _ i 0%N 0%N) in Hin by lia. lia. }
    destruct (@compose_ok n cap g0 g1 r0 r1 Hn Hcap' HC2 ltac:(lia) ltac:(lia) Lr0 Lr1 HBr) as (y0 & y1 & h0 & h1 & E4 & Ly0 & Ly1 & _ & _ & HY).
    rewrite E4. cbn [bind]. rewrite HP2, HP1 in HY. rewrite HP1 in HPm.
    set (p := map N.to_nat (xors d0 d1)) in *.
    assert (Bp : forall i, i < n -> nth_error p i = Some (nth i p 0) /\ nth i p 0 < n).
    { intros i Hi. assert (EE : nth_error p i = Some (nth i p 0)) by (apply nth_error_nth'; rewrite (is_perm_length HP); exact Hi). split; [exact EE|exact (is_perm_lt HP EE)]. }
    destruct (IH (kIdx + L) y0 y1) as (p0 & p1 & E5 & Lp0 & Lp1 & HS5); [|exact HR'|exact Ly0|exact Ly1| |].
    + destruct rds as [|x rds]; [right; reflexivity|left]. cbn [length] in *. lia.
    + apply (@sorts_compose n kIdx L (keyn c (xors k0 k1)) p (map N.to_nat (xors r0 r1)) _ (fun i => N.of_nat (digit L z0 z1 i)) HS HSr).
      * intros i Hi. destruct (Bp i Hi) as [Ei Bi]. apply digit_part; [apply part_part|].
        destruct HPm as [_ HPm]. specialize (HPm _ _ Ei). unfold xors in HPm. rewrite !row1 in HPm by (rewrite map2_length; lia). injection HPm as HPm.
        rewrite !(@map2_nth _ _ _ N.lxor _ _ _ 0%N 0%N) in HPm by lia. rewrite HPm. unfold sk0, sk1. rewrite !nth_map_seq' by exact Hi. cbn [Nat.add].
        rewrite keyn_xors by (assumption || congruence). rewrite part_xor. reflexivity.
      * rewrite map_length. unfold xors. rewrite map2_length. lia.
      * intros i Hi. destruct (Bp i Hi) as [Ei Bi].
        rewrite (nth_indep _ 0 (N.to_nat 0%N)) by (rewrite map_length; unfold xors; rewrite map2_length; lia).
        rewrite (nth_indep (map _ (xors r0 r1)) 0 (N.to_nat 0%N)) by (rewrite map_length; unfold xors; rewrite map2_length; lia).
        rewrite !map_nth. unfold xors. rewrite !(@map2_nth _ _ _ N.lxor _ _ _ 0%N 0%N) by lia. rewrite HY by exact Hi. reflexivity.
    + exists p0, p1. split; [exact E5|]. split; [exact Lp0|]. split; [exact Lp1|]. cbn [length Nat.mul]. rewrite Nat.add_assoc. exact HS5.
Qed.

Lemma ceil_bound a b : 0 < b -> a <= div_ceil a b * b /\ (0 < a -> (div_ceil a b - 1) * b < a).
Proof.
  intros Hb. unfold div_ceil. pose proof (Nat.div_mod (a + b - 1) b ltac:(lia)). pose proof (Nat.mod_upper_bound (a + b - 1) b ltac:(lia)).
  split; [nia|]. intros Ha. assert (1 <= (a + b - 1) / b) by (apply Nat.div_le_lower_bound; lia). nia.
Qed.

Lemma gen_perm_ok L bits n cap c k0 k1 rd rds : 9 <= cap -> (N.of_nat cap < 2 ^ 64)%N -> (2 <= L <= 8 \/ L = 1 /\ bits = 1) -> 0 < bits <= 8 * c -> 0 < n -> (N.of_nat n <= 2 ^ 32)%N ->
  bytes k0 -> bytes k1 -> length k0 = n * c -> length k1 = n * c ->
  (forall i, i < n -> (keyn c (xors k0 k1) i < 2 ^ N.of_nat bits)%N) ->
  length rds = div_ceil bits L - 1 -> rround_ok L n rd -> Forall (fun x => comps_ok n cap (fst x) /\ rround_ok L n (snd x)) rds ->
  exists p0 p1, gen_perm L n bits bits n c k0 k1 rd rds = Ok (p0, p1) /\ length p0 = n /\ length p1 = n /\
    sorts n (keyn c (xors k0 k1)) (map N.to_nat (xors p0 p1)).
Proof.
  intros Hcap Hcap' HL Hb Hn Hn32 B0 B1 L0 L1 HK Hlen Hrd Hrds. unfold gen_perm. rewrite !Nat.eqb_refl. cbn [negb throw_if bind].
  replace (L =? 0) with false by lia. cbv zeta. assert (HL8 : 0 < L <= 8) by lia.
  destruct (@ceil_bound bits L ltac:(lia)) as [HC1 HC2]. specialize (HC2 ltac:(lia)). assert (HC0 : 0 < div_ceil bits L) by nia.
  rewrite !extract_ok by (assumption || lia). cbn [bind]. replace (div_ceil bits L =? 0) with false by lia.
  set (sk0 := map (fun i => part 0 L (keyn c k0 i)) (seq 0 n)). set (sk1 := map (fun i => part 0 L (keyn c k1 i)) (seq 0 n)).
  destruct (@gen_bit_perm_ok L n 1 sk0 sk1 rd) as (r0 & r1 & E & Lr0 & Lr1 & HS); try assumption; try lia; try (unfold sk0, sk1; rewrite map_length, seq_length; reflexivity).
  { intros ->. split; apply Forall_forall; intros x Hx; apply in_map_iff in Hx; destruct Hx as (i & <- & _); apply (@part_lt 0 1). }
  rewrite E. cbn [bind fst snd]. rewrite Hlen, Nat.eqb_refl. cbn [negb].
  assert (HS' : sorts n (fun i => (keyn c (xors k0 k1) i mod 2 ^ N.of_nat L)%N) (map N.to_nat (xors r0 r1))).
  { apply (@sorts_ext n (fun i => N.of_nat (digit L sk0 sk1 i))); [|exact HS]. intros i Hi.
    assert (EP : (part 0 L (keyn c (xors k0 k1) i) = keyn c (xors k0 k1) i mod 2 ^ N.of_nat L)%N).
    { unfold part. change (2 ^ N.of_nat 0)%N with 1%N. rewrite N.div_1_r. reflexivity. }
    rewrite <- EP. apply digit_part; [apply part_part|]. unfold sk0, sk1. rewrite !nth_map_seq' by exact Hi. cbn [Nat.add].
    rewrite keyn_xors by (assumption || congruence). rewrite part_xor. reflexivity. }
  assert (EK : forall p, sorts n (fun i => (keyn c (xors k0 k1) i mod 2 ^ N.of_nat (L + (div_ceil bits L - 1) * L))%N) p -> sorts n (keyn c (xors k0 k1)) p).
  { intros p. apply sorts_ext. intros i Hi. apply N.mod_small. eapply N.lt_le_trans; [apply HK; exact Hi|]. apply N.pow_le_mono_r; [discriminate|]. nia. }
  destruct HL as [HL|[-> ->]].
  - destruct (@gen_perm_loop_ok L n cap c k0 k1 HL Hcap Hcap' Hn Hn32 B0 B1 L0 L1 rds L r0 r1) as (p0 & p1 & E' & Lp0 & Lp1 & HS2); try assumption.
    + destruct rds as [|x rds]; [right; reflexivity|left]. cbn [length] in *. nia.
    + rewrite E'. exists p0, p1. split; [reflexivity|]. split; [exact Lp0|]. split; [exact Lp1|]. apply EK. rewrite <- Hlen. exact HS2.
  - destruct rds as [|x rds]; [|discriminate Hlen]. cbn [gen_perm_loop]. exists r0, r1. split; [reflexivity|]. split; [exact Lr0|]. split; [exact Lr1|].
    apply EK. exact HS'.
Qed.

(* with fewer bytes of correlated randomness the second round throws *)
Lemma gen_perm_short L bits n cap c k0 k1 rd x rds : 5 <= cap < 9 -> 2 <= L <= 8 -> L < bits <= 8 * c -> 0 < n -> (N.of_nat n <= 2 ^ 32)%N ->
  bytes k0 -> bytes k1 -> length k0 = n * c -> length k1 = n * c ->
  length (x :: rds) = div_ceil bits L - 1 -> rround_ok L n rd -> comps_ok n cap (fst x) -> rround_ok L n (snd x) ->
  gen_perm L n bits bits n c k0 k1 rd (x :: rds) = Throw.
Proof.
  intros Hcap HL Hb Hn Hn32 B0 B1 L0 L1 Hlen Hrd (HC & O0 & O1) HRD. unfold gen_perm. rewrite !Nat.eqb_refl. cbn [negb throw_if bind].
  replace (L =? 0) with false by lia. cbv zeta. rewrite !extract_ok by (assumption || lia). cbn [bind].
  replace (div_ceil bits L =? 0) with false by (cbn [length] in Hlen; lia).
  set (sk0 := map (fun i => part 0 L (keyn c k0 i)) (seq 0 n)). set (sk1 := map (fun i => part 0 L (keyn c k1 i)) (seq 0 n)).
  destruct (@gen_bit_perm_ok L n 1 sk0 sk1 rd) as (d0 & d1 & E & Ld0 & Ld1 & HS); try assumption; try lia; try (unfold sk0, sk1; rewrite map_length, seq_length; reflexivity).
  rewrite E. cbn [bind fst snd]. rewrite Hlen, Nat.eqb_refl. cbn [negb]. destruct x as [[c0 c1] rd1]. cbn [fst snd] in *. cbn [gen_perm_loop].
  rewrite !extract_ok by (assumption || lia). cbn [bind].
  set (tk0 := map (fun i => part L L (keyn c k0 i)) (seq 0 n)). set (tk1 := map (fun i => part L L (keyn c k1 i)) (seq 0 n)).
  pose proof HS as [HP _]. assert (Hcap' : (N.of_nat cap < 2 ^ 64)%N) by lia.
  assert (HB : forall i, i < n -> (N.lxor (nth i d0 0%N) (nth i d1 0%N) < 2 ^ 32)%N).
  { intros i Hi. assert (Hin : nth i (map N.to_nat (xors d0 d1)) 0 < n).
    { apply (is_perm_lt HP (i := i)). apply nth_error_nth'. rewrite (is_perm_length HP). exact Hi. }
    rewrite (nth_indep _ 0 (N.to_nat 0%N)) in Hin by (rewrite (is_perm_length HP); exact Hi). rewrite map_nth in Hin.
    unfold xors in Hin. rewrite (@map2_nth _ _ _ N.lxor _ _ i 0%N 0%N) in Hin by lia. lia. }
  destruct (@comp_derand_ok n cap c0 c1 d0 d1 Hn Hcap' HC ltac:(lia) Ld0 Ld1 HB HP) as (e0 & e1 & E1 & HC1 & HP1 & Oe0 & Oe1).
  rewrite E1. cbn [bind fst snd].
  assert (Ls0 : length tk0 = n * 1) by (unfold tk0; rewrite map_length, seq_length; lia).
  assert (Ls1 : length tk1 = n * 1) by (unfold tk1; rewrite map_length, seq_length; lia).
  destruct (@comp_apply_ok n cap e0 e1 Inverse 1 tk0 tk1 (zmat n 1) (zmat n 1) Hn Hcap' HC1 ltac:(lia) ltac:(lia) Ls0 Ls1 eq_refl eq_refl eq_refl eq_refl)
    as (z0 & z1 & g0 & g1 & E2 & Lz0 & Lz1 & HPm & HC2 & HP2 & Og0 & Og1).
  rewrite E2. cbn [bind dat]. rewrite Nat.mul_1_r in *.
  destruct (@gen_bit_perm_ok L n 1 z0 z1 rd1 ltac:(lia) ltac:(lia) Lz0 Lz1 Hn32 ltac:(lia) HRD) as (r0 & r1 & E3 & Lr0 & Lr1 & HSr).
  rewrite E3. cbn [bind fst snd]. unfold comp_compose. rewrite (@comp_exhausted n cap g0 g1 Regular 4); try assumption; try lia; reflexivity.
Qed.
