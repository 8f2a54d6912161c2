From Verif Require Import Base Words GF4Model GF4Spec Mod3Proofs.

Lemma join64_bit lo hi i : (lo < 2 ^ 64)%N ->
  N.testbit (join64 lo hi) i = if (i <? 64)%N then N.testbit lo i else N.testbit hi (i - 64).
Proof.
  intros H. unfold join64. rewrite N.lor_spec. destruct (N.ltb_spec i 64).
  - rewrite N.shiftl_spec_low by auto. apply orb_false_r.
  - rewrite N.shiftl_spec_high' by auto. rewrite (pow2_bits_high H) by auto. reflexivity.
Qed.

Lemma land_ones_lt a w : (N.land a (N.ones w) < 2 ^ w)%N.
Proof. rewrite N.land_ones. apply N.mod_lt. apply N.pow_nonzero. lia. Qed.

Lemma shr1_64_bit x i : (i < 128)%N ->
  N.testbit (shr1_64 x) i = if ((i =? 63) || (i =? 127))%N then false else N.testbit x (i + 1).
Proof.
  intros Hi. unfold shr1_64. rewrite join64_bit.
  - unfold lo64, hi64. destruct (N.ltb_spec i 64).
    + rewrite N.shiftr_spec', N.land_spec, testbit_ones.
      destruct (N.ltb_spec (i + 1) 64), (N.eqb_spec i 63), (N.eqb_spec i 127); cbn [orb]; rewrite ?andb_true_r, ?andb_false_r; auto; lia.
    + rewrite N.shiftr_spec', N.land_spec, N.shiftr_spec', testbit_ones.
      replace (i - 64 + 1 + 64)%N with (i + 1)%N by lia.
      destruct (N.ltb_spec (i - 64 + 1) 64), (N.eqb_spec i 63), (N.eqb_spec i 127); cbn [orb]; rewrite ?andb_true_r, ?andb_false_r; auto; lia.
  - apply bits_high_pow2. intros j Hj. unfold lo64. rewrite N.shiftr_spec', N.land_spec, testbit_ones.
    destruct (N.ltb_spec (j + 1) 64); [lia|]. apply andb_false_r.
Qed.

Lemma shl1_64_bit x i : (i < 128)%N ->
  N.testbit (shl1_64 x) i = if ((i =? 0) || (i =? 64))%N then false else N.testbit x (i - 1).
Proof.
  intros Hi. unfold shl1_64. rewrite join64_bit by apply land_ones_lt.
  unfold lo64, hi64. destruct (N.ltb_spec i 64).
  - rewrite N.land_spec, testbit_ones. destruct (N.ltb_spec i 64); [|lia]. rewrite andb_true_r.
    destruct (N.eqb_spec i 0) as [->|]; cbn [orb]; [rewrite N.shiftl_spec_low by lia; reflexivity|].
    destruct (N.eqb_spec i 64); [lia|]. rewrite N.shiftl_spec_high' by lia. rewrite N.land_spec, testbit_ones.
    destruct (N.ltb_spec (i - 1) 64); [apply andb_true_r|lia].
  - rewrite N.land_spec, testbit_ones. destruct (N.ltb_spec (i - 64) 64); [|lia]. rewrite andb_true_r.
    destruct (N.eqb_spec i 0); [lia|]. cbn [orb]. destruct (N.eqb_spec i 64) as [->|].
    { rewrite N.shiftl_spec_low by lia. reflexivity. }
    rewrite N.shiftl_spec_high' by lia. rewrite N.land_spec, N.shiftr_spec', testbit_ones.
    destruct (N.ltb_spec (i - 64 - 1) 64); [|lia]. rewrite andb_true_r. f_equal. lia.
Qed.

Fixpoint all_below (n : nat) (p : N -> bool) : bool :=
  match n with 0 => true | S m => p (N.of_nat m) && all_below m p end.
Lemma all_below_ok n p : all_below n p = true -> forall i, (i < N.of_nat n)%N -> p i = true.
Proof.
  induction n as [|n IH]; intros H i Hi; [lia|]. cbn [all_below] in H. apply andb_true_iff in H. destruct H as [H1 H2].
  destruct (N.eq_dec i (N.of_nat n)) as [->|]; auto. apply IH; auto. lia.
Qed.

Lemma mask5555_bit i : (i < 128)%N -> N.testbit mask5555 i = N.even i.
Proof.
  intros Hi. apply eqb_prop. revert i Hi. apply (all_below_ok (n := 128) (p := fun i => eqb (N.testbit mask5555 i) (N.even i))).
  vm_compute. reflexivity.
Qed.

Lemma even_2t t : N.even (2 * t) = true.
Proof. rewrite N.even_mul. reflexivity. Qed.
Lemma even_2t1 t : N.even (2 * t + 1) = false.
Proof. rewrite N.even_add, even_2t. reflexivity. Qed.

Lemma f4_mul_block_spec x c t : (c < 4)%N -> (t < 64)%N ->
  exists r, f4_mul_block x c = Ok r /\ gelem r t = gmul (gelem x t) (gelem c 0).
Proof.
  intros Hc Ht.
  assert (Hc' : c = 0%N \/ c = 1%N \/ c = 2%N \/ c = 3%N) by lia.
  assert (E0 : N.testbit (N.land x mask5555) (2 * t) = N.testbit x (2 * t)).
  { rewrite N.land_spec, mask5555_bit, even_2t by lia. apply andb_true_r. }
  assert (E1 : N.testbit (N.land x mask5555) (2 * t + 1) = false).
  { rewrite N.land_spec, mask5555_bit, even_2t1 by lia. apply andb_false_r. }
  assert (M0 : N.testbit (N.land (shr1_64 x) mask5555) (2 * t) = N.testbit x (2 * t + 1)).
  { rewrite N.land_spec, mask5555_bit, even_2t, shr1_64_bit by lia. rewrite andb_true_r.
    destruct (N.eqb_spec (2 * t) 63); [lia|]. destruct (N.eqb_spec (2 * t) 127); [lia|]. reflexivity. }
  assert (M1 : N.testbit (N.land (shr1_64 x) mask5555) (2 * t + 1) = false).
  { rewrite N.land_spec, mask5555_bit, even_2t1 by lia. apply andb_false_r. }
  assert (S0 : forall y, N.testbit y (2 * t - 1) = false \/ t = 0%N -> N.testbit (shl1_64 y) (2 * t) = false).
  { intros y Hy. rewrite shl1_64_bit by lia. destruct ((2 * t =? 0) || (2 * t =? 64))%N eqn:E; auto. destruct Hy; auto. subst; discriminate. }
  assert (S1 : forall y, N.testbit (shl1_64 y) (2 * t + 1) = N.testbit y (2 * t)).
  { intros y. rewrite shl1_64_bit by lia. destruct (N.eqb_spec (2 * t + 1) 0); [lia|]. destruct (N.eqb_spec (2 * t + 1) 64); [lia|].
    cbn [orb]. f_equal. lia. }
  assert (O : forall y, N.testbit (N.land y mask5555) (2 * t - 1) = false \/ t = 0%N).
  { intros y. destruct (N.eq_dec t 0); auto. left. rewrite N.land_spec, mask5555_bit by lia.
    replace (2 * t - 1)%N with (2 * (t - 1) + 1)%N by lia. rewrite even_2t1. apply andb_false_r. }
  destruct Hc' as [-> | [-> | [-> | ->]]]; cbn [f4_mul_block]; eexists; (split; [reflexivity|]); unfold gelem, gmul;
    rewrite ?N.lor_spec, ?S1, ?N.lxor_spec, ?E0, ?E1, ?M0, ?M1, ?N.bits_0.
  - change (N.testbit 0 (2 * 0)) with false. change (N.testbit 0 (2 * 0 + 1)) with false. rewrite !andb_false_r. reflexivity.
  - change (N.testbit 1 (2 * 0)) with true. change (N.testbit 1 (2 * 0 + 1)) with false.
    destruct (N.testbit x (2 * t)), (N.testbit x (2 * t + 1)); reflexivity.
  - change (N.testbit 2 (2 * 0)) with false. change (N.testbit 2 (2 * 0 + 1)) with true. rewrite S0.
    + destruct (N.testbit x (2 * t)), (N.testbit x (2 * t + 1)); reflexivity.
    + destruct (O x), (O (shr1_64 x)); auto. left. rewrite N.lxor_spec, H, H0. reflexivity.
  - change (N.testbit 3 (2 * 0)) with true. change (N.testbit 3 (2 * 0 + 1)) with true. rewrite S0 by apply O.
    destruct (N.testbit x (2 * t)), (N.testbit x (2 * t + 1)); reflexivity.
Qed.

Lemma f4_mul_block_total x c : (c < 4)%N -> exists r, f4_mul_block x c = Ok r /\
  forall t, (t < 64)%N -> gelem r t = gmul (gelem x t) (gelem c 0).
Proof.
  intros Hc. destruct (f4_mul_block_spec x Hc (t := 0)) as (r & E & _); [lia|]. exists r. split; auto.
  intros t Ht. destruct (f4_mul_block_spec x Hc Ht) as (r' & E' & H). congruence.
Qed.

Lemma f4_mul_spec x y : (x < 4)%N -> (y < 4)%N ->
  exists r, f4_mul x y = Ok r /\ (r < 4)%N /\ gelem r 0 = gmul (gelem x 0) (gelem y 0).
Proof.
  intros Hx Hy. assert (X : x = 0%N \/ x = 1%N \/ x = 2%N \/ x = 3%N) by lia.
  assert (Y : y = 0%N \/ y = 1%N \/ y = 2%N \/ y = 3%N) by lia.
  destruct X as [-> | [-> | [-> | ->]]], Y as [-> | [-> | [-> | ->]]]; eexists; (split; [reflexivity|split; reflexivity]).
Qed.

Lemma f4_plus_spec x y t : gelem (f4_plus x y) t = gadd (gelem x t) (gelem y t).
Proof. unfold gelem, f4_plus, gadd. rewrite !N.lxor_spec. reflexivity. Qed.

(* the block product stays below 2^128 *)
Lemma f4_mul_block_lt x c r : (x < 2 ^ 128)%N -> f4_mul_block x c = Ok r -> (r < 2 ^ 128)%N.
Proof.
  intros Hx.
  assert (L : forall y, (N.land y mask5555 < 2 ^ 128)%N).
  { intros y. apply bits_high_pow2. intros i Hi. rewrite N.land_spec.
    rewrite (pow2_bits_high (a := mask5555) (w := 128)); auto; [apply andb_false_r|reflexivity]. }
  assert (S : forall y, (shl1_64 y < 2 ^ 128)%N).
  { intros y. apply bits_high_pow2. intros i Hi. unfold shl1_64. rewrite join64_bit by apply land_ones_lt.
    destruct (N.ltb_spec i 64); [lia|]. apply (pow2_bits_high (w := 64)); [apply land_ones_lt|lia]. }
  assert (X : forall a b, (a < 2 ^ 128)%N -> (b < 2 ^ 128)%N -> (N.lxor a b < 2 ^ 128)%N).
  { intros a b Ha Hb. apply bits_high_pow2. intros i Hi. rewrite N.lxor_spec, (pow2_bits_high Ha Hi), (pow2_bits_high Hb Hi). reflexivity. }
  unfold f4_mul_block. intros H.
  destruct c as [|[[]|[]|]]; try discriminate H; inversion H; subst; auto; try reflexivity; apply lor_lt; auto.
Qed.

(* field laws of the specification *)
Lemma gmul_field :
  (forall x y z, gmul x (gmul y z) = gmul (gmul x y) z) /\ (forall x y, gmul x y = gmul y x) /\
  (forall x, gmul x g1 = x) /\ (forall x, x <> g0 -> exists y, gmul x y = g1) /\
  (forall x y z, gmul x (gadd y z) = gadd (gmul x y) (gmul x z)).
Proof.
  repeat split.
  - intros [[] []] [[] []] [[] []]; reflexivity.
  - intros [[] []] [[] []]; reflexivity.
  - intros [[] []]; reflexivity.
  - intros [[] []] H; [exists (false, true)|exists (true, false)|exists (true, true)|elim H]; reflexivity.
  - intros [[] []] [[] []] [[] []]; reflexivity.
Qed.

Lemma gelem_ext x y : (x < 2 ^ 128)%N -> (y < 2 ^ 128)%N -> (forall t, (t < 64)%N -> gelem x t = gelem y t) -> x = y.
Proof.
  intros Hx Hy H. apply N.bits_inj. intros i. destruct (N.lt_ge_cases i 128) as [Hi|Hi].
  - assert (Hd : (i / 2 < 64)%N) by (apply N.div_lt_upper_bound; lia).
    specialize (H (i / 2)%N Hd). unfold gelem in H. apply pair_equal_spec in H. destruct H as [H0 H1].
    pose proof (N.div_mod i 2 ltac:(lia)) as E. pose proof (N.mod_lt i 2 ltac:(lia)).
    destruct (N.eq_dec (i mod 2) 0) as [e|ne].
    + replace i with (2 * (i / 2))%N by lia. exact H0.
    + replace i with (2 * (i / 2) + 1)%N by lia. exact H1.
  - rewrite (pow2_bits_high Hx Hi), (pow2_bits_high Hy Hi). reflexivity.
Qed.

Lemma xor_lt128 a b : (a < 2 ^ 128)%N -> (b < 2 ^ 128)%N -> (N.lxor a b < 2 ^ 128)%N.
Proof. intros Ha Hb. apply bits_high_pow2. intros i Hi. rewrite N.lxor_spec, (pow2_bits_high Ha Hi), (pow2_bits_high Hb Hi). reflexivity. Qed.

(* distributivity and associativity on packed blocks, as used by the VOLE *)
Lemma f4_block_laws x y a b : (x < 2 ^ 128)%N -> (y < 2 ^ 128)%N -> (a < 4)%N -> (b < 4)%N ->
  exists xa ya xb ab xab, f4_mul_block x a = Ok xa /\ f4_mul_block y a = Ok ya /\ f4_mul_block x b = Ok xb /\
    f4_mul a b = Ok ab /\ f4_mul_block xa b = Ok xab /\
    f4_mul_block (f4_plus x y) a = Ok (f4_plus xa ya) /\
    f4_mul_block x (f4_plus a b) = Ok (f4_plus xa xb) /\
    f4_mul_block x ab = Ok xab.
Proof.
  intros Hx Hy Ha Hb.
  destruct (f4_mul_block_total x Ha) as (xa & E1 & H1). destruct (f4_mul_block_total y Ha) as (ya & E2 & H2).
  destruct (f4_mul_block_total x Hb) as (xb & E3 & H3). destruct (f4_mul_spec Ha Hb) as (ab & E4 & L4 & H4).
  destruct (f4_mul_block_total xa Hb) as (xab & E5 & H5).
  destruct gmul_field as (F1 & F2 & F3 & F4 & F5).
  assert (Hab : (f4_plus a b < 4)%N).
  { change 4%N with (2 ^ 2)%N in *. apply bits_high_pow2. intros i Hi. unfold f4_plus. rewrite N.lxor_spec, (pow2_bits_high Ha Hi), (pow2_bits_high Hb Hi). reflexivity. }
  destruct (f4_mul_block_total (f4_plus x y) Ha) as (s1 & E6 & H6).
  destruct (f4_mul_block_total x Hab) as (s2 & E7 & H7).
  destruct (f4_mul_block_total x L4) as (s3 & E8 & H8).
  exists xa, ya, xb, ab, xab. repeat (split; [assumption|]).
  pose proof (f4_mul_block_lt Hx E1). pose proof (f4_mul_block_lt Hy E2). pose proof (f4_mul_block_lt Hx E3).
  pose proof (f4_mul_block_lt H E5).
  assert (Hxy : (f4_plus x y < 2 ^ 128)%N) by (apply xor_lt128; auto).
  pose proof (f4_mul_block_lt Hxy E6). pose proof (f4_mul_block_lt Hx E7). pose proof (f4_mul_block_lt Hx E8).
  split; [|split].
  - rewrite E6. f_equal. apply gelem_ext; auto. { apply xor_lt128; auto. }
    intros t Ht. rewrite H6, !f4_plus_spec, H1, H2 by auto. rewrite !(F2 _ (gelem a 0)). apply F5.
  - rewrite E7. f_equal. apply gelem_ext; auto. { apply xor_lt128; auto. }
    intros t Ht. rewrite H7, !f4_plus_spec, H1, H3 by auto. apply F5.
  - rewrite E8. f_equal. apply gelem_ext; auto. intros t Ht. rewrite H8, H5, H1, H4 by auto. apply F1.
Qed.
