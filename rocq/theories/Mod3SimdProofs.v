From Verif Require Import Base Words Mod3Tables Mod3Model Mod3Spec Mod3Proofs Mod3SimdModel Mod3SimdSpec.
Local Open Scope N_scope.

(* ---------- 32 bit lanes ---------- *)
Lemma to_of z : (- 2 ^ 31 <= z < 2 ^ 31)%Z -> to_i32 (of_i32 z) = z.
Proof.
  intros H. unfold to_i32, of_i32.
  assert (E : (Z.of_N (Z.to_N (z mod 2 ^ 32)) = z mod 2 ^ 32)%Z)
    by (rewrite Z2N.id; auto; apply Z.mod_pos_bound; lia).
  destruct (N.ltb_spec (Z.to_N (z mod 2 ^ 32)) (2 ^ 31)) as [A | A]; rewrite E in *;
    assert (B := A); apply N2Z.inj_lt in B || apply N2Z.inj_le in B; rewrite E in B;
    change (Z.of_N (2 ^ 31)) with (2 ^ 31)%Z in B; clear A E;
    destruct (Z.lt_ge_cases z 0).
  - rewrite <- (Z_mod_plus_full z 1), Z.mod_small in B by lia. lia.
  - apply Z.mod_small. lia.
  - rewrite <- (Z_mod_plus_full z 1), Z.mod_small by lia. lia.
  - rewrite Z.mod_small in B by lia. lia.
Qed.

Lemma to_i32_range x : w32 x -> (- 2 ^ 31 <= to_i32 x < 2 ^ 31)%Z.
Proof.
  unfold w32, to_i32. intros H. change (2 ^ 32) with 4294967296 in H.
  destruct (N.ltb_spec x (2 ^ 31)) as [A | A]; change (2 ^ 31) with 2147483648 in A; lia.
Qed.

Lemma to_i32_mod x : (to_i32 x mod 2 ^ 32 = Z.of_N x mod 2 ^ 32)%Z.
Proof.
  unfold to_i32. destruct (x <? 2 ^ 31); [reflexivity|].
  rewrite <- (Z_mod_plus_full (Z.of_N x - 2 ^ 32) 1). f_equal. lia.
Qed.

Lemma to_i32_small x : x < 2 ^ 31 -> to_i32 x = Z.of_N x.
Proof. intros H. unfold to_i32. apply N.ltb_lt in H. rewrite H. reflexivity. Qed.

Lemma of_i32_N x : of_i32 (Z.of_N x) = x mod 2 ^ 32.
Proof.
  unfold of_i32. change (2 ^ 32)%Z with (Z.of_N (2 ^ 32)).
  rewrite <- N2Z.inj_mod, N2Z.id. reflexivity.
Qed.

Lemma of_i32_cong a b : (a mod 2 ^ 32 = b mod 2 ^ 32)%Z -> of_i32 a = of_i32 b.
Proof. unfold of_i32. congruence. Qed.

Lemma sllv1_ok sse x s : s < 32 -> sllv1 sse x s = Ok (N.shiftl x s mod 2 ^ 32).
Proof.
  intros Hs. unfold sllv1. destruct sse.
  - apply N.ltb_lt in Hs. rewrite Hs. reflexivity.
  - rewrite to_i32_small by (change (2 ^ 31) with 2147483648; lia).
    destruct (Z.leb_spec 0 (Z.of_N s)); [|lia]. destruct (Z.ltb_spec (Z.of_N s) 32); [|lia].
    cbn [andb]. f_equal. rewrite <- of_i32_N. apply of_i32_cong.
    rewrite N.shiftl_mul_pow2, N2Z.inj_mul, N2Z.inj_pow.
    rewrite Z.shiftl_mul_pow2 by lia. change (Z.of_N 2) with 2%Z.
    rewrite <- Zmult_mod_idemp_l, to_i32_mod, Zmult_mod_idemp_l. reflexivity.
Qed.

Lemma add1_ok sse x y : x < 2 ^ 30 -> y < 2 ^ 30 -> add1 sse x y = Ok ((x + y) mod 2 ^ 32).
Proof.
  intros Hx Hy. unfold add1. destruct sse; [reflexivity|].
  assert (2 ^ 30 = 1073741824) as E by reflexivity.
  rewrite !to_i32_small by (change (2 ^ 31) with 2147483648; lia).
  destruct (Z.leb_spec (- 2 ^ 31) (Z.of_N x + Z.of_N y)); [|lia].
  destruct (Z.ltb_spec (Z.of_N x + Z.of_N y) (2 ^ 31)); [|lia].
  cbn [andb]. rewrite <- N2Z.inj_add, of_i32_N. reflexivity.
Qed.

(* the shift down: j steps, as integers *)
Fixpoint srl_n (sse : bool) (j : nat) (x : N) : N :=
  match j with O => x | S j' => srli1 sse 8 (srl_n sse j' x) end.

Lemma srl_n_sse j x : srl_n true j x = N.shiftr x (8 * N.of_nat j).
Proof.
  induction j as [|j IH]; cbn [srl_n]; [rewrite N.shiftr_0_r; reflexivity|].
  rewrite IH. unfold srli1. rewrite N.shiftr_shiftr. f_equal. lia.
Qed.

Lemma srl_n_port j x : w32 x ->
  srl_n false j x = of_i32 (Z.shiftr (to_i32 x) (8 * Z.of_nat j)).
Proof.
  intros Hx. induction j as [|j IH]; cbn [srl_n].
  - rewrite Z.shiftr_0_r. rewrite <- (N.mod_small x (2 ^ 32)) at 1 by exact Hx.
    rewrite <- of_i32_N. apply of_i32_cong. symmetry. apply to_i32_mod.
  - rewrite IH. unfold srli1. rewrite to_of.
    + rewrite Z.shiftr_shiftr by lia. f_equal. f_equal. lia.
    + pose proof (to_i32_range Hx) as R. rewrite Z.shiftr_div_pow2 by lia.
      assert (P : (0 < 2 ^ (8 * Z.of_nat j))%Z) by (apply Z.pow_pos_nonneg; lia).
      revert R P. generalize (to_i32 x) as t, (2 ^ (8 * Z.of_nat j))%Z as p. clear. intros t p R P.
      split.
      * apply Z.div_le_lower_bound; [lia|]. nia.
      * apply Z.div_lt_upper_bound; [lia|]. nia.
Qed.

(* the low byte is the same in both versions *)
Lemma srl_n_byte sse j x : w32 x -> (j < 4)%nat ->
  N.land (srl_n sse j x) 255 = N.land (N.shiftr x (8 * N.of_nat j)) 255.
Proof.
  intros Hx Hj. destruct sse; [rewrite srl_n_sse; reflexivity|].
  rewrite srl_n_port by auto. apply N.bits_inj. intros i. rewrite !N.land_spec.
  destruct (N.lt_ge_cases i 8) as [Hi | Hi].
  2:{ rewrite (pow2_bits_high (a := 255) (w := 8)) by (reflexivity || auto). rewrite !andb_false_r. reflexivity. }
  f_equal. unfold of_i32.
  assert (E : forall z m, N.testbit (Z.to_N (z mod 2 ^ 32)) m = Z.testbit (z mod 2 ^ 32) (Z.of_N m)).
  { intros z m. rewrite <- Z.testbit_of_N, Z2N.id; [reflexivity|apply Z.mod_pos_bound; lia]. }
  rewrite E. rewrite Z.mod_pow2_bits_low by lia. rewrite Z.shiftr_spec by lia.
  rewrite N.shiftr_spec' . rewrite <- Z.testbit_of_N.
  replace (Z.of_N (i + 8 * N.of_nat j)) with (Z.of_N i + 8 * Z.of_nat j)%Z by lia.
  rewrite <- (Z.mod_pow2_bits_low (to_i32 x) 32) by lia. rewrite to_i32_mod.
  rewrite Z.mod_pow2_bits_low by lia. reflexivity.
Qed.

(* ---------- vectors in functional form ---------- *)
Local Close Scope N_scope.
Definition vec (f : nat -> N) : s256 := map f (seq 0 8).

Lemma get_vec f i : i < 8 -> get (vec f) i = Ok (f i).
Proof. intros H. apply get_Ok. unfold vec. rewrite nth_error_map, nth_error_seq. apply Nat.ltb_lt in H. rewrite H. reflexivity. Qed.

Lemma vec_ext f g : (forall i, i < 8 -> f i = g i) -> vec f = vec g.
Proof. intros H. apply map_ext_in. intros i Hi. apply H. apply in_seq in Hi. lia. Qed.

(* an in-place loop that writes a value to every place *)
Lemma fill_loop A (n : nat) (f : nat -> A) (body : nat -> list A -> outcome (list A)) (l : list A) :
  length l = n ->
  (forall i r, i < n -> length r = n -> (forall k, i <= k -> nth_error r k = nth_error l k) -> body i r = Ok (upd r i (f i))) ->
  forN 0 n body l = Ok (map f (seq 0 n)).
Proof.
  intros HL H.
  destruct (forN_inv (P := fun i r => length r = n /\ (forall k, k < i -> nth_error r k = Some (f k)) /\
     (forall k, i <= k -> nth_error r k = nth_error l k)) (f := body) (n := n) (i := 0) (s := l))
    as (r & E & L' & H1 & H2).
  - split; auto. split; auto. intros; lia.
  - intros i r Hi (L & A1 & A2). exists (upd r i (f i)). split; [apply H; auto; lia|].
    rewrite upd_length. split; auto. split; intros k Hk.
    + destruct (Nat.eq_dec i k) as [<-|Hne]; [apply nth_error_upd_eq; lia|].
      rewrite nth_error_upd_ne by auto. apply A1. lia.
    + rewrite nth_error_upd_ne by lia. apply A2. lia.
  - rewrite E. f_equal. apply nth_error_ext_len; [rewrite map_length, seq_length; auto|].
    intros k Hk. rewrite H1 by lia. rewrite nth_error_map, nth_error_seq.
    destruct (Nat.ltb_spec k n); [reflexivity|lia].
Qed.

Lemma lanes2_ok op f g h : (forall k, k < 8 -> op (f k) (g k) = Ok (h k)) ->
  lanes2 op (vec f) (vec g) = Ok (vec h).
Proof.
  intros H. unfold lanes2. apply fill_loop; [reflexivity|].
  intros i r Hi HL _. rewrite !get_vec by auto. cbn [bind]. rewrite H by auto. cbn [bind].
  apply set_lt. lia.
Qed.

Lemma vec_map2 op f g : map2 op (vec f) (vec g) = vec (fun k => op (f k) (g k)).
Proof. reflexivity. Qed.

Lemma set32_vec v : s_set32 v = vec (fun _ => v).
Proof. reflexivity. Qed.

Lemma testz_vec f g : (forall k, k < 8 -> N.land (f k) (g k) = 0%N) -> s_testz (vec f) (vec g) = true.
Proof.
  intros H. unfold s_testz, s_and. rewrite vec_map2. unfold vec. apply forallb_forall.
  intros x Hx. apply in_map_iff in Hx. destruct Hx as (k & <- & Hk). apply in_seq in Hk.
  rewrite H by lia. reflexivity.
Qed.

Lemma gather_vec tab f h : (forall k, k < 8 -> (f k < 256)%N /\ nth_error tab (N.to_nat (f k)) = Some (h k)) ->
  s_gather tab (vec f) = Ok (vec h).
Proof.
  intros H. unfold s_gather. apply lanes2_ok. intros k Hk. destruct (H k Hk) as [A B].
  unfold gather1. rewrite to_i32_small by (change (2 ^ 31)%N with 2147483648%N; lia).
  destruct (Z.leb_spec 0 (Z.of_N (f k))); [|lia].
  replace (Z.to_nat (Z.of_N (f k))) with (N.to_nat (f k)) by lia. apply get_Ok. exact B.
Qed.

(* ---------- one lane ---------- *)
Lemma entry_small b v lb mb : entry_ok b v lb mb -> (v = 0 \/ v = 5)%N.
Proof. intros [(_ & -> & _)|(_ & -> & _)]; auto. Qed.

Lemma entry_disj1 b v lb mb x : entry_ok b v lb mb -> N.land (N.shiftl x v mod 2 ^ 32) lb = 0%N.
Proof.
  intros [(_ & -> & Hl & _)|(_ & -> & -> & _)]; [|apply N.land_0_r].
  apply N.bits_inj_0. intros i. rewrite N.land_spec. destruct (N.lt_ge_cases i 5).
  - rewrite N.mod_pow2_bits_low by lia. rewrite N.shiftl_spec_low by lia. reflexivity.
  - rewrite (pow2_bits_high (a := lb) (w := 5)) by auto. apply andb_false_r.
Qed.

Lemma entry_disj2 b v lb mb x : entry_ok b v lb mb ->
  N.land (N.lor (N.shiftl x v mod 2 ^ 32) lb) mb = 0%N.
Proof.
  intros [(Hb & -> & Hl & Hm & HT)|(_ & -> & -> & ->)]; [|apply N.land_0_r].
  apply N.bits_inj_0. intros i. rewrite N.land_spec, N.lor_spec. destruct (N.lt_ge_cases i 5) as [Hi|Hi].
  - rewrite N.mod_pow2_bits_low by lia. rewrite N.shiftl_spec_low by lia. cbn [orb].
    specialize (HT (N.to_nat i) ltac:(lia)). rewrite Nnat.N2Nat.id in HT.
    assert (V : tvalid mb lb i) by (apply trit_lt_valid; rewrite HT; apply digit3_lt).
    unfold tvalid in V. rewrite andb_comm. exact V.
  - rewrite (pow2_bits_high (a := mb) (w := 5)) by auto. apply andb_false_r.
Qed.

(* ---------- one pass ---------- *)
Definition mk (F : nat -> N) : list s256 := map (fun j => vec (fun k => F (8 * j + k))) (seq 0 4).

Lemma get_mk F j : j < 4 -> get (mk F) j = Ok (vec (fun k => F (8 * j + k))).
Proof. intros H. apply get_Ok. unfold mk. rewrite nth_error_map, nth_error_seq. apply Nat.ltb_lt in H. rewrite H. reflexivity. Qed.

Definition lane0 := Lane 0 0 0.
(* the vectors holding these lanes *)
Definition sums_of (ls : list lane) : sums :=
  let at_ f := mk (fun q => f (nth q ls lane0)) in Sums (at_ lLsb) (at_ lMsb) (at_ lSize).

Lemma lane_at_mk F q : q < 32 -> lane_at (mk F) q = F q.
Proof.
  intros H. unfold lane_at.
  assert (q / 8 < 4) by (apply Nat.div_lt_upper_bound; lia).
  assert (q mod 8 < 8) by (apply Nat.mod_upper_bound; lia).
  erewrite (nth_error_nth (mk F)) by (apply get_Ok, get_mk; auto).
  erewrite (nth_error_nth (vec _)) by (apply get_Ok, get_vec; auto).
  f_equal. symmetry. apply Nat.div_mod. lia.
Qed.

Lemma sums_lanes_of ls : length ls = 32 -> sums_lanes (sums_of ls) = ls.
Proof.
  intros H. apply nth_error_ext_len; [unfold sums_lanes; rewrite map_length, seq_length; auto|].
  intros q Hq. unfold sums_lanes in *. rewrite map_length, seq_length in Hq.
  rewrite nth_error_map, nth_error_seq. destruct (Nat.ltb_spec q 32); [|lia].
  cbn [option_map plus]. unfold sums_of. cbn [bLsb bMsb bSize]. rewrite !lane_at_mk by auto.
  rewrite (nth_error_nth_lt (l := ls) (i := q) lane0) by lia. f_equal.
  destruct (nth q ls lane0). reflexivity.
Qed.

Definition ent (tab : list N) (b : N) : N := nth (N.to_nat b) tab 0%N.

(* the lane after one byte *)
Definition stepped (ln : lane) (b : N) : lane :=
  Lane (N.lor (N.shiftl (lLsb ln) (ent mod3TableV b) mod 2 ^ 32) (ent mod3TableLsb b))
       (N.lor (N.shiftl (lMsb ln) (ent mod3TableV b) mod 2 ^ 32) (ent mod3TableMsb b))
       ((lSize ln + ent mod3TableV b) mod 2 ^ 32)%N.

Lemma ent_ok b : (b < 256)%N ->
  nth_error mod3TableV (N.to_nat b) = Some (ent mod3TableV b) /\
  nth_error mod3TableLsb (N.to_nat b) = Some (ent mod3TableLsb b) /\
  nth_error mod3TableMsb (N.to_nat b) = Some (ent mod3TableMsb b) /\
  entry_ok (N.to_nat b) (ent mod3TableV b) (ent mod3TableLsb b) (ent mod3TableMsb b).
Proof.
  intros Hb. destruct (lookup_tables_ok (b := N.to_nat b)) as (v & lb & mb & E1 & E2 & E3 & HE); [lia|].
  unfold ent. rewrite (nth_error_nth _ _ 0%N E1), (nth_error_nth _ _ 0%N E2), (nth_error_nth _ _ 0%N E3). auto.
Qed.

Lemma lane_byte_stepped ln b : (b < 256)%N -> lane_byte ln b = Ok (stepped ln b).
Proof.
  intros Hb. destruct (ent_ok Hb) as (E1 & E2 & E3 & _). unfold lane_byte, get. rewrite E1, E2, E3. reflexivity.
Qed.

Definition passed (rnd : N -> N) (s : smp) (ls : list lane) : list lane :=
  map (fun q => stepped (nth q ls lane0) (unit_byte rnd s (q / 8) (q mod 8))) (seq 0 32).

Definition smp_next (s : smp) : smp := Smp (sIdx s) (sBase1 s) (sPos1 s + 1) (sBase2 s) (sPos2 s).

Lemma sample_pass_fun rnd s ls : length ls = 32 ->
  sample_pass rnd (s, ls) = Ok (smp_next (refill1 s), passed rnd (refill1 s) ls).
Proof.
  intros HL. unfold sample_pass. cbn [fst snd].
  rewrite (fill_loop (f := fun q => stepped (nth q ls lane0) (unit_byte rnd (refill1 s) (q / 8) (q mod 8)))); auto.
  intros i r Hi Hr Hk. unfold get. rewrite Hk by lia.
  rewrite (nth_error_nth_lt (l := ls) (i := i) lane0) by lia. cbn [bind].
  rewrite lane_byte_stepped by apply byte_of_lt. cbn [bind]. apply set_lt. lia.
Qed.

Lemma unit_word_byte rnd s sse j k : j < 4 -> k < 8 ->
  N.land (srl_n sse j (nth k (unit_load rnd s) 0%N)) 255 = unit_byte rnd s j k.
Proof.
  intros Hj Hk. unfold unit_load.
  rewrite (nth_indep _ 0%N (N.land (N.shiftr (rnd (sBase1 s + 2 * sPos1 s + N.of_nat (0 / 4))%N)
                                 (32 * N.of_nat (0 mod 4))) (N.ones 32))) by (rewrite map_length, seq_length; auto).
  rewrite (map_nth (fun k => N.land (N.shiftr (rnd (sBase1 s + 2 * sPos1 s + N.of_nat (k / 4))%N)
                                 (32 * N.of_nat (k mod 4))) (N.ones 32))).
  rewrite seq_nth by auto. cbn [plus].
  rewrite srl_n_byte; auto.
  2:{ unfold w32. rewrite N.land_ones. apply N.mod_lt. discriminate. }
  unfold unit_byte, byte_of. set (blk := rnd _). generalize (k mod 4) as t. intros t.
  apply N.bits_inj. intros i. rewrite !N.land_spec.
  destruct (N.lt_ge_cases i 8) as [Hi | Hi].
  2:{ rewrite (pow2_bits_high (a := 255) (w := 8)) by (reflexivity || auto). rewrite !andb_false_r. reflexivity. }
  f_equal. rewrite !N.shiftr_spec', N.land_spec, N.shiftr_spec', N.ones_spec_low by lia.
  rewrite andb_true_r. f_equal. lia.
Qed.

Lemma lookups_ok sse rnd s : exists base,
  lookups sse (unit_load rnd s) = Ok (base,
    map (fun j => let at_ tab := vec (fun k => ent tab (unit_byte rnd s j k)) in
           (at_ mod3TableV, (at_ mod3TableLsb, at_ mod3TableMsb))) (seq 0 4)).
Proof.
  unfold lookups.
  set (F := fun j => let at_ tab := vec (fun k => ent tab (unit_byte rnd s j k)) in
           (at_ mod3TableV, (at_ mod3TableLsb, at_ mod3TableMsb))).
  destruct (forN_inv (P := fun j (st : s256 * list looked) =>
      fst st = vec (fun k => srl_n sse j (nth k (unit_load rnd s) 0%N)) /\ snd st = map F (seq 0 j))
    (f := fun _ st =>
      let indexes := s_and (fst st) (s_set32 255) in
      let base' := s_srli sse 8 (fst st) in
      do v <- s_gather mod3TableV indexes;
      do l <- s_gather mod3TableLsb indexes;
      do m <- s_gather mod3TableMsb indexes;
      Ok (base', snd st ++ [(v, (l, m))])) (n := 4) (i := 0) (s := (unit_load rnd s, []))) as ([b l] & E & H1 & H2).
  - cbn [fst snd]. split; [|reflexivity]. reflexivity.
  - intros j [b l] Hj [A B]. cbn [fst snd] in *. subst b l. cbv zeta.
    unfold s_and. rewrite set32_vec, vec_map2.
    rewrite (vec_ext (g := unit_byte rnd s j)) by (intros k Hk; apply unit_word_byte; lia).
    pose proof (fun k => ent_ok (byte_of_lt (rnd (sBase1 s + 2 * sPos1 s + N.of_nat (k / 4))%N) (N.of_nat (4 * (k mod 4) + j)))) as HE.
    rewrite !(gather_vec (h := fun k => ent mod3TableV (unit_byte rnd s j k))) by
      (intros k Hk; split; [apply byte_of_lt|apply HE]).
    rewrite !(gather_vec (h := fun k => ent mod3TableLsb (unit_byte rnd s j k))) by
      (intros k Hk; split; [apply byte_of_lt|apply HE]).
    rewrite !(gather_vec (h := fun k => ent mod3TableMsb (unit_byte rnd s j k))) by
      (intros k Hk; split; [apply byte_of_lt|apply HE]).
    cbn [bind]. eexists. split; [reflexivity|]. cbn [fst snd]. split.
    + unfold s_srli, vec. rewrite map_map. apply map_ext. intros k. rewrite Nat.add_1_r. reflexivity.
    + rewrite Nat.add_1_r, seq_S, map_app. reflexivity.
  - cbn [fst snd] in *. exists b. cbn [plus] in H2. rewrite H2 in E. exact E.
Qed.

Lemma shift_in_ok sse (B : nat -> N) (L : nat -> lane) :
  (forall k, k < 8 -> (B k < 256)%N /\ (lSize (L k) < 2 ^ 30)%N) ->
  shift_in sse (vec (fun k => ent mod3TableV (B k)), (vec (fun k => ent mod3TableLsb (B k)), vec (fun k => ent mod3TableMsb (B k))))
    (vec (fun k => lLsb (L k))) (vec (fun k => lMsb (L k))) (vec (fun k => lSize (L k))) =
  Ok (vec (fun k => lLsb (stepped (L k) (B k))), (vec (fun k => lMsb (stepped (L k) (B k))), vec (fun k => lSize (stepped (L k) (B k))))).
Proof.
  intros H. unfold shift_in. cbn [fst snd].
  assert (V : forall k, k < 8 -> (ent mod3TableV (B k) < 32)%N).
  { intros k Hk. destruct (H k Hk) as [Hb _]. destruct (ent_ok Hb) as (_ & _ & _ & E).
    destruct (entry_small E) as [-> | ->]; reflexivity. }
  unfold s_sllv. rewrite (lanes2_ok (h := fun k => (N.shiftl (lLsb (L k)) (ent mod3TableV (B k)) mod 2 ^ 32)%N))
    by (intros k Hk; apply sllv1_ok; auto).
  cbn [bind]. rewrite testz_vec.
  2:{ intros k Hk. destruct (H k Hk) as [Hb _]. destruct (ent_ok Hb) as (_ & _ & _ & E). exact (entry_disj1 _ E). }
  unfold s_assert at 1. cbn [bind].
  rewrite (lanes2_ok (h := fun k => (N.shiftl (lMsb (L k)) (ent mod3TableV (B k)) mod 2 ^ 32)%N))
    by (intros k Hk; apply sllv1_ok; auto).
  cbn [bind]. unfold s_or. rewrite !vec_map2. rewrite testz_vec.
  2:{ intros k Hk. destruct (H k Hk) as [Hb _]. destruct (ent_ok Hb) as (_ & _ & _ & E). exact (entry_disj2 _ E). }
  unfold s_assert. cbn [bind]. unfold s_add.
  rewrite (lanes2_ok (h := fun k => ((lSize (L k) + ent mod3TableV (B k)) mod 2 ^ 32)%N)).
  2:{ intros k Hk. apply add1_ok; [apply H; auto|]. eapply N.lt_trans; [apply V; auto|reflexivity]. }
  cbn [bind]. reflexivity.
Qed.

Lemma passed_length rnd s ls : length (passed rnd s ls) = 32.
Proof. unfold passed. rewrite map_length, seq_length. reflexivity. Qed.

Lemma passed_nth rnd s ls q : q < 32 ->
  nth q (passed rnd s ls) lane0 = stepped (nth q ls lane0) (unit_byte rnd s (q / 8) (q mod 8)).
Proof.
  intros Hq. apply nth_error_nth. unfold passed. rewrite nth_error_map, nth_error_seq.
  apply Nat.ltb_lt in Hq. rewrite Hq. reflexivity.
Qed.

(* both versions of a pass act like the lane model *)
Lemma simd_pass_fun sse rnd s ls : length ls = 32 ->
  (forall ln, In ln ls -> (lSize ln < 2 ^ 30)%N) ->
  simd_pass sse rnd (s, sums_of ls) = Ok (smp_next (refill1 s), sums_of (passed rnd (refill1 s) ls)).
Proof.
  intros HL HS. unfold simd_pass. cbn [fst snd].
  destruct (lookups_ok sse rnd (refill1 s)) as [base ->]. cbn [bind snd].
  set (s1 := refill1 s). set (new := passed rnd s1 ls).
  set (mix := fun i q => if q <? 8 * i then nth q new lane0 else nth q ls lane0).
  set (SM := fun i => Sums (mk (fun q => lLsb (mix i q))) (mk (fun q => lMsb (mix i q))) (mk (fun q => lSize (mix i q)))).
  assert (MK : forall i f, i < 4 ->
    upd (mk (fun q => f (mix i q))) i (vec (fun k => f (nth (8 * i + k) new lane0))) = mk (fun q => f (mix (i + 1) q))).
  { intros i f Hi. apply nth_error_ext_len; [rewrite upd_length; reflexivity|].
    intros j Hj. rewrite upd_length in Hj. unfold mk in Hj at 1. rewrite map_length, seq_length in Hj.
    destruct (Nat.eq_dec i j) as [<-|Hne].
    - rewrite nth_error_upd_eq by (unfold mk; rewrite map_length, seq_length; auto).
      symmetry. rewrite (proj1 (get_Ok _ _ _) (get_mk _ Hi)). f_equal. apply vec_ext. intros k Hk.
      unfold mix. destruct (Nat.ltb_spec (8 * i + k) (8 * (i + 1))); [reflexivity|lia].
    - rewrite nth_error_upd_ne by auto. rewrite !(proj1 (get_Ok _ _ _) (get_mk _ Hj)). f_equal.
      apply vec_ext. intros k Hk. unfold mix.
      destruct (Nat.ltb_spec (8 * j + k) (8 * i)), (Nat.ltb_spec (8 * j + k) (8 * (i + 1))); auto; lia. }
  match goal with |- context [forN 0 4 ?f _] => set (body := f) end.
  destruct (forN_inv (P := fun i b => b = SM i) (f := body) (n := 4) (i := 0) (s := sums_of ls)) as (b & E & ->).
  - reflexivity.
  - intros i b Hi ->. assert (Hi4 : i < 4) by lia. unfold body.
    eexists. split; [|reflexivity].
    unfold get at 1. rewrite nth_error_map, nth_error_seq. destruct (Nat.ltb_spec i 4) as [_|]; [|lia].
    cbn [option_map plus bind]. unfold SM at 1 2 3. cbn [bLsb bMsb bSize]. rewrite !get_mk by auto. cbn [bind].
    assert (MX : forall k, k < 8 -> mix i (8 * i + k) = nth (8 * i + k) ls lane0).
    { intros k Hk. unfold mix. destruct (Nat.ltb_spec (8 * i + k) (8 * i)); [lia|reflexivity]. }
    rewrite !(vec_ext (f := fun k => lLsb (mix i (8 * i + k))) (g := fun k => lLsb (nth (8 * i + k) ls lane0)))
      by (intros k Hk; rewrite MX by auto; reflexivity).
    rewrite !(vec_ext (f := fun k => lMsb (mix i (8 * i + k))) (g := fun k => lMsb (nth (8 * i + k) ls lane0)))
      by (intros k Hk; rewrite MX by auto; reflexivity).
    rewrite !(vec_ext (f := fun k => lSize (mix i (8 * i + k))) (g := fun k => lSize (nth (8 * i + k) ls lane0)))
      by (intros k Hk; rewrite MX by auto; reflexivity).
    rewrite (shift_in_ok sse (B := unit_byte rnd s1 i) (L := fun k => nth (8 * i + k) ls lane0)).
    2:{ intros k Hk. split; [apply byte_of_lt|]. apply HS. apply nth_In. lia. }
    cbn [bind fst snd].
    assert (NW : forall k, k < 8 -> stepped (nth (8 * i + k) ls lane0) (unit_byte rnd s1 i k) = nth (8 * i + k) new lane0).
    { intros k Hk. unfold new. rewrite passed_nth by lia.
      replace ((8 * i + k) / 8) with i by (rewrite (Nat.mul_comm 8 i), Nat.div_add_l, (Nat.div_small k 8) by lia; lia).
      replace ((8 * i + k) mod 8) with k by (rewrite (Nat.mul_comm 8 i), Nat.add_comm, Nat.mod_add, Nat.mod_small by lia; lia).
      reflexivity. }
    unfold SM. cbn [bLsb bMsb bSize].
    rewrite !set_lt by (unfold mk; rewrite map_length, seq_length; auto). cbn [bind].
    rewrite <- !MK by auto.
    rewrite !(vec_ext (f := fun k => lLsb (stepped (nth (8 * i + k) ls lane0) (unit_byte rnd s1 i k))) (g := fun k => lLsb (nth (8 * i + k) new lane0)))
      by (intros k Hk; rewrite NW by auto; reflexivity).
    rewrite !(vec_ext (f := fun k => lMsb (stepped (nth (8 * i + k) ls lane0) (unit_byte rnd s1 i k))) (g := fun k => lMsb (nth (8 * i + k) new lane0)))
      by (intros k Hk; rewrite NW by auto; reflexivity).
    rewrite !(vec_ext (f := fun k => lSize (stepped (nth (8 * i + k) ls lane0) (unit_byte rnd s1 i k))) (g := fun k => lSize (nth (8 * i + k) new lane0)))
      by (intros k Hk; rewrite NW by auto; reflexivity).
    reflexivity.
  - rewrite E. cbn [bind]. reflexivity.
Qed.

(* eight passes *)
Lemma simd_passes sse rnd s : exists s' ls,
  forN 0 8 (fun _ st => sample_pass rnd st) (s, repeat (Lane 0 0 0) 32) = Ok (s', ls) /\
  length ls = 32 /\
  forN 0 8 (fun _ st => simd_pass sse rnd st) (s, sums_zero) = Ok (s', sums_of ls).
Proof.
  destruct (forN_sim (R := fun k (a b : smp * _) => lanes_inv k (snd a) /\ b = (fst a, sums_of (snd a)))
    (f := fun _ st => sample_pass rnd st) (g := fun _ st => simd_pass sse rnd st)
    (n := 8) (i := 0) (s := (s, repeat (Lane 0 0 0) 32)) (t := (s, sums_zero)))
    as ([s' ls] & b & E1 & E2 & HI & ->).
  - cbn [fst snd]. split; [|reflexivity]. split; [apply repeat_length|].
    intros q ln Hq. exists []. split; [auto|]. apply nth_error_In, repeat_spec in Hq. subst. apply lane_inv_init.
  - intros k [s1 l1] b Hk [HI ->]. cbn [fst snd] in *. pose proof HI as [HL HA].
    destruct (sample_pass_ok rnd s1 HI) as (s2 & l2 & E & H2); [lia|].
    exists (s2, l2), (s2, sums_of l2). split; auto. split.
    + rewrite simd_pass_fun; auto.
      * rewrite sample_pass_fun in E by auto. inversion E; subst. reflexivity.
      * intros ln Hln. apply In_nth_error in Hln. destruct Hln as [q Hq].
        destruct (HA _ _ Hq) as (acc & Ha & (_ & Hsz & _)). rewrite Hsz.
        change (2 ^ 30)%N with 1073741824%N. lia.
    + cbn [fst snd]. split; auto. replace (k + 1) with (S k) by lia. exact H2.
  - exists s', ls. cbn [fst snd] in *. split; auto. split; auto. apply HI.
Qed.

Lemma simd_group_eq sse fuel rnd n g s ms ls :
  length ms = Nat.min (8 * g) n -> length ls = Nat.min (8 * g) n -> 
  simd_group sse fuel rnd n n g (s, (ms, ls)) = sample_group fuel rnd n g (s, (ms, ls)).
Proof.
  intros L1 L2. unfold simd_group, sample_group. cbn [fst snd].
  destruct (simd_passes sse rnd s) as (s' & l & E1 & HL & E2).
  rewrite E1, E2. cbn [bind fst snd]. rewrite sums_lanes_of by auto.
  destruct (sample_fix fuel rnd (s', l)) as [r| | |]; cbn [bind]; auto.
  unfold s_assert. rewrite L1, L2. destruct (Nat.leb_spec (Nat.min (8 * g) n + Nat.min (n - 8 * g) 8) n); [|lia].
  reflexivity.
Qed.

(* the whole function, in both versions *)
Lemma simd_eq sse fuel rnd idx n n' :
  sampleMod3Simd sse fuel rnd idx n n' = sampleMod3Lookup fuel rnd idx n n'.
Proof.
  unfold sampleMod3Simd, sampleMod3Lookup. destruct (Nat.eqb_spec n n') as [<-|Hne]; [|reflexivity].
  cbn [negb throw_if bind].
  assert (G : forall m k (st : smp * (list N * list N)), k + m = (n + 7) / 8 ->
    length (fst (snd st)) = Nat.min (8 * k) n -> length (snd (snd st)) = Nat.min (8 * k) n ->
    forN k m (simd_group sse fuel rnd n n) st = forN k m (sample_group fuel rnd n) st).
  { induction m as [|m IH]; intros k [s [ms ls]] Hk L1 L2; cbn [forN]; [reflexivity|].
    cbn [fst snd] in L1, L2. rewrite simd_group_eq by auto.
    destruct (sample_group fuel rnd n k (s, (ms, ls))) as [st'| | |] eqn:E; cbn [bind]; auto.
    unfold sample_group in E. cbn [fst snd] in E.
    destruct (sample_passes_ok rnd s) as (r & Er & _). rewrite Er in E. cbn [bind] in E.
    destruct (sample_fix fuel rnd r) as [r2| | |]; cbn [bind] in E; try discriminate.
    inversion E; subst st'. apply IH; cbn [fst snd]; [lia| |];
      rewrite app_length, map_length, seq_length; lia. }
  rewrite G by (cbn [fst snd length]; lia). reflexivity.
Qed.

(* ---------- when do the two versions of an operation agree ---------- *)
Lemma srli_agree x s : w32 x -> (0 < s < 32)%N ->
  (srli1 true s x = srli1 false s x <-> (x < 2 ^ 31)%N).
Proof.
  intros Hx Hs. unfold srli1, w32 in *.
  assert (D : (N.shiftr x s < 2 ^ 32)%N).
  { rewrite N.shiftr_div_pow2. apply N.div_lt_upper_bound; [apply N.pow_nonzero; discriminate|].
    eapply N.lt_le_trans; [exact Hx|]. rewrite <- (N.mul_1_l (2 ^ 32)) at 1.
    apply N.mul_le_mono_r. apply N.lt_pred_le. assert (2 ^ s <> 0)%N by (apply N.pow_nonzero; discriminate). lia. }
  split.
  - intros E. destruct (N.lt_ge_cases x (2 ^ 31)) as [H|H]; [exact H|exfalso].
    assert (B : N.testbit (N.shiftr x s) 31 = false).
    { rewrite N.shiftr_spec'. apply (pow2_bits_high (a := x) (w := 32)); auto. lia. }
    rewrite E in B. unfold of_i32 in B.
    assert (R : forall z m, N.testbit (Z.to_N (z mod 2 ^ 32)) m = Z.testbit (z mod 2 ^ 32) (Z.of_N m)).
    { intros z m. rewrite <- Z.testbit_of_N, Z2N.id; [reflexivity|apply Z.mod_pos_bound; lia]. }
    rewrite R, Z.mod_pow2_bits_low in B by lia. rewrite Z.shiftr_spec in B by lia.
    assert (NG : (- 2 ^ 31 <= to_i32 x < 0)%Z).
    { unfold to_i32. clear - H Hx.
      change (2 ^ 31)%N with 2147483648%N in *. change (2 ^ 32)%N with 4294967296%N in *.
      destruct (N.ltb_spec x 2147483648); lia. }
    assert (T : Z.testbit (to_i32 x) (Z.of_N 31 + Z.of_N s) = true).
    { replace (to_i32 x) with (- - to_i32 x)%Z by lia. rewrite Z.bits_opp by lia.
      apply negb_true_iff. destruct (Z.eq_dec (Z.pred (- to_i32 x)) 0) as [->|Hn]; [apply Z.bits_0|].
      apply Z.bits_above_log2; [lia|]. apply Z.log2_lt_pow2; [lia|].
      assert (2 ^ 31 <= 2 ^ (Z.of_N 31 + Z.of_N s))%Z by (apply Z.pow_le_mono_r; lia). lia. }
    congruence.
  - intros H. rewrite to_i32_small by auto. rewrite Z.shiftr_div_pow2 by lia.
    change 2%Z with (Z.of_N 2). rewrite <- N2Z.inj_pow, <- N2Z.inj_div, of_i32_N, <- N.shiftr_div_pow2.
    symmetry. apply N.mod_small. exact D.
Qed.

Lemma sllv_agree x s : w32 s ->
  (sllv1 true x s = sllv1 false x s <-> (s < 32)%N) /\ ((32 <= s)%N -> sllv1 false x s = UB).
Proof.
  intros Hs.
  assert (U : (32 <= s)%N -> sllv1 false x s = UB).
  { intros H. unfold sllv1. unfold to_i32. destruct (N.ltb_spec s (2 ^ 31)).
    - destruct (Z.ltb_spec (Z.of_N s) 32); [lia|]. rewrite andb_false_r. reflexivity.
    - destruct (Z.leb_spec 0 (Z.of_N s - 2 ^ 32)); [|reflexivity].
      unfold w32 in Hs. change (2 ^ 32)%N with 4294967296%N in Hs. lia. }
  split; [|exact U]. split.
  - intros E. destruct (N.lt_ge_cases s 32) as [H|H]; [exact H|]. rewrite U in E by auto. discriminate.
  - intros H. rewrite !sllv1_ok by auto. reflexivity.
Qed.

(* ---------- the counter of the table printers ---------- *)
Lemma digits3_nth s i j : j < s -> nth_error (digits3 s i) j = Some (N.of_nat (i / 3 ^ j mod 3)).
Proof. intros H. unfold digits3. rewrite nth_error_map, nth_error_seq. apply Nat.ltb_lt in H. rewrite H. reflexivity. Qed.

Lemma digits3_length s i : length (digits3 s i) = s.
Proof. unfold digits3. rewrite map_length, seq_length. reflexivity. Qed.

(* in the middle of the carry loop: the digits below j are those of i + 1, digit j is that of
   i plus the carry *)
Definition carry (j i : nat) : nat := (i + 1) / 3 ^ j - i / 3 ^ j.

Lemma pow3_pos j : 0 < 3 ^ j.
Proof. apply Nat.neq_0_lt_0, Nat.pow_nonzero. lia. Qed.

Lemma succ_div i p : 0 < p -> (i + 1) / p = i / p \/ (i + 1) / p = i / p + 1.
Proof.
  intros H. pose proof (Nat.div_mod i p ltac:(lia)). pose proof (Nat.mod_upper_bound i p ltac:(lia)).
  destruct (Nat.eq_dec (i mod p + 1) p).
  - right. symmetry. apply Nat.div_unique with 0; lia.
  - left. symmetry. apply Nat.div_unique with (i mod p + 1); lia.
Qed.

Lemma carry_step i j :
  let d := i / 3 ^ j mod 3 + carry j i in
  d <= 3 /\ d mod 3 = (i + 1) / 3 ^ j mod 3 /\ carry (j + 1) i = if d =? 3 then 1 else 0.
Proof.
  cbv zeta. unfold carry.
  assert (E : forall x, x / 3 ^ (j + 1) = x / 3 ^ j / 3).
  { intros x. rewrite Nat.pow_add_r, Nat.div_div by (pose proof (pow3_pos j); lia). reflexivity. }
  rewrite !E. pose proof (succ_div i (pow3_pos j)) as H.
  generalize dependent ((i + 1) / 3 ^ j). generalize (i / 3 ^ j). clear. intros a b H.
  pose proof (Nat.div_mod a 3 ltac:(lia)). pose proof (Nat.mod_upper_bound a 3 ltac:(lia)).
  pose proof (Nat.div_mod b 3 ltac:(lia)). pose proof (Nat.mod_upper_bound b 3 ltac:(lia)).
  destruct (Nat.eqb_spec (a mod 3 + (b - a)) 3) as [Q|Q].
  - split; [lia|]. split; [|lia]. rewrite Q. change (3 mod 3) with 0. lia.
  - split; [lia|]. split; [|lia]. rewrite Nat.mod_small by lia. lia.
Qed.

Lemma vals_next_ok s i : 0 < s -> vals_next s (digits3 s i) = Ok (digits3 s (i + 1)).
Proof.
  intros Hs. unfold vals_next. unfold get at 1. rewrite digits3_nth by auto. cbn [bind].
  rewrite set_lt by (rewrite digits3_length; auto). cbn [bind].
  match goal with |- forN 0 s ?f _ = _ => set (body := f) end.
  destruct (forN_inv (P := fun j v => length v = s /\
     (forall k, k < j -> nth_error v k = nth_error (digits3 s (i + 1)) k) /\
     (j < s -> nth_error v j = Some (N.of_nat (i / 3 ^ j mod 3 + carry j i))) /\
     (forall k, j < k -> nth_error v k = nth_error (digits3 s i) k))
    (f := body) (n := s) (i := 0) (s := upd (digits3 s i) 0 (N.of_nat (i / 3 ^ 0 mod 3) + 1)%N))
    as (v & E & L & H1 & _).
  - rewrite upd_length, digits3_length. split; auto. split; [intros; lia|]. split.
    + intros _. rewrite nth_error_upd_eq by (rewrite digits3_length; auto). f_equal.
      unfold carry. cbn [Nat.pow]. rewrite !Nat.div_1_r. lia.
    + intros k Hk. rewrite nth_error_upd_ne by lia. reflexivity.
  - intros j v Hj (L & A1 & A2 & A3). assert (Hjs : j < s) by lia. specialize (A2 Hjs).
    destruct (carry_step i j) as (C1 & C2 & C3). cbv zeta in *.
    set (d := i / 3 ^ j mod 3 + carry j i) in *.
    unfold body, get. rewrite A2. cbn [bind].
    assert (DM : (N.of_nat d mod 3 = N.of_nat ((i + 1) / 3 ^ j mod 3))%N).
    { rewrite <- C2. rewrite Nnat.Nat2N.inj_mod. reflexivity. }
    assert (D3 : (N.of_nat d =? 3)%N = (d =? 3)).
    { destruct (N.eqb_spec (N.of_nat d) 3), (Nat.eqb_spec d 3); auto; lia. }
    rewrite D3. destruct (Nat.eqb_spec j (s - 1)) as [Hl|Hl].
    + rewrite andb_false_r. cbn [bind negb]. rewrite A2. cbn [bind]. rewrite set_lt by lia.
      eexists. split; [reflexivity|]. rewrite upd_length. split; auto. split; [|split].
      * intros k Hk. destruct (Nat.eq_dec j k) as [<-|Hne].
        -- rewrite nth_error_upd_eq by lia. rewrite digits3_nth by lia. rewrite DM. reflexivity.
        -- rewrite nth_error_upd_ne by auto. apply A1. lia.
      * intros; lia.
      * intros k Hk. rewrite nth_error_upd_ne by lia. apply A3. lia.
    + cbn [negb]. rewrite andb_true_r. destruct (Nat.eqb_spec d 3) as [Hd|Hd].
      * rewrite A3 by lia. rewrite digits3_nth by lia. cbn [bind]. rewrite set_lt by lia. cbn [bind].
        rewrite nth_error_upd_ne by lia. rewrite A2. cbn [bind]. rewrite set_lt by (rewrite upd_length; lia).
        eexists. split; [reflexivity|]. rewrite !upd_length. split; auto. split; [|split].
        -- intros k Hk. destruct (Nat.eq_dec j k) as [<-|Hne].
           ++ rewrite nth_error_upd_eq by (rewrite upd_length; lia). rewrite digits3_nth by lia. rewrite DM. reflexivity.
           ++ rewrite !nth_error_upd_ne by lia. apply A1. lia.
        -- intros Hn. rewrite nth_error_upd_ne by lia. rewrite nth_error_upd_eq by lia. rewrite C3. f_equal. lia.
        -- intros k Hk. rewrite !nth_error_upd_ne by lia. apply A3. lia.
      * cbn [bind]. rewrite A2. cbn [bind]. rewrite set_lt by lia.
        eexists. split; [reflexivity|]. rewrite upd_length. split; auto. split; [|split].
        -- intros k Hk. destruct (Nat.eq_dec j k) as [<-|Hne].
           ++ rewrite nth_error_upd_eq by lia. rewrite digits3_nth by lia. rewrite DM. reflexivity.
           ++ rewrite nth_error_upd_ne by lia. apply A1. lia.
        -- intros Hn. rewrite nth_error_upd_ne by lia. rewrite A3 by lia. rewrite digits3_nth by lia.
           rewrite C3, Nat.add_0_r. reflexivity.
        -- intros k Hk. rewrite nth_error_upd_ne by lia. apply A3. lia.
  - rewrite E. f_equal. apply nth_error_ext_len; [rewrite digits3_length; auto|].
    intros k Hk. apply H1. lia.
Qed.

Lemma counter_ok s i : 0 < s -> iter_o (vals_next s) i (repeat 0%N s) = Ok (digits3 s i).
Proof.
  intros Hs. induction i as [|i IH]; cbn [iter_o].
  - f_equal. apply nth_error_ext_len; [rewrite repeat_length, digits3_length; auto|].
    intros k Hk. rewrite repeat_length in Hk. rewrite nth_error_repeat, digits3_nth by auto.
    apply Nat.ltb_lt in Hk. rewrite Hk. rewrite Nat.div_0_l by (pose proof (pow3_pos k); lia). reflexivity.
  - rewrite IH. cbn [bind]. rewrite vals_next_ok by auto. f_equal. f_equal. lia.
Qed.

(* the counter is back at zero after 3^s steps *)
Lemma counter_wraps s : 0 < s -> digits3 s (3 ^ s) = repeat 0%N s.
Proof.
  intros Hs. apply nth_error_ext_len; [rewrite repeat_length, digits3_length; auto|].
  intros k Hk. rewrite digits3_length in Hk. rewrite nth_error_repeat, digits3_nth by auto.
  pose proof Hk as Hk'. apply Nat.ltb_lt in Hk'. rewrite Hk'. f_equal.
  replace s with (1 + (s - k - 1) + k) at 1 by lia. rewrite !Nat.pow_add_r.
  rewrite Nat.div_mul by (pose proof (pow3_pos k); lia). rewrite Nat.mul_comm, Nat.mod_mul by lia. reflexivity.
Qed.
