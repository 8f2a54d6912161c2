(* Proofs about the compressed correlations. *)
From Verif Require Import Base Words Mod3Model Mod3Spec Mod3Proofs GF4Model GF4Spec GF4Proofs PrfModel PrfProofs
  SimdModel SimdProofs CompressModel CompressSpec.

Definition shuf_chk : bool :=
  forallb (fun i => forallb (fun j => N.eqb (byteN (shuf i) j) (if i =? j then 0%N else 128%N)) (seq 0 16)) (seq 0 16).

Lemma shuf_byte i j : i < 16 -> j < 16 -> byteN (shuf i) j = if i =? j then 0%N else 128%N.
Proof.
  intros Hi Hj. assert (HC : shuf_chk = true) by (vm_compute; reflexivity).
  unfold shuf_chk in HC. rewrite forallb_forall in HC.
  assert (H1 : In i (seq 0 16)) by (apply in_seq; lia). specialize (HC i H1).
  rewrite forallb_forall in HC. assert (H2 : In j (seq 0 16)) by (apply in_seq; lia).
  specialize (HC j H2). apply N.eqb_eq in HC. exact HC.
Qed.

Lemma byte_of_bit x b k : (k < 8)%N -> N.testbit (byte_of x b) k = N.testbit x (8 * b + k).
Proof.
  intros Hk. unfold byte_of. change 255%N with (N.ones 8).
  rewrite N.land_spec, N.ones_spec_low, andb_true_r by exact Hk. rewrite N.shiftr_spec'. f_equal. lia.
Qed.

Lemma shuffle_shuf a i j : i < 16 -> j < 16 ->
  N.testbit (shuffle_epi8 a (shuf i)) (8 * N.of_nat j) = (i =? j) && N.testbit a 0.
Proof.
  intros Hi Hj. replace (8 * N.of_nat j)%N with (8 * N.of_nat j + 0)%N by lia.
  rewrite shuffle_bit by lia. rewrite <- byteN_bit by lia. rewrite shuf_byte by lia.
  destruct (i =? j); [|reflexivity]. change (N.testbit 0 7) with false. cbn iota. cbn [andb].
  rewrite byte_of_bit by lia. reflexivity.
Qed.

Lemma compress16_bit m j : N.testbit (compress16 m) (N.of_nat j) = (j <? 16) && N.testbit (nth j m 0%N) 0.
Proof.
  unfold compress16. cbn zeta. rewrite movemask_bit.
  destruct (Nat.ltb_spec j 16) as [Hj|]; [|reflexivity]. cbn [andb].
  assert (HS : forall v, N.testbit (slli_epi16 7 v) (8 * N.of_nat j + 7) = N.testbit v (8 * N.of_nat j)).
  { intros v. pose proof (Nat.div_mod j 2 ltac:(lia)) as Ej.
    assert (Hm : j mod 2 < 2) by (apply Nat.mod_upper_bound; lia).
    assert (Hq : j / 2 < 8) by (apply Nat.div_lt_upper_bound; lia).
    replace (8 * N.of_nat j + 7)%N with (16 * N.of_nat (j / 2) + (8 * N.of_nat (j mod 2) + 7))%N by lia.
    rewrite slli_bit by lia.
    replace (7 <=? 8 * N.of_nat (j mod 2) + 7)%N with true by (symmetry; apply N.leb_le; lia).
    cbn [andb]. f_equal. lia. }
  rewrite HS. rewrite !N.lxor_spec. rewrite !shuffle_shuf by lia.
  do 16 (destruct j as [|j]; [cbn [Nat.eqb andb]; rewrite ?xorb_false_r, ?xorb_false_l; reflexivity|]).
  exfalso. clear - Hj. lia.
Qed.

Lemma bit01 b k : (b < 2)%N -> N.testbit b k = (k =? 0)%N && N.testbit b 0.
Proof.
  intros Hb. destruct (N.eqb_spec k 0) as [->|]; [reflexivity|].
  assert (b = 0 \/ b = 1)%N as [-> | ->] by lia; [apply N.bits_0|].
  apply N.bits_above_log2. cbn. lia.
Qed.

Lemma pack8_bit b j : length b = 8 -> (forall x, In x b -> (x < 2)%N) ->
  N.testbit (pack8 b) (N.of_nat j) = (j <? 8) && N.testbit (nth j b 0%N) 0.
Proof.
  intros HL HB. do 8 (destruct b as [|? b]; [discriminate HL|]). destruct b; [|discriminate HL].
  unfold pack8. cbn [nth]. cbn zeta. change 255%N with (N.ones 8).
  rewrite N.land_spec, !N.lxor_spec.
  destruct (Nat.ltb_spec j 8) as [Hj|Hj].
  2:{ rewrite N.ones_spec_high by lia. apply andb_false_r. }
  rewrite N.ones_spec_low, andb_true_r by lia. cbn [andb].
  assert (HX : forall x i, In x [n; n0; n1; n2; n3; n4; n5; n6] -> N.testbit (N.shiftl x (N.of_nat i)) (N.of_nat j) = (i =? j) && N.testbit x 0).
  { intros x i Hx. destruct (Nat.eqb_spec i j) as [->|].
    - rewrite N.shiftl_spec_high' by lia. rewrite N.sub_diag. reflexivity.
    - destruct (Nat.lt_ge_cases j i).
      + rewrite N.shiftl_spec_low by lia. reflexivity.
      + rewrite N.shiftl_spec_high' by lia. rewrite bit01 by (apply HB; exact Hx).
        replace (N.of_nat j - N.of_nat i =? 0)%N with false by (symmetry; apply N.eqb_neq; lia). reflexivity. }
  rewrite !HX by (cbn [In]; tauto).
  do 8 (destruct j as [|j]; [cbn [Nat.eqb andb nth]; rewrite ?xorb_false_r, ?xorb_false_l; reflexivity|]).
  exfalso. clear - Hj. lia.
Qed.

Lemma b2n_high b k : (0 < k)%N -> N.testbit (N.b2n b) k = false.
Proof. intros H. destruct b; [|apply N.bits_0]. apply N.bits_above_log2. cbn. exact H. Qed.

Lemma land2 x : N.land x 2 = (2 * N.b2n (N.testbit x 1))%N.
Proof.
  apply N.bits_inj. intros k. rewrite N.land_spec.
  change 2%N with (2 ^ 1)%N at 1. rewrite N.pow2_bits_eqb.
  replace (2 * N.b2n (N.testbit x 1))%N with (N.shiftl (N.b2n (N.testbit x 1)) 1)
    by (rewrite N.shiftl_mul_pow2; change (2 ^ 1)%N with 2%N; lia).
  destruct (N.eqb_spec 1 k) as [<-|Hk].
  - rewrite N.shiftl_spec_high' by lia. rewrite N.b2n_bit0. apply andb_true_r.
  - rewrite andb_false_r. destruct (N.eq_dec k 0) as [->|]; [rewrite N.shiftl_spec_low by lia; reflexivity|].
    rewrite N.shiftl_spec_high' by lia. symmetry. apply b2n_high. lia.
Qed.

Lemma land1 x : N.land x 1 = N.b2n (N.testbit x 0).
Proof.
  apply N.bits_inj. intros k. rewrite N.land_spec.
  change 1%N with (2 ^ 0)%N at 1. rewrite N.pow2_bits_eqb.
  destruct (N.eqb_spec 0 k) as [<-|Hk].
  - rewrite N.b2n_bit0. apply andb_true_r.
  - rewrite andb_false_r. symmetry. apply b2n_high. lia.
Qed.

Lemma pack8_msb_eq c : length c = 8 ->
  pack8_msb (map (fun b => 2 * N.b2n b)%N c) = pack8 (map N.b2n c).
Proof.
  intros HL. do 8 (destruct c as [|? c]; [discriminate HL|]). destruct c; [|discriminate HL].
  unfold pack8_msb, pack8. cbn [map nth]. cbn zeta.
  assert (E : forall x k, N.shiftl (2 * N.b2n x) k = N.shiftl (N.b2n x) (k + 1)).
  { intros x k. rewrite !N.shiftl_mul_pow2, N.pow_add_r. change (2 ^ 1)%N with 2%N. lia. }
  rewrite !E. replace (N.shiftr (2 * N.b2n b) 1) with (N.shiftl (N.b2n b) 0).
  2:{ rewrite N.shiftl_0_r. destruct b; reflexivity. }
  replace (2 * N.b2n b0)%N with (N.shiftl (N.b2n b0) 1); [reflexivity|].
  rewrite N.shiftl_mul_pow2. change (2 ^ 1)%N with 2%N. lia.
Qed.

Lemma testc1 m : testc m 1 = N.b2n (N.testbit m 0).
Proof.
  unfold testc. replace (N.ldiff 1 m) with (N.b2n (negb (N.testbit m 0))).
  - destruct (N.testbit m 0); reflexivity.
  - apply N.bits_inj. intros k. rewrite N.ldiff_spec.
    change 1%N with (2 ^ 0)%N. rewrite N.pow2_bits_eqb. destruct (N.eqb_spec 0 k) as [<-|Hk].
    + apply N.b2n_bit0.
    + apply b2n_high. lia.
Qed.

Lemma storeu1 m : storeu_si32 (N.land m 1) = N.b2n (N.testbit m 0).
Proof. unfold storeu_si32. rewrite land1. destruct (N.testbit m 0); reflexivity. Qed.
Lemma storeu2 m : storeu_si32 (N.land m 2) = (2 * N.b2n (N.testbit m 1))%N.
Proof. unfold storeu_si32. rewrite land2. destruct (N.testbit m 1); reflexivity. Qed.

(* packing any bit of eight blocks *)
Lemma pack_bits (f : N -> bool) m j : length m = 8 ->
  N.testbit (pack8 (map (fun v => N.b2n (f v)) m)) (N.of_nat j) = (j <? 8) && nth j (map f m) false.
Proof.
  intros HL. rewrite pack8_bit.
  - f_equal. destruct (Nat.lt_ge_cases j 8) as [H|H].
    + rewrite nth_indep with (d' := N.b2n (f 0%N)) by (rewrite map_length; lia).
      rewrite (map_nth (fun v => N.b2n (f v))). rewrite N.b2n_bit0.
      rewrite nth_indep with (d' := f 0%N) by (rewrite map_length; lia). rewrite map_nth. reflexivity.
    + rewrite !nth_overflow by (rewrite map_length; lia). reflexivity.
  - rewrite map_length. exact HL.
  - intros x Hx. apply in_map_iff in Hx. destruct Hx as (v & <- & _). destruct (f v); cbn; lia.
Qed.

(* masks *)
Lemma mask1_bit k : N.testbit mask1 k = (1 <=? k)%N && (k <? 128)%N.
Proof.
  unfold mask1, all_ones128. rewrite N.lxor_spec. change 1%N with (2 ^ 0)%N at 1. rewrite N.pow2_bits_eqb.
  destruct (N.ltb_spec k 128) as [H|H].
  - rewrite N.ones_spec_low by exact H. destruct (N.eqb_spec 0 k) as [<-|]; [reflexivity|].
    replace (1 <=? k)%N with true by (symmetry; apply N.leb_le; lia). reflexivity.
  - rewrite N.ones_spec_high by exact H. destruct (N.eqb_spec 0 k); [lia|]. rewrite andb_false_r. reflexivity.
Qed.

Lemma mask3_bit k : N.testbit mask3 k = (2 <=? k)%N && (k <? 128)%N.
Proof.
  unfold mask3. rewrite N.lor_spec, N.ldiff_spec. change 3%N with (N.ones 2).
  destruct (N.ltb_spec k 64) as [H|H].
  - rewrite N.shiftl_spec_low by exact H. rewrite N.ones_spec_low by exact H. cbn [orb andb].
    replace (k <? 128)%N with true by (symmetry; apply N.ltb_lt; lia). rewrite andb_true_r.
    destruct (N.leb_spec 2 k); [rewrite N.ones_spec_high by assumption|rewrite N.ones_spec_low by assumption]; reflexivity.
  - rewrite N.shiftl_spec_high' by lia. rewrite (N.ones_spec_high 64 k) by lia. rewrite orb_false_r.
    replace (2 <=? k)%N with true by (symmetry; apply N.leb_le; lia). cbn [andb].
    destruct (N.ltb_spec k 128).
    + apply N.ones_spec_low. lia.
    + apply N.ones_spec_high. lia.
Qed.

(* the receiver hashes one of the sender's two blocks *)
Lemma cot_mask delta A B p : cot delta A B -> p < length A ->
  N.land (nth p A 0%N) mask1 =
  if N.testbit (nth p A 0%N) 0 then N.lxor (N.land (nth p B 0%N) mask1) (N.land delta mask1)
  else N.land (nth p B 0%N) mask1.
Proof.
  intros [_ HC] Hp. apply N.bits_inj. intros k. specialize (HC p k Hp).
  destruct (N.testbit (nth p A 0%N) 0); rewrite ?N.lxor_spec, !N.land_spec, mask1_bit;
  destruct (N.leb_spec 1 k); destruct (N.ltb_spec k 128); cbn [andb];
  rewrite ?andb_false_r, ?andb_true_r; try reflexivity; rewrite HC by lia; cbn [andb];
  rewrite ?xorb_false_r; reflexivity.
Qed.

Lemma div_lt_mul a n : 0 < n -> a < a / n * n + n.
Proof. intros H. pose proof (Nat.div_mod a n ltac:(lia)). pose proof (Nat.mod_upper_bound a n ltac:(lia)). lia. Qed.

Lemma buf_app_bit w l x p : 0 < w ->
  w * length l <= p ->
  buf_bit w (l ++ x) p = buf_bit w x (p - w * length l).
Proof.
  intros Hw Hp. unfold buf_bit.
  assert (Ep : p = (p - w * length l) + length l * w) by lia.
  set (r := p - w * length l) in *.
  assert (E : r / w = p / w - length l) by (rewrite Ep, Nat.div_add by lia; symmetry; apply Nat.add_sub).
  assert (E2 : r mod w = p mod w) by (rewrite Ep, Nat.mod_add by lia; reflexivity).
  rewrite E, E2. rewrite app_nth2; [reflexivity|]. apply Nat.div_le_lower_bound; lia.
Qed.
Lemma buf_app_low w l x p : 0 < w -> p < w * length l -> buf_bit w (l ++ x) p = buf_bit w l p.
Proof.
  intros Hw Hp. unfold buf_bit. rewrite app_nth1; [reflexivity|]. apply Nat.div_lt_upper_bound; lia.
Qed.

(* ---------- OLE ---------- *)

Lemma buf_one w x q : q < w -> buf_bit w [x] q = N.testbit x (N.of_nat q).
Proof. intros H. unfold buf_bit. rewrite Nat.div_small, Nat.mod_small by exact H. reflexivity. Qed.

Lemma buf_two8 x y q : q < 16 ->
  buf_bit 8 [x; y] q = if q <? 8 then N.testbit x (N.of_nat q) else N.testbit y (N.of_nat (q - 8)).
Proof.
  intros H. unfold buf_bit. destruct (Nat.ltb_spec q 8).
  - rewrite Nat.div_small, Nat.mod_small by assumption. reflexivity.
  - replace q with (q - 8 + 1 * 8) at 1 2 by lia. rewrite Nat.div_add, Nat.mod_add by lia.
    rewrite Nat.div_small, Nat.mod_small by lia. reflexivity.
Qed.

Lemma nth_firstn A (l : list A) n i d : i < n -> nth i (firstn n l) d = nth i l d.
Proof.
  revert n i. induction l as [|x l IH]; intros n i Hi; [rewrite firstn_nil; reflexivity|].
  destruct n; [lia|]. cbn [firstn]. destruct i; [reflexivity|]. cbn [nth]. apply IH. lia.
Qed.
Lemma nth_skipn A (l : list A) n i d : nth i (skipn n l) d = nth (n + i) l d.
Proof.
  revert l. induction n as [|n IH]; intros l; [reflexivity|]. destruct l; [destruct i; reflexivity|].
  cbn [skipn Nat.add nth]. apply IH.
Qed.

(* the two bytes packed from 16 blocks *)
Lemma two_bytes (f : N -> bool) m q : length m = 16 -> q < 16 ->
  buf_bit 8 [pack8 (map (fun v => N.b2n (f v)) (firstn 8 m)); pack8 (map (fun v => N.b2n (f v)) (skipn 8 m))] q =
  f (nth q m 0%N).
Proof.
  intros HL Hq. rewrite buf_two8 by exact Hq.
  assert (HN : forall l i, i < length l -> nth i (map f l) false = f (nth i l 0%N)).
  { intros l i Hi. rewrite nth_indep with (d' := f 0%N) by (rewrite map_length; exact Hi). apply map_nth. }
  destruct (Nat.ltb_spec q 8) as [H|H].
  - rewrite pack_bits by (rewrite firstn_length; lia).
    replace (q <? 8) with true by (symmetry; apply Nat.ltb_lt; exact H). cbn [andb].
    rewrite HN by (rewrite firstn_length; lia). rewrite nth_firstn by exact H. reflexivity.
  - rewrite pack_bits by (rewrite skipn_length; lia).
    replace (q - 8 <? 8) with true by (symmetry; apply Nat.ltb_lt; lia). cbn [andb].
    rewrite HN by (rewrite skipn_length; lia). rewrite nth_skipn. do 2 f_equal. lia.
Qed.

Lemma slice_len A (l : list A) o n : o + n <= length l -> length (slice l o n) = n.
Proof. intros H. unfold slice. rewrite firstn_length, skipn_length. lia. Qed.
Lemma slice_nth A (l : list A) o n i d : i < n -> nth i (slice l o n) d = nth (o + i) l d.
Proof. intros H. unfold slice. rewrite nth_firstn by exact H. apply nth_skipn. Qed.

Lemma c16_bit (g : N -> N) m q : length m = 16 -> q < 16 ->
  buf_bit 16 [compress16 (map g m)] q = N.testbit (g (nth q m 0%N)) 0.
Proof.
  intros HL Hq. rewrite buf_one by exact Hq. rewrite compress16_bit.
  replace (q <? 16) with true by (symmetry; apply Nat.ltb_lt; exact Hq). cbn [andb].
  rewrite nth_indep with (d' := g 0%N) by (rewrite map_length; lia). rewrite map_nth. reflexivity.
Qed.

(* one step of a loop appending x to a buffer *)
Lemma buf_step w l x n c (g : nat -> bool) : 0 < w -> w * length l = n -> w * length x = c ->
  (forall p, p < n -> buf_bit w l p = g p) ->
  (forall q, q < c -> buf_bit w x q = g (n + q)) ->
  forall p, p < n + c -> buf_bit w (l ++ x) p = g p.
Proof.
  intros Hw Hl Hx H1 H2 p Hp. destruct (Nat.lt_ge_cases p n) as [H|H].
  - rewrite buf_app_low by lia. apply H1. exact H.
  - rewrite buf_app_bit by lia. rewrite Hl. rewrite H2 by lia. f_equal. lia.
Qed.

Lemma div16_128 n : n mod 128 = 0 -> 16 * (n / 16) = n.
Proof.
  intros H. pose proof (Nat.div_mod n 128 ltac:(lia)) as E. rewrite H in E.
  replace n with (n / 128 * 8 * 16) at 1 by lia. rewrite Nat.div_mul by lia. lia.
Qed.
Lemma div8_128 n : n mod 128 = 0 -> 8 * (n / 8) = n.
Proof.
  intros H. pose proof (Nat.div_mod n 128 ltac:(lia)) as E. rewrite H in E.
  replace n with (n / 128 * 16 * 8) at 1 by lia. rewrite Nat.div_mul by lia. lia.
Qed.

Section H.
Variable H : N -> N.

Lemma ole_recver_ok A k : length A = k * 128 ->
  exists add mult, ole_compress_recver H A k k = Ok (add, mult) /\ length add = k * 8 /\ length mult = k * 16 /\
   (forall p, p < k * 128 -> buf_bit 16 add p = N.testbit (H (N.land (nth p A 0%N) mask1)) 0) /\
   (forall p, p < k * 128 -> buf_bit 8 mult p = N.testbit (nth p A 0%N) 0).
Proof.
  intros HL. unfold ole_compress_recver.
  replace (k * 128 =? length A) with true by (symmetry; apply Nat.eqb_eq; lia). cbn [negb throw_if bind].
  assert (E16 : 16 * (length A / 16) = length A) by (apply div16_128; rewrite HL; apply Nat.mod_mul; lia).
  match goal with |- context [forN 0 ?n ?f ?s] =>
    destruct (forN_inv (P := fun i (st : list N * list N) => length (fst st) = i /\ length (snd st) = 2 * i /\
      (forall p, p < 16 * i -> buf_bit 16 (fst st) p = N.testbit (H (N.land (nth p A 0%N) mask1)) 0) /\
      (forall p, p < 16 * i -> buf_bit 8 (snd st) p = N.testbit (nth p A 0%N) 0)) (f := f) (n := n) (i := 0) (s := s))
      as [[add mult] [E (L1 & L2 & B1 & B2)]]
  end.
  - cbn [fst snd length]. repeat split; intros; lia.
  - intros i [add mult] Hi (L1 & L2 & B1 & B2). cbn [fst snd] in *.
    rewrite readN_ok by lia. cbn [bind].
    assert (HLs : length (slice A (16 * i) 16) = 16) by (apply slice_len; lia).
    eexists. split; [reflexivity|]. cbn [fst snd].
    rewrite !app_length. cbn [length]. split; [lia|]. split; [lia|].
    replace (16 * (i + 1)) with (16 * i + 16) by lia. split.
    + apply buf_step; [lia|lia|reflexivity|exact B1|]. intros q Hq.
      rewrite (c16_bit (fun v => H (N.land v mask1))) by assumption. rewrite slice_nth by exact Hq. reflexivity.
    + apply buf_step; [lia|lia|reflexivity|exact B2|]. intros q Hq.
      rewrite !(map_ext _ _ testc1). rewrite (two_bytes (fun v => N.testbit v 0)) by assumption.
      rewrite slice_nth by exact Hq. reflexivity.
  - exists add, mult. rewrite E. cbn [fst snd Nat.add] in *. rewrite E16 in *. rewrite HL in *.
    split; [reflexivity|]. split; [lia|]. split; [lia|]. split; [exact B1|exact B2].
Qed.

Lemma ole_sender_ok delta B k : length B = k * 128 ->
  exists add mult, ole_compress_sender H delta B k k = Ok (add, mult) /\ length add = k * 8 /\ length mult = k * 8 /\
   (forall p, p < k * 128 -> buf_bit 16 add p = N.testbit (H (N.land (nth p B 0%N) mask1)) 0) /\
   (forall p, p < k * 128 -> buf_bit 16 mult p =
      xorb (N.testbit (H (N.land (nth p B 0%N) mask1)) 0)
           (N.testbit (H (N.lxor (N.land (nth p B 0%N) mask1) (N.land delta mask1))) 0)).
Proof.
  intros HL. unfold ole_compress_sender.
  replace (k * 128 =? length B) with true by (symmetry; apply Nat.eqb_eq; lia). cbn [negb throw_if bind].
  assert (E16 : 16 * (length B / 16) = length B) by (apply div16_128; rewrite HL; apply Nat.mod_mul; lia).
  set (D := N.land delta mask1).
  match goal with |- context [forN 0 ?n ?f ?s] =>
    destruct (forN_inv (P := fun i (st : list N * list N) => length (fst st) = i /\ length (snd st) = i /\
      (forall p, p < 16 * i -> buf_bit 16 (fst st) p = N.testbit (H (N.land (nth p B 0%N) mask1)) 0) /\
      (forall p, p < 16 * i -> buf_bit 16 (snd st) p = 
        xorb (N.testbit (H (N.land (nth p B 0%N) mask1)) 0)
           (N.testbit (H (N.lxor (N.land (nth p B 0%N) mask1) D)) 0))) (f := f) (n := n) (i := 0) (s := s))
      as [[add mult] [E (L1 & L2 & B1 & B2)]]
  end.
  - cbn [fst snd length]. repeat split; intros; lia.
  - intros i [add mult] Hi (L1 & L2 & B1 & B2). cbn [fst snd] in *.
    rewrite readN_ok by lia. cbn [bind].
    assert (HLs : length (slice B (16 * i) 16) = 16) by (apply slice_len; lia).
    eexists. split; [reflexivity|]. cbn [fst snd]. rewrite !map_map.
    rewrite !app_length. cbn [length]. split; [lia|]. split; [lia|].
    replace (16 * (i + 1)) with (16 * i + 16) by lia. split.
    + apply buf_step; [lia|lia|reflexivity|exact B1|]. intros q Hq.
      rewrite (c16_bit (fun v => H (N.land v mask1))) by assumption. rewrite slice_nth by exact Hq. reflexivity.
    + apply buf_step; [lia|lia|reflexivity|exact B2|]. intros q Hq.
      rewrite buf_one by exact Hq. rewrite N.lxor_spec. rewrite <- !(@buf_one 16) by exact Hq.
      rewrite (c16_bit (fun v => H (N.land v mask1))) by assumption.
      rewrite (c16_bit (fun v => H (N.lxor (N.land v mask1) D))) by assumption.
      rewrite slice_nth by exact Hq. reflexivity.
  - exists add, mult. rewrite E. cbn [fst snd Nat.add] in *. rewrite E16 in *. rewrite HL in *.
    split; [reflexivity|]. split; [lia|]. split; [lia|]. split; [exact B1|exact B2].
Qed.

Lemma ole_compress_ok delta A B k : length A = k * 128 -> cot delta A B ->
  exists addR multR addS multS,
   ole_compress_recver H A k k = Ok (addR, multR) /\ ole_compress_sender H delta B k k = Ok (addS, multS) /\
   length addR = k * 8 /\ length multR = k * 16 /\ length addS = k * 8 /\ length multS = k * 8 /\
   forall p, p < k * 128 ->
    buf_bit 8 multR p = N.testbit (nth p A 0%N) 0 /\
    xorb (buf_bit 16 addS p) (buf_bit 16 addR p) = buf_bit 16 multS p && buf_bit 8 multR p.
Proof.
  intros HL HC. destruct (ole_recver_ok HL) as (ar & mr & Er & L1 & L2 & R1 & R2).
  assert (HLB : length B = k * 128) by (destruct HC as [E _]; lia).
  destruct (ole_sender_ok delta HLB) as (sa & sm & Es & L3 & L4 & S1 & S2).
  exists ar, mr, sa, sm. split; [exact Er|]. split; [exact Es|]. do 4 (split; [assumption|]).
  intros p Hp. rewrite R1, R2, S1, S2 by exact Hp. split; [reflexivity|].
  rewrite (cot_mask HC) by lia. destruct (N.testbit (nth p A 0%N) 0).
  - rewrite andb_true_r. reflexivity.
  - rewrite andb_false_r. apply xorb_nilpotent.
Qed.

(* ---------- trit OT ---------- *)

Lemma forN_each S (f : nat -> S -> outcome S) : forall n i s s', forN i n f s = Ok s' ->
  forall k, i <= k < i + n -> exists s1 s2, f k s1 = Ok s2.
Proof.
  induction n as [|n IH]; intros i s s' E k Hk; [lia|]. cbn [forN] in E.
  destruct (f i s) as [s1| | |] eqn:E1; cbn [bind] in E; try discriminate E.
  destruct (Nat.eq_dec k i) as [->|]; [exists s, s1; exact E1|].
  apply (IH _ _ _ E k). lia.
Qed.

Lemma sample1_good x r : sample1Mod3 x = Ok r -> good_seed x.
Proof.
  intros E. destruct (sample1Mod3_spec x) as [_ HU].
  destruct (existsb (fun t => negb (fst (pair_at x (N.of_nat t)) && snd (pair_at x (N.of_nat t)))) (seq 0 64)) eqn:X.
  - apply existsb_exists in X. destruct X as (t & Ht & Hn). apply in_seq in Ht. exists (N.of_nat t). split; [lia|].
    intros C. rewrite C in Hn. discriminate Hn.
  - rewrite HU in E; [discriminate E|]. intros t Ht.
    assert (HI : In (N.to_nat t) (seq 0 64)) by (apply in_seq; lia).
    destruct (fst (pair_at x t) && snd (pair_at x t)) eqn:Z.
    + apply andb_true_iff in Z. destruct Z as [Z1 Z2]. destruct (pair_at x t); cbn [fst snd] in *; subst; reflexivity.
    + assert (C : existsb (fun t => negb (fst (pair_at x (N.of_nat t)) && snd (pair_at x (N.of_nat t)))) (seq 0 64) = true).
      { apply existsb_exists. exists (N.to_nat t). split; [exact HI|]. rewrite N2Nat.id, Z. reflexivity. }
      rewrite C in X. discriminate X.
Qed.

Lemma sample8_good seed r : length seed = 8 -> sample8Mod3 seed = Ok r -> forall x, In x seed -> good_seed x.
Proof.
  intros HL E x Hx. unfold sample8Mod3 in E.
  apply In_nth_error in Hx. destruct Hx as [j Hj].
  assert (Hjl : j < 8) by (rewrite <- HL; apply nth_error_Some; rewrite Hj; discriminate).
  destruct (@forN_each _ _ _ _ _ _ E j) as (s1 & s2 & E1); [lia|]. unfold get in E1. rewrite Hj in E1. cbn [bind] in E1.
  destruct (sample1Mod3 x) eqn:Ex; try discriminate E1. apply (sample1_good Ex).
Qed.

(* the trit of a seed, as two bits *)
Definition smsb (x : N) : bool := match sample1Mod3 x with Ok (p, _) => (p =? 1)%N | _ => false end.
Definition slsb (x : N) : bool := match sample1Mod3 x with Ok (_, q) => (q =? 1)%N | _ => false end.

Lemma sample8_bits (g : N -> N) m : length m = 8 -> (forall x, In x m -> good_seed (g x)) ->
  exists a b, sample8Mod3 (map g m) = Ok (a, b) /\
   forall q, q < 8 -> buf_bit 8 [a] q = smsb (g (nth q m 0%N)) /\ buf_bit 8 [b] q = slsb (g (nth q m 0%N)) /\
     smsb (g (nth q m 0%N)) && slsb (g (nth q m 0%N)) = false.
Proof.
  intros HL HG. destruct (@sample8Mod3_spec (map g m)) as (a & b & E & _ & HB).
  { rewrite map_length. exact HL. }
  { intros x Hx. apply in_map_iff in Hx. destruct Hx as (y & <- & Hy). apply HG. exact Hy. }
  exists a, b. split; [exact E|]. intros q Hq.
  destruct (HB q (g (nth q m 0%N))) as (p & r & Es & H1 & H2 & H3).
  { rewrite nth_error_map. rewrite (nth_error_nth' m 0%N) by lia. reflexivity. }
  rewrite !buf_one by exact Hq. unfold smsb, slsb. rewrite Es. unfold tvalid in H3.
  split; [exact H1|]. split; [exact H2|]. rewrite <- H1, <- H2. exact H3.
Qed.

Definition trit_good (A : list N) (g : N -> N) : Prop := forall p, p < length A -> good_seed (H (g (nth p A 0%N))).

Lemma slice_good A (g : N -> N) i : trit_good A g -> 8 * i + 8 <= length A ->
  forall x, In x (slice A (8 * i) 8) -> good_seed (H (g x)).
Proof.
  intros HG Hi x Hx. apply (In_nth _ _ 0%N) in Hx. destruct Hx as (q & Hq & <-).
  rewrite slice_len in Hq by lia. rewrite slice_nth by exact Hq. apply HG. lia.
Qed.

Lemma pack8_store m : pack8 (map (fun v => storeu_si32 (N.land v 1)) m) = pack8 (map (fun v => N.b2n (N.testbit v 0)) m).
Proof. f_equal. apply map_ext. apply storeu1. Qed.

Lemma one_byte (f : N -> bool) m q : length m = 8 -> q < 8 ->
  buf_bit 8 [pack8 (map (fun v => N.b2n (f v)) m)] q = f (nth q m 0%N).
Proof.
  intros HL Hq. rewrite buf_one by exact Hq. rewrite pack_bits by exact HL.
  replace (q <? 8) with true by (symmetry; apply Nat.ltb_lt; exact Hq). cbn [andb].
  rewrite nth_indep with (d' := f 0%N) by (rewrite map_length; lia). apply map_nth.
Qed.

Lemma trit_recver_ok A k : length A = k * 128 -> trit_good A (fun v => N.land v mask1) ->
  exists ch ms ls, trit_compress_recver H A = Ok (ch, ms, ls) /\
   length ch = k * 16 /\ length ms = k * 16 /\ length ls = k * 16 /\
   (forall p, p < k * 128 -> buf_bit 8 ch p = N.testbit (nth p A 0%N) 0) /\
   (forall p, p < k * 128 -> buf_bit 8 ms p = smsb (H (N.land (nth p A 0%N) mask1))) /\
   (forall p, p < k * 128 -> buf_bit 8 ls p = slsb (H (N.land (nth p A 0%N) mask1))).
Proof.
  intros HL HG. unfold trit_compress_recver.
  assert (HM : length A mod 128 = 0) by (rewrite HL; apply Nat.mod_mul; lia).
  rewrite HM. cbn [negb Nat.eqb throw_if bind].
  assert (E8 : 8 * (length A / 8) = length A) by (apply div8_128; exact HM).
  match goal with |- context [forN 0 ?n ?f ?s] =>
    destruct (forN_inv (P := fun i (st : list N * list N * list N) =>
      let '(ch, ms, ls) := st in length ch = i /\ length ms = i /\ length ls = i /\
      (forall p, p < 8 * i -> buf_bit 8 ch p = N.testbit (nth p A 0%N) 0) /\
      (forall p, p < 8 * i -> buf_bit 8 ms p = smsb (H (N.land (nth p A 0%N) mask1))) /\
      (forall p, p < 8 * i -> buf_bit 8 ls p = slsb (H (N.land (nth p A 0%N) mask1)))) (f := f) (n := n) (i := 0) (s := s))
      as [[[ch ms] ls] [E (L1 & L2 & L3 & B1 & B2 & B3)]]
  end.
  - cbn [length]. repeat split; intros; lia.
  - intros i [[ch ms] ls] Hi (L1 & L2 & L3 & B1 & B2 & B3).
    rewrite readN_ok by lia. cbn [bind].
    assert (HLs : length (slice A (8 * i) 8) = 8) by (apply slice_len; lia).
    destruct (@sample8_bits (fun v => H (N.land v mask1)) _ HLs) as (a & b & Es & HB).
    { intros x Hx. apply (slice_good (i := i) HG); [lia|exact Hx]. }
    rewrite Es. cbn [bind fst snd]. eexists. split; [reflexivity|]. cbv beta iota.
    rewrite !app_length. cbn [length]. do 3 (split; [lia|]).
    replace (8 * (i + 1)) with (8 * i + 8) by lia. split; [|split].
    + apply buf_step; [lia|lia|reflexivity|exact B1|]. intros q Hq.
      rewrite pack8_store, (one_byte (fun v => N.testbit v 0)) by assumption. rewrite slice_nth by exact Hq. reflexivity.
    + apply buf_step; [lia|lia|reflexivity|exact B2|]. intros q Hq.
      destruct (HB q Hq) as (X & _). rewrite X. rewrite slice_nth by exact Hq. reflexivity.
    + apply buf_step; [lia|lia|reflexivity|exact B3|]. intros q Hq.
      destruct (HB q Hq) as (_ & X & _). rewrite X. rewrite slice_nth by exact Hq. reflexivity.
  - exists ch, ms, ls. rewrite E. cbn [Nat.add] in *. rewrite E8 in *. rewrite HL in *.
    split; [reflexivity|]. do 3 (split; [lia|]). split; [exact B1|]. split; [exact B2|exact B3].
Qed.

Lemma trit_sender_ok delta B k : length B = k * 128 ->
  trit_good B (fun v => N.land v mask1) -> trit_good B (fun v => N.lxor (N.land v mask1) (N.land delta mask1)) ->
  exists m0 l0 m1 l1, trit_compress_sender H delta B = Ok ((m0, l0), (m1, l1)) /\
   length m0 = k * 16 /\ length l0 = k * 16 /\ length m1 = k * 16 /\ length l1 = k * 16 /\
   (forall p, p < k * 128 -> buf_bit 8 m0 p = smsb (H (N.land (nth p B 0%N) mask1))) /\
   (forall p, p < k * 128 -> buf_bit 8 l0 p = slsb (H (N.land (nth p B 0%N) mask1))) /\
   (forall p, p < k * 128 -> buf_bit 8 m1 p = smsb (H (N.lxor (N.land (nth p B 0%N) mask1) (N.land delta mask1)))) /\
   (forall p, p < k * 128 -> buf_bit 8 l1 p = slsb (H (N.lxor (N.land (nth p B 0%N) mask1) (N.land delta mask1)))).
Proof.
  intros HL HG0 HG1. unfold trit_compress_sender.
  assert (HM : length B mod 128 = 0) by (rewrite HL; apply Nat.mod_mul; lia).
  rewrite HM. cbn [negb Nat.eqb throw_if bind]. set (D := N.land delta mask1) in *.
  assert (E8 : 8 * (length B / 8) = length B) by (apply div8_128; exact HM).
  match goal with |- context [forN 0 ?n ?f ?s] =>
    destruct (forN_inv (P := fun i (st : (list N * list N) * (list N * list N)) =>
      let '((m0, l0), (m1, l1)) := st in length m0 = i /\ length l0 = i /\ length m1 = i /\ length l1 = i /\
      (forall p, p < 8 * i -> buf_bit 8 m0 p = smsb (H (N.land (nth p B 0%N) mask1))) /\
      (forall p, p < 8 * i -> buf_bit 8 l0 p = slsb (H (N.land (nth p B 0%N) mask1))) /\
      (forall p, p < 8 * i -> buf_bit 8 m1 p = smsb (H (N.lxor (N.land (nth p B 0%N) mask1) D))) /\
      (forall p, p < 8 * i -> buf_bit 8 l1 p = slsb (H (N.lxor (N.land (nth p B 0%N) mask1) D)))) (f := f) (n := n) (i := 0) (s := s))
      as [[[m0 l0] [m1 l1]] [E (L1 & L2 & L3 & L4 & B1 & B2 & B3 & B4)]]
  end.
  - cbn [length]. repeat split; intros; lia.
  - intros i [[m0 l0] [m1 l1]] Hi (L1 & L2 & L3 & L4 & B1 & B2 & B3 & B4).
    rewrite readN_ok by lia. cbn [bind].
    assert (HLs : length (slice B (8 * i) 8) = 8) by (apply slice_len; lia).
    rewrite !map_map.
    destruct (@sample8_bits (fun v => H (N.land v mask1)) _ HLs) as (a & b & Es & HB).
    { intros x Hx. apply (slice_good (i := i) HG0); [lia|exact Hx]. }
    rewrite Es. cbn [bind fst snd].
    destruct (@sample8_bits (fun v => H (N.lxor (N.land v mask1) D)) _ HLs) as (c & d & Es2 & HB2).
    { intros x Hx. apply (slice_good (i := i) HG1); [lia|exact Hx]. }
    rewrite Es2. cbn [bind fst snd].
    eexists. split; [reflexivity|]. cbv beta iota.
    rewrite !app_length. cbn [length]. do 4 (split; [lia|]).
    replace (8 * (i + 1)) with (8 * i + 8) by lia. split; [|split; [|split]].
    + apply buf_step; [lia|lia|reflexivity|exact B1|]. intros q Hq.
      destruct (HB q Hq) as (X & _). rewrite X. rewrite slice_nth by exact Hq. reflexivity.
    + apply buf_step; [lia|lia|reflexivity|exact B2|]. intros q Hq.
      destruct (HB q Hq) as (_ & X & _). rewrite X. rewrite slice_nth by exact Hq. reflexivity.
    + apply buf_step; [lia|lia|reflexivity|exact B3|]. intros q Hq.
      destruct (HB2 q Hq) as (X & _). rewrite X. rewrite slice_nth by exact Hq. reflexivity.
    + apply buf_step; [lia|lia|reflexivity|exact B4|]. intros q Hq.
      destruct (HB2 q Hq) as (_ & X & _). rewrite X. rewrite slice_nth by exact Hq. reflexivity.
  - exists m0, l0, m1, l1. rewrite E. cbn [Nat.add] in *. rewrite E8 in *. rewrite HL in *.
    split; [reflexivity|]. do 4 (split; [lia|]). split; [exact B1|]. split; [exact B2|]. split; [exact B3|exact B4].
Qed.

Lemma slice_at A q (l : list A) i d : q < 8 -> 8 * i + 8 <= length l -> In (nth (8 * i + q) l d) (slice l (8 * i) 8).
Proof. intros Hq Hl. rewrite <- (@slice_nth A l (8 * i) 8 q d) by exact Hq. apply nth_In. rewrite slice_len; lia. Qed.

(* a run of the sender that completes met no all-ones hash *)
Lemma trit_sender_good delta B r : trit_compress_sender H delta B = Ok r ->
  trit_good B (fun v => N.land v mask1) /\ trit_good B (fun v => N.lxor (N.land v mask1) (N.land delta mask1)).
Proof.
  unfold trit_compress_sender. set (D := N.land delta mask1).
  destruct (Nat.eqb_spec (length B mod 128) 0) as [HM|]; [|discriminate]. cbn [negb throw_if bind]. intros E.
  assert (E8 : 8 * (length B / 8) = length B) by (apply div8_128; exact HM).
  assert (HA : forall p, p < length B -> good_seed (H (N.land (nth p B 0%N) mask1)) /\
     good_seed (H (N.lxor (N.land (nth p B 0%N) mask1) D))).
  { intros p Hp.
    assert (Hd : p / 8 < length B / 8).
    { apply Nat.div_lt_upper_bound; lia. }
    destruct (@forN_each _ _ _ _ _ _ E (p / 8)) as ([[m0 l0] [m1 l1]] & s2 & E1); [lia|].
    rewrite readN_ok in E1 by lia. cbn [bind] in E1. rewrite !map_map in E1.
    destruct (sample8Mod3 (map (fun x => H (N.land x mask1)) (slice B (8 * (p / 8)) 8))) eqn:Ea; try discriminate E1.
    cbn [bind] in E1.
    destruct (sample8Mod3 (map (fun x => H (N.lxor (N.land x mask1) D)) (slice B (8 * (p / 8)) 8))) eqn:Eb; try discriminate E1.
    pose proof (Nat.div_mod p 8 ltac:(lia)) as Ep. pose proof (Nat.mod_upper_bound p 8 ltac:(lia)) as Hm.
    assert (HI : In (nth p B 0%N) (slice B (8 * (p / 8)) 8)).
    { rewrite Ep at 1. apply slice_at; lia. }
    split.
    - apply (sample8_good (seed := map (fun x => H (N.land x mask1)) (slice B (8 * (p / 8)) 8)) (r := a)); [|exact Ea|].
      + rewrite map_length. apply slice_len. lia.
      + apply in_map_iff. exists (nth p B 0%N). split; [reflexivity|exact HI].
    - apply (sample8_good (seed := map (fun x => H (N.lxor (N.land x mask1) D)) (slice B (8 * (p / 8)) 8)) (r := a0)); [|exact Eb|].
      + rewrite map_length. apply slice_len. lia.
      + apply in_map_iff. exists (nth p B 0%N). split; [reflexivity|exact HI]. }
  split; intros p Hp; apply (HA p Hp).
Qed.

Lemma sm_valid x : smsb x && slsb x = false.
Proof.
  unfold smsb, slsb. destruct (sample1Mod3 x) as [[p q]| | |] eqn:E; try reflexivity.
  destruct (sample1Mod3_val (sample1_good E)) as (m & l & Hv & E2 & _).
  rewrite E in E2. inversion E2; subst. destruct m, l; try discriminate Hv; reflexivity.
Qed.

Lemma trit_compress_ok delta A B k m0 l0 m1 l1 : length A = k * 128 -> cot delta A B ->
  trit_compress_sender H delta B = Ok ((m0, l0), (m1, l1)) ->
  exists ch ms ls, trit_compress_recver H A = Ok (ch, ms, ls) /\
   length ch = k * 16 /\ length ms = k * 16 /\ length ls = k * 16 /\
   length m0 = k * 16 /\ length l0 = k * 16 /\ length m1 = k * 16 /\ length l1 = k * 16 /\
   forall p, p < k * 128 -> let c := N.testbit (nth p A 0%N) 0 in
    buf_bit 8 ch p = c /\
    buf_bit 8 ms p = (if c then buf_bit 8 m1 p else buf_bit 8 m0 p) /\
    buf_bit 8 ls p = (if c then buf_bit 8 l1 p else buf_bit 8 l0 p) /\
    buf_bit 8 m0 p && buf_bit 8 l0 p = false /\ buf_bit 8 m1 p && buf_bit 8 l1 p = false.
Proof.
  intros HL HC ES. destruct (trit_sender_good ES) as [G0 G1].
  assert (HLB : length B = k * 128) by (destruct HC as [E _]; lia).
  destruct (trit_sender_ok HLB G0 G1) as (m0' & l0' & m1' & l1' & ES' & K1 & K2 & K3 & K4 & S1 & S2 & S3 & S4).
  rewrite ES in ES'. injection ES' as -> -> -> ->.
  assert (GA : trit_good A (fun v => N.land v mask1)).
  { intros p Hp. rewrite (cot_mask HC Hp). destruct (N.testbit (nth p A 0%N) 0); [apply G1|apply G0]; lia. }
  destruct (trit_recver_ok HL GA) as (ch & ms & ls & ER & L1 & L2 & L3 & R1 & R2 & R3).
  exists ch, ms, ls. split; [exact ER|]. do 7 (split; [assumption|]).
  intros p Hp. cbv zeta. rewrite R1, R2, R3, S1, S2, S3, S4 by exact Hp. split; [reflexivity|].
  rewrite (cot_mask HC) by lia. rewrite !sm_valid.
  destruct (N.testbit (nth p A 0%N) 0); repeat split.
Qed.

(* ---------- F4 bit OT ---------- *)

Definition f4d (d1 d2 d3 : N) (c : N) : N :=
  (match c with 0 => 0 | 1 => d1 | 2 => d2 | _ => d3 end)%N.

Lemma pack8_msb_store m : length m = 8 ->
  pack8_msb (map (fun v => storeu_si32 (N.land v 2)) m) = pack8 (map (fun v => N.b2n (N.testbit v 1)) m).
Proof.
  intros HL. rewrite (map_ext _ _ storeu2).
  replace (map (fun v => 2 * N.b2n (N.testbit v 1))%N m) with (map (fun b => 2 * N.b2n b)%N (map (fun v => N.testbit v 1) m))
    by (rewrite map_map; reflexivity).
  rewrite pack8_msb_eq by (rewrite map_length; exact HL). rewrite map_map. reflexivity.
Qed.

Lemma f4_recver_ok A k : length A = k * 16 ->
  exists ots ls ms, f4_compress_recver H A = Ok (ots, ls, ms) /\
   length ots = k /\ length ls = 2 * k /\ length ms = 2 * k /\
   (forall p, p < 16 * k -> buf_bit 16 ots p = N.testbit (H (N.land (nth p A 0%N) mask3)) 0) /\
   (forall p, p < 16 * k -> buf_bit 8 ls p = N.testbit (nth p A 0%N) 0) /\
   (forall p, p < 16 * k -> buf_bit 8 ms p = N.testbit (nth p A 0%N) 1).
Proof.
  intros HL. unfold f4_compress_recver.
  replace ((length A + 15) / 16) with k.
  2:{ rewrite HL. replace (k * 16 + 15) with (15 + k * 16) by lia. rewrite Nat.div_add by lia. reflexivity. }
  match goal with |- context [forN 0 ?n ?f ?s] =>
    destruct (forN_inv (P := fun i (st : list N * list N * list N) =>
      let '(ots, ls, ms) := st in length ots = i /\ length ls = 2 * i /\ length ms = 2 * i /\
      (forall p, p < 16 * i -> buf_bit 16 ots p = N.testbit (H (N.land (nth p A 0%N) mask3)) 0) /\
      (forall p, p < 16 * i -> buf_bit 8 ls p = N.testbit (nth p A 0%N) 0) /\
      (forall p, p < 16 * i -> buf_bit 8 ms p = N.testbit (nth p A 0%N) 1)) (f := f) (n := n) (i := 0) (s := s))
      as [[[ots ls] ms] [E (L1 & L2 & L3 & B1 & B2 & B3)]]
  end.
  - cbn [length]. repeat split; intros; lia.
  - intros i [[ots ls] ms] Hi (L1 & L2 & L3 & B1 & B2 & B3).
    rewrite readN_ok by lia. cbn [bind].
    assert (HLs : length (slice A (16 * i) 16) = 16) by (apply slice_len; lia).
    eexists. split; [reflexivity|]. cbv beta iota.
    rewrite !app_length. cbn [length]. do 3 (split; [lia|]).
    replace (16 * (i + 1)) with (16 * i + 16) by lia. split; [|split].
    + apply buf_step; [lia|lia|reflexivity|exact B1|]. intros q Hq.
      rewrite (c16_bit (fun v => H (N.land v mask3))) by assumption. rewrite slice_nth by exact Hq. reflexivity.
    + apply buf_step; [lia|lia|reflexivity|exact B2|]. intros q Hq. cbv zeta.
      rewrite !pack8_store. rewrite (two_bytes (fun v => N.testbit v 0)) by assumption.
      rewrite slice_nth by exact Hq. reflexivity.
    + apply buf_step; [lia|lia|reflexivity|exact B3|]. intros q Hq. cbv zeta.
      rewrite !pack8_msb_store by (rewrite ?firstn_length, ?skipn_length; lia).
      rewrite (two_bytes (fun v => N.testbit v 1)) by assumption.
      rewrite slice_nth by exact Hq. reflexivity.
  - exists ots, ls, ms. rewrite E. cbn [Nat.add] in *.
    split; [reflexivity|]. do 3 (split; [lia|]). split; [exact B1|]. split; [exact B2|exact B3].
Qed.

Lemma f4_sender_ok delta B k d2 d3 : length B = k * 16 ->
  f4_mul_block (N.land delta mask3) 2 = Ok d2 -> f4_mul_block (N.land delta mask3) 3 = Ok d3 ->
  exists o0 o1 o2 o3, f4_compress_sender H delta B = Ok (o0, o1, o2, o3) /\
   length o0 = k /\ length o1 = k /\ length o2 = k /\ length o3 = k /\
   (forall p, p < 16 * k -> buf_bit 16 o0 p = N.testbit (H (N.land (nth p B 0%N) mask3)) 0) /\
   (forall p, p < 16 * k -> buf_bit 16 o1 p = N.testbit (H (N.lxor (N.land (nth p B 0%N) mask3) (N.land delta mask3))) 0) /\
   (forall p, p < 16 * k -> buf_bit 16 o2 p = N.testbit (H (N.lxor (N.land (nth p B 0%N) mask3) d2)) 0) /\
   (forall p, p < 16 * k -> buf_bit 16 o3 p = N.testbit (H (N.lxor (N.land (nth p B 0%N) mask3) d3)) 0).
Proof.
  intros HL M2 M3. unfold f4_compress_sender. cbv zeta. rewrite M2. cbn [bind]. rewrite M3. cbn [bind].
  set (D := N.land delta mask3) in *. clearbody D.
  replace ((length B + 15) / 16) with k.
  2:{ rewrite HL. replace (k * 16 + 15) with (15 + k * 16) by lia. rewrite Nat.div_add by lia. reflexivity. }
  match goal with |- context [forN 0 ?n ?f ?s] =>
    destruct (forN_inv (P := fun i (st : list N * list N * list N * list N) =>
      let '(o0, o1, o2, o3) := st in length o0 = i /\ length o1 = i /\ length o2 = i /\ length o3 = i /\
      (forall p, p < 16 * i -> buf_bit 16 o0 p = N.testbit (H (N.land (nth p B 0%N) mask3)) 0) /\
      (forall p, p < 16 * i -> buf_bit 16 o1 p = N.testbit (H (N.lxor (N.land (nth p B 0%N) mask3) D)) 0) /\
      (forall p, p < 16 * i -> buf_bit 16 o2 p = N.testbit (H (N.lxor (N.land (nth p B 0%N) mask3) d2)) 0) /\
      (forall p, p < 16 * i -> buf_bit 16 o3 p = N.testbit (H (N.lxor (N.land (nth p B 0%N) mask3) d3)) 0))
      (f := f) (n := n) (i := 0) (s := s))
      as [[[[o0 o1] o2] o3] [E (L1 & L2 & L3 & L4 & B1 & B2 & B3 & B4)]]
  end.
  - cbn [length]. repeat split; intros; lia.
  - intros i [[[o0 o1] o2] o3] Hi (L1 & L2 & L3 & L4 & B1 & B2 & B3 & B4).
    rewrite readN_ok by lia. cbn [bind].
    assert (HLs : length (slice B (16 * i) 16) = 16) by (apply slice_len; lia).
    rewrite !map_map.
    eexists. split; [reflexivity|]. cbv beta iota.
    rewrite !app_length. cbn [length]. do 4 (split; [lia|]).
    replace (16 * (i + 1)) with (16 * i + 16) by lia. split; [|split; [|split]].
    + apply buf_step; [lia|lia|reflexivity|exact B1|]. intros q Hq.
      rewrite (c16_bit (fun v => H (N.land v mask3))) by assumption. rewrite slice_nth by exact Hq. reflexivity.
    + apply buf_step; [lia|lia|reflexivity|exact B2|]. intros q Hq.
      rewrite (c16_bit (fun v => H (N.lxor (N.land v mask3) D))) by assumption. rewrite slice_nth by exact Hq. reflexivity.
    + apply buf_step; [lia|lia|reflexivity|exact B3|]. intros q Hq.
      rewrite (c16_bit (fun v => H (N.lxor (N.land v mask3) d2))) by assumption. rewrite slice_nth by exact Hq. reflexivity.
    + apply buf_step; [lia|lia|reflexivity|exact B4|]. intros q Hq.
      rewrite (c16_bit (fun v => H (N.lxor (N.land v mask3) d3))) by assumption. rewrite slice_nth by exact Hq. reflexivity.
  - exists o0, o1, o2, o3. rewrite E. cbn [Nat.add] in *.
    split; [reflexivity|]. do 4 (split; [lia|]). split; [exact B1|]. split; [exact B2|]. split; [exact B3|exact B4].
Qed.

Lemma land_mask3_lt x : (N.land x mask3 < 2 ^ 128)%N.
Proof.
  apply bits_high_pow2. intros i Hi. rewrite N.land_spec, mask3_bit.
  replace (i <? 128)%N with false by (symmetry; apply N.ltb_ge; exact Hi). rewrite !andb_false_r. reflexivity.
Qed.

Lemma gelem_mask3 x t : (t < 64)%N -> gelem (N.land x mask3) t = if (t =? 0)%N then g0 else gelem x t.
Proof.
  intros Ht. unfold gelem. rewrite !N.land_spec, !mask3_bit.
  destruct (N.eqb_spec t 0) as [->|].
  - cbn [N.mul N.add N.leb N.compare andb]. rewrite !andb_false_r. reflexivity.
  - replace (2 <=? 2 * t)%N with true by (symmetry; apply N.leb_le; lia).
    replace (2 <=? 2 * t + 1)%N with true by (symmetry; apply N.leb_le; lia).
    replace (2 * t <? 128)%N with true by (symmetry; apply N.ltb_lt; lia).
    replace (2 * t + 1 <? 128)%N with true by (symmetry; apply N.ltb_lt; lia).
    rewrite !andb_true_r. reflexivity.
Qed.

Lemma gmul_comm x y : gmul x y = gmul y x.
Proof. destruct x as [[] []], y as [[] []]; reflexivity. Qed.

(* the receiver hashes the sender's block number c *)
Lemma vole_mask delta A B p c d : f4_vole delta A B -> p < length A ->
  gelem (nth p A 0%N) 0 = gelem c 0 -> f4_mul_block (N.land delta mask3) c = Ok d ->
  (forall t, (t < 64)%N -> gelem d t = gmul (gelem (N.land delta mask3) t) (gelem c 0)) ->
  N.land (nth p A 0%N) mask3 = N.lxor (N.land (nth p B 0%N) mask3) d.
Proof.
  intros [_ HC] Hp Hc Ed Hd. apply gelem_ext; [apply land_mask3_lt| |].
  - apply xor_lt128; [apply land_mask3_lt|]. eapply f4_mul_block_lt; [apply land_mask3_lt|exact Ed].
  - intros t Ht. change (N.lxor (N.land (nth p B 0%N) mask3) d) with (f4_plus (N.land (nth p B 0%N) mask3) d).
    rewrite f4_plus_spec, Hd, !gelem_mask3 by exact Ht. destruct (N.eqb_spec t 0).
    + destruct (gelem c 0) as [[] []]; reflexivity.
    + rewrite HC by lia. rewrite Hc, gmul_comm. reflexivity.
Qed.

Definition choice4 (l m : bool) {T} (x0 x1 x2 x3 : T) : T :=
  if m then (if l then x3 else x2) else (if l then x1 else x0).

Lemma f4_compress_ok delta A B k : length A = k * 16 -> f4_vole delta A B ->
  exists ots ls ms o0 o1 o2 o3, f4_compress_recver H A = Ok (ots, ls, ms) /\
   f4_compress_sender H delta B = Ok (o0, o1, o2, o3) /\
   length ots = k /\ length ls = 2 * k /\ length ms = 2 * k /\
   length o0 = k /\ length o1 = k /\ length o2 = k /\ length o3 = k /\
   forall p, p < 16 * k ->
    buf_bit 8 ls p = N.testbit (nth p A 0%N) 0 /\ buf_bit 8 ms p = N.testbit (nth p A 0%N) 1 /\
    buf_bit 16 ots p = nth (b2n (buf_bit 8 ls p) + 2 * b2n (buf_bit 8 ms p)) 
      [buf_bit 16 o0 p; buf_bit 16 o1 p; buf_bit 16 o2 p; buf_bit 16 o3 p] false.
Proof.
  intros HL HC. destruct (f4_recver_ok HL) as (ots & ls & ms & ER & K1 & K2 & K3 & R1 & R2 & R3).
  assert (HLB : length B = k * 16) by (destruct HC as [E _]; lia).
  destruct (@f4_mul_block_total (N.land delta mask3) 2) as (d2 & M2 & G2); [lia|].
  destruct (@f4_mul_block_total (N.land delta mask3) 3) as (d3 & M3 & G3); [lia|].
  destruct (@f4_mul_block_total (N.land delta mask3) 1) as (d1 & M1 & G1); [lia|].
  destruct (@f4_mul_block_total (N.land delta mask3) 0) as (d0 & M0 & G0); [lia|].
  destruct (f4_sender_ok HLB M2 M3) as (o0 & o1 & o2 & o3 & ES & K4 & K5 & K6 & K7 & S0 & S1 & S2 & S3).
  exists ots, ls, ms, o0, o1, o2, o3. split; [exact ER|]. split; [exact ES|]. do 7 (split; [assumption|]).
  intros p Hp. rewrite R1, R2, R3, S0, S1, S2, S3 by exact Hp. split; [reflexivity|]. split; [reflexivity|].
  assert (Hpl : p < length A) by lia.
  assert (HV : forall c d, gelem (nth p A 0%N) 0 = gelem c 0 -> f4_mul_block (N.land delta mask3) c = Ok d ->
     (forall t, (t < 64)%N -> gelem d t = gmul (gelem (N.land delta mask3) t) (gelem c 0)) ->
     N.land (nth p A 0%N) mask3 = N.lxor (N.land (nth p B 0%N) mask3) d) by (intros; eapply vole_mask; eauto).
  unfold gelem at 1 in HV. change (2 * 0)%N with 0%N in HV. change (0 + 1)%N with 1%N in HV.
  cbn [f4_mul_block] in M0, M1. injection M0 as <-. injection M1 as <-.
  destruct (N.testbit (nth p A 0%N) 0), (N.testbit (nth p A 0%N) 1); cbn [b2n Nat.add Nat.mul nth].
  - rewrite (HV 3%N d3 eq_refl M3 G3). reflexivity.
  - rewrite (HV 1%N _ eq_refl eq_refl G1). reflexivity.
  - rewrite (HV 2%N d2 eq_refl M2 G2). reflexivity.
  - rewrite (HV 0%N _ eq_refl eq_refl G0). rewrite N.lxor_0_r. reflexivity.
Qed.
End H.

(* ---------- mock correlations ---------- *)

Lemma lo_join l h : (l < 2 ^ 64)%N -> lo64 (join64 l h) = l.
Proof.
  intros Hl. unfold lo64. apply N.bits_inj. intros i. rewrite N.land_spec, join64_bit by exact Hl.
  destruct (N.ltb_spec i 64).
  - rewrite N.ones_spec_low by assumption. apply andb_true_r.
  - rewrite N.ones_spec_high, andb_false_r by assumption. symmetry. apply (pow2_bits_high (w := 64)); assumption.
Qed.
Lemma hi_join l h : (l < 2 ^ 64)%N -> (h < 2 ^ 64)%N -> hi64 (join64 l h) = h.
Proof.
  intros Hl Hh. unfold hi64. apply N.bits_inj. intros i. rewrite N.land_spec, N.shiftr_spec', join64_bit by exact Hl.
  destruct (N.ltb_spec (i + 64) 64); [lia|]. replace (i + 64 - 64)%N with i by lia.
  destruct (N.ltb_spec i 64).
  - rewrite N.ones_spec_low by assumption. apply andb_true_r.
  - rewrite N.ones_spec_high, andb_false_r by assumption. symmetry. apply (pow2_bits_high (w := 64)); assumption.
Qed.
Lemma join_parts x : (x < 2 ^ 128)%N -> join64 (lo64 x) (hi64 x) = x.
Proof.
  intros Hx. apply N.bits_inj. intros i. rewrite join64_bit by apply land_ones_lt. unfold lo64, hi64.
  destruct (N.ltb_spec i 64).
  - rewrite N.land_spec, N.ones_spec_low by assumption. apply andb_true_r.
  - rewrite N.land_spec, N.shiftr_spec'. replace (i - 64 + 64)%N with i by lia.
    destruct (N.ltb_spec i 128).
    + rewrite N.ones_spec_low by lia. apply andb_true_r.
    + rewrite N.ones_spec_high, andb_false_r by lia. symmetry. apply (pow2_bits_high (w := 128)); assumption.
Qed.
Lemma join_xor l h : (l < 2 ^ 64)%N -> N.lxor (join64 l 0) (join64 0 h) = join64 l h.
Proof.
  intros Hl. apply N.bits_inj. intros i. rewrite N.lxor_spec, !join64_bit by (try exact Hl; lia).
  destruct (N.ltb_spec i 64); rewrite N.bits_0; [apply xorb_false_r|apply xorb_false_l].
Qed.
Lemma join_lor a b c d : N.lor (join64 a b) (join64 c d) = join64 (N.lor a c) (N.lor b d).
Proof.
  unfold join64. rewrite N.shiftl_lor. rewrite !N.lor_assoc. f_equal.
  rewrite <- !N.lor_assoc. f_equal. apply N.lor_comm.
Qed.

(* the three words of one mock OLE *)
Definition mock3 (mm a b : N) : Prop :=
  exists l h, (l < 2 ^ 64)%N /\ (h < 2 ^ 64)%N /\ mm = join64 l h /\ a = join64 l 0 /\ b = join64 0 h.

Lemma mock3_valid mm a b : mock3 mm a b -> N.lxor a b = mm.
Proof. intros (l & h & Hl & Hh & -> & -> & ->). apply join_xor. exact Hl. Qed.

Lemma rot_join s l h : (l < 2 ^ 64)%N -> (h < 2 ^ 64)%N ->
  N.lor (shr64 s (join64 l h)) (shl64 s (join64 l h)) =
  join64 (N.lor (N.shiftr l s) (N.land (N.shiftl l s) (N.ones 64))) (N.lor (N.shiftr h s) (N.land (N.shiftl h s) (N.ones 64))).
Proof. intros Hl Hh. unfold shr64, shl64. rewrite lo_join, hi_join by assumption. apply join_lor. Qed.

Lemma rot_lt s l : (l < 2 ^ 64)%N -> (N.lor (N.shiftr l s) (N.land (N.shiftl l s) (N.ones 64)) < 2 ^ 64)%N.
Proof.
  intros Hl. apply bits_high_pow2. intros i Hi. rewrite N.lor_spec, N.land_spec, N.shiftr_spec', N.ones_spec_high, andb_false_r by exact Hi.
  rewrite orb_false_r. apply (pow2_bits_high (w := 64)); [exact Hl|lia].
Qed.

Lemma mock3_rot s mm a b : mock3 mm a b ->
  mock3 (N.lor (shr64 s mm) (shl64 s mm)) (N.lor (shr64 s a) (shl64 s a)) (N.lor (shr64 s b) (shl64 s b)).
Proof.
  intros (l & h & Hl & Hh & -> & -> & ->). rewrite !rot_join by (try assumption; lia).
  assert (Z : N.lor (N.shiftr 0 s) (N.land (N.shiftl 0 s) (N.ones 64)) = 0%N).
  { rewrite N.shiftr_0_l, N.shiftl_0_l. reflexivity. }
  rewrite Z. eexists _, _. split; [|split; [|split; [reflexivity|split; reflexivity]]]; apply rot_lt; assumption.
Qed.

Lemma mock3_add mm a b c d : (c < 2 ^ 64)%N -> (d < 2 ^ 64)%N -> mock3 mm a b ->
  mock3 (add64 mm (join64 c d)) (add64 a (join64 c 0)) (add64 b (join64 0 d)).
Proof.
  intros Hc Hd (l & h & Hl & Hh & -> & -> & ->). unfold add64.
  rewrite !lo_join, !hi_join by (try assumption; lia). change (N.land (0 + 0) (N.ones 64)) with 0%N.
  eexists _, _. split; [|split; [|split; [reflexivity|split; reflexivity]]]; apply land_ones_lt.
Qed.

Definition mock_rel (x y : list N * list N) : Prop :=
  snd x = snd y /\ length (fst x) = length (snd x) /\ length (fst y) = length (snd x) /\
  forall i, i < length (snd x) -> N.lxor (nth i (fst x) 0%N) (nth i (fst y) 0%N) = nth i (snd x) 0%N.

Lemma mock_rel_app x y a m b : mock_rel x y -> length a = length m -> length b = length m ->
  (forall i, i < length m -> N.lxor (nth i a 0%N) (nth i b 0%N) = nth i m 0%N) ->
  mock_rel (fst x ++ a, snd x ++ m) (fst y ++ b, snd y ++ m).
Proof.
  intros (E1 & E2 & E3 & E4) Ha Hb Hm. unfold mock_rel. cbn [fst snd]. rewrite !app_length.
  split; [congruence|]. split; [lia|]. split; [lia|]. intros i Hi.
  destruct (Nat.lt_ge_cases i (length (snd x))).
  - rewrite !app_nth1 by lia. apply E4. assumption.
  - rewrite !app_nth2 by lia. rewrite E2, E3. apply Hm. lia.
Qed.

Lemma mock8_rel mm a b : mock3 mm a b ->
  forall i, i < length (mock8 mm) -> N.lxor (nth i (mock8 a) 0%N) (nth i (mock8 b) 0%N) = nth i (mock8 mm) 0%N.
Proof.
  intros HR i Hi. unfold mock8 in *. cbn [map length] in *.
  do 8 (destruct i as [|i]; [cbn [nth]; apply mock3_valid; try (apply mock3_rot); exact HR|]). lia.
Qed.

Lemma ole_mock_ok aes m : (aes < 2 ^ 128)%N -> (N.of_nat m <= 2 ^ 64)%N ->
  exists addS multS addR multR, ole_mock_sender aes m = Ok (addS, multS) /\ ole_mock_recver aes m = Ok (addR, multR) /\
   length addS = m /\ length multS = m /\ length addR = m /\ length multR = m /\
   forall i, i < m -> N.lxor (nth i addS 0%N) (nth i addR 0%N) = N.land (nth i multS 0%N) (nth i multR 0%N).
Proof.
  intros HA HM. unfold ole_mock_sender, ole_mock_recver.
  match goal with |- context [bind (forN 0 (m / 8) ?f ?s) _] => set (fs := f); set (s0 := s) end.
  match goal with |- context [_ /\ bind (forN 0 (m / 8) ?f ?s) _ = _ /\ _] => set (fr := f); set (r0 := s) end.
  assert (HL : exists s' r', forN 0 (m / 8) fs s0 = Ok s' /\ forN 0 (m / 8) fr r0 = Ok r' /\
    mock_rel (fst s') (fst r') /\ length (snd (fst s')) = 8 * (m / 8)).
  { assert (HG : forall n, exists s' r', forN 0 n fs s0 = Ok s' /\ forN 0 n fr r0 = Ok r' /\
      mock_rel (fst s') (fst r') /\ length (snd (fst s')) = 8 * n /\
      fst (snd s') = fst (snd r') /\ mock3 (fst (snd s')) (snd (snd s')) (snd (snd r'))).
    { induction n as [|n IH].
      - exists s0, r0. split; [reflexivity|]. split; [reflexivity|]. unfold s0, r0. cbn [fst snd].
        split; [repeat split; intros i Hi; cbn in Hi; lia|]. split; [reflexivity|]. split; [reflexivity|].
        exists (lo64 aes), (hi64 aes). split; [apply land_ones_lt|]. split; [apply land_ones_lt|].
        split; [symmetry; apply join_parts; exact HA|]. split; reflexivity.
      - destruct IH as ([[sa sm] [smm saa]] & [[ra rm] [rmm raa]] & E1 & E2 & MR & ML & EQ & M3).
        cbn [fst snd] in *. subst rmm.
        replace (Datatypes.S n) with (n + 1) by lia. rewrite !forN_app, E1, E2. cbn [bind].
        cbn [forN Nat.add]. unfold fs, fr. cbn [bind]. eexists _, _. split; [reflexivity|]. split; [reflexivity|].
        cbn [fst snd]. split.
        + apply (@mock_rel_app (sa, sm) (ra, rm)); [exact MR|reflexivity|reflexivity|]. apply mock8_rel. exact M3.
        + split; [rewrite app_length; cbn [mock8 length map]; lia|]. split; [reflexivity|].
          apply mock3_add; [reflexivity|reflexivity|exact M3]. }
    destruct (HG (m / 8)) as (s' & r' & E1 & E2 & MR & ML & _). exists s', r'. auto. }
  destruct HL as (s' & r' & E1 & E2 & MR & ML). rewrite E1, E2. cbn [bind].
  destruct s' as [[sa sm] s2], r' as [[ra rm] r2]. cbn [fst snd] in *.
  match goal with |- context [forN ?a ?n ?f (sa, sm)] => set (gs := f) end.
  match goal with |- context [forN ?a ?n ?f (ra, rm)] => set (gr := f) end.
  assert (HG : forall n a x y, (N.of_nat (a + n) <= 2 ^ 64)%N -> mock_rel x y -> exists x' y', forN a n gs x = Ok x' /\ forN a n gr y = Ok y' /\
     mock_rel x' y' /\ length (snd x') = length (snd x) + n).
  { intros n. induction n as [|n IH]; intros a x y Ha HR.
    - exists x, y. cbn [forN]. repeat split; try apply HR. lia.
    - cbn [forN]. unfold gs at 1, gr at 1. cbn [bind].
      destruct (IH (a + 1) (fst x ++ [join64 (N.of_nat a) 0], snd x ++ [join64 (N.of_nat a) (N.of_nat a)])
        (fst y ++ [join64 0 (N.of_nat a)], snd y ++ [join64 (N.of_nat a) (N.of_nat a)])) as (x' & y' & F1 & F2 & F3 & F4).
      { replace (a + 1 + n) with (a + Datatypes.S n) by lia. exact Ha. }
      { apply mock_rel_app; [exact HR|reflexivity|reflexivity|]. intros i Hi. cbn [length] in Hi.
        destruct i; [|lia]. cbn [nth]. apply join_xor. lia. }
      exists x', y'. split; [exact F1|]. split; [exact F2|]. split; [exact F3|].
      rewrite F4. cbn [snd]. rewrite app_length. cbn [length]. lia. }
  pose proof (Nat.div_mod m 8 ltac:(lia)) as Em. 
  destruct (HG (m - m / 8 * 8) (m / 8 * 8) (sa, sm) (ra, rm)) as (x' & y' & F1 & F2 & (R1 & R2 & R3 & R4) & F4).
  { replace (m / 8 * 8 + (m - m / 8 * 8)) with m by lia. exact HM. }
  { exact MR. }
  cbn [snd] in F4. rewrite ML in F4.
  destruct x' as [xa xm], y' as [ya ym]. cbn [fst snd] in *. subst ym.
  exists xa, xm, ya, xm. split; [exact F1|]. split; [exact F2|].
  assert (Lm : length xm = m) by lia. rewrite Lm in R2, R3, R4.
  do 4 (split; [assumption|]). intros i Hi. rewrite N.land_diag. apply R4. exact Hi.
Qed.

Lemma trit_mock_ok m i k : i < m -> (k < 128)%N ->
  let '((m0, l0), (m1, l1)) := trit_mock_sender m in
  let '(ch, ms, ls) := trit_mock_recver m in
  let bit (l : list N) := N.testbit (nth i l 0%N) k in
  bit ms = (if bit ch then bit m1 else bit m0) /\ bit ls = (if bit ch then bit l1 else bit l0) /\
  bit m0 && bit l0 = false /\ bit m1 && bit l1 = false.
Proof.
  intros Hi Hk. unfold trit_mock_sender, trit_mock_recver. cbv zeta.
  assert (HR : forall x, nth i (repeat x m) 0%N = x).
  { intros x. rewrite (nth_indep _ 0%N x) by (rewrite repeat_length; exact Hi). apply nth_repeat. }
  rewrite !HR. rewrite !map_map.
  rewrite !nth_map_seq by exact Hi. set (c := tm_choice i). clearbody c.
  assert (HV : forall x, N.testbit (N.land (wnot 128 (N.land x CCBlock)) CCBlock) k && N.testbit (N.land x CCBlock) k = false).
  { intros x. unfold wnot. rewrite !N.land_spec, N.lxor_spec, N.land_spec, N.ones_spec_low by exact Hk.
    destruct (N.testbit x k), (N.testbit CCBlock k); reflexivity. }
  assert (HC : N.testbit (wnot 128 c) k = negb (N.testbit c k)).
  { unfold wnot. rewrite N.lxor_spec, N.ones_spec_low by exact Hk. apply xorb_true_r. }
  rewrite !N.lxor_spec. rewrite !(N.land_spec _ c), !(N.land_spec _ (wnot 128 c)), !HC.
  split; [|split; [|split; apply HV]]; destruct (N.testbit c k);
    rewrite ?andb_true_r, ?andb_false_r, ?xorb_false_l, ?xorb_false_r; cbn [negb]; rewrite ?andb_true_r, ?andb_false_r, ?xorb_false_l, ?xorb_false_r; reflexivity.
Qed.

(* ---------- builds without SSE ---------- *)

Lemma compress16_fb_zero m : compress16_fb m = 0%N.
Proof.
  unfold compress16_fb. cbv zeta. rewrite slli_fb_ok, movemask_fb_bits.
  set (x := N.lxor _ _). clearbody x.
  apply N.bits_inj. intros k. rewrite N.bits_0. replace k with (N.of_nat (N.to_nat k)) by lia.
  rewrite of_bits_bit. destruct (Nat.lt_ge_cases (N.to_nat k) 16) as [Hk|Hk].
  - rewrite nth_map_seq by exact Hk. destruct (N.lt_ge_cases (2 * N.of_nat (N.to_nat k)) 8) as [H8|H8].
    + rewrite byteN_bit by exact H8. change (8 * N.of_nat 0)%N with 0%N. rewrite N.add_0_l.
      set (r := (2 * N.of_nat (N.to_nat k))%N) in *.
      replace r with (16 * N.of_nat 0 + r)%N by lia. rewrite slli_bit by lia.
      replace (7 <=? r)%N with false; [reflexivity|]. symmetry. apply N.leb_gt. unfold r in *. lia.
    + apply (pow2_bits_high (w := 8)); [apply (byte_of_lt _)|exact H8].
  - apply nth_overflow. rewrite map_length, seq_length. exact Hk.
Qed.

(* ---------- where the hypotheses come from ---------- *)

(* correlated OTs as libOTe outputs them with choice bit packing: the sender's entries and delta
   have bit 0 equal to 0 and 1 *)
Lemma cot_intro delta c B : length c = length B -> N.testbit delta 0 = true ->
  (forall b, In b B -> N.testbit b 0 = false) ->
  cot delta (map2 (fun (x : bool) b => if x then N.lxor b delta else b) c B) B.
Proof.
  intros HL HD HB. split; [rewrite map2_length; lia|]. rewrite map2_length, HL, Nat.min_id.
  intros p k Hp Hk.
  assert (E : nth p (map2 (fun (x : bool) b => if x then N.lxor b delta else b) c B) 0%N =
    if nth p c false then N.lxor (nth p B 0%N) delta else nth p B 0%N).
  { clear - HL Hp. revert B p HL Hp. induction c as [|x c IH]; intros [|b B] p HL Hp; cbn [length] in *; try lia.
    destruct p; [reflexivity|]. cbn [map2 nth]. apply IH; lia. }
  rewrite E. pose proof (HB (nth p B 0%N) (nth_In _ _ Hp)) as H0.
  destruct (nth p c false).
  - rewrite !N.lxor_spec, H0, HD. reflexivity.
  - rewrite H0. cbn [andb]. rewrite xorb_false_r. reflexivity.
Qed.

(* F4 VOLEs as the silent F4 VOLE outputs them with packed choices *)
Definition vole_entry (delta : N) (c b : N) : N :=
  match f4_mul_block delta c with Ok d => f4_plus b d | _ => 0%N end.

Lemma f4_vole_intro delta cs B : length cs = length B -> (forall c, In c cs -> (c < 4)%N) ->
  gelem delta 0 = g1 -> (forall b, In b B -> gelem b 0 = g0) -> f4_vole delta (map2 (vole_entry delta) cs B) B.
Proof.
  intros HL HCs HD HB. split; [rewrite map2_length; lia|]. rewrite map2_length, HL, Nat.min_id.
  intros p t Hp Ht.
  assert (E : nth p (map2 (vole_entry delta) cs B) 0%N = vole_entry delta (nth p cs 0%N) (nth p B 0%N)).
  { clear - HL Hp. revert B p HL Hp. induction cs as [|x c IH]; intros [|b B] p HL Hp; cbn [length] in *; try lia.
    destruct p; [reflexivity|]. cbn [map2 nth]. apply IH; lia. }
  rewrite E. unfold vole_entry.
  assert (Hc : (nth p cs 0 < 4)%N) by (apply HCs, nth_In; lia).
  destruct (f4_mul_block_total delta Hc) as (d & Ed & Gd). rewrite Ed.
  rewrite !f4_plus_spec, !Gd by lia. rewrite HD, (HB _ (nth_In _ _ Hp)).
  f_equal. rewrite gmul_comm. destruct (gelem delta t) as [[] []], (gelem (nth p cs 0%N) 0) as [[] []]; reflexivity.
Qed.
