From Verif Require Import Base Words Mod3Model PrfModel SimdModel ShuffleModel ShuffleSpec Mod3Proofs SimdProofs CompressProofs GF4Proofs.

(* ---------------- one round ---------------- *)

(* where round s takes bit i of a 32-bit word from *)
Definition rp (s i : N) : N :=
  if N.testbit (sh_mask s) i then (i + s)%N
  else if (s <=? i)%N && N.testbit (sh_mask s) (i - s) then (i - s)%N else i.

Definition is_shift (s : N) : Prop := In s [1; 2; 4; 8]%N.

Lemma cases32 k : (k < 32)%N -> In k (map N.of_nat (seq 0 32)).
Proof.
  intros H. rewrite <- (N2Nat.id k). apply in_map. apply in_seq. lia.
Qed.

Lemma mask_facts s k : is_shift s -> (k < 32)%N ->
  (N.testbit (sh_mask s) k = true -> (k + s < 32)%N /\ N.testbit (sh_mask s) (k + s) = false) /\
  (N.testbit (sh_mask s) k = true -> (s <=? k)%N && N.testbit (sh_mask s) (k - s) = false).
Proof.
  intros Hs Hk.
  assert (H : forallb (fun s => forallb (fun k =>
    implb (N.testbit (sh_mask s) k) ((k + s <? 32)%N && negb (N.testbit (sh_mask s) (k + s)) &&
       negb ((s <=? k)%N && N.testbit (sh_mask s) (k - s)))) (map N.of_nat (seq 0 32))) [1; 2; 4; 8]%N = true)
    by (vm_compute; reflexivity).
  rewrite forallb_forall in H. specialize (H s Hs). rewrite forallb_forall in H.
  specialize (H k (cases32 Hk)).
  destruct (N.testbit (sh_mask s) k); simpl in H.
  - apply andb_true_iff in H. destruct H as [H H3]. apply andb_true_iff in H. destruct H as [H1 H2].
    apply N.ltb_lt in H1. apply negb_true_iff in H2, H3. auto.
  - split; discriminate.
Qed.

Lemma rp_lt s k : is_shift s -> (k < 32)%N -> (rp s k < 32)%N.
Proof.
  intros Hs Hk. unfold rp. destruct (N.testbit (sh_mask s) k) eqn:E.
  - apply (mask_facts Hs Hk); exact E.
  - destruct ((s <=? k)%N && N.testbit (sh_mask s) (k - s)); lia.
Qed.

Lemma c_round_bit s x k : is_shift s -> (k < 32)%N ->
  N.testbit (c_round s x) k = N.testbit x (rp s k).
Proof.
  intros Hs Hk. destruct (mask_facts Hs Hk) as [H1 H2].
  unfold c_round, rp. bits_rw. rewrite N.shiftr_spec', N.ones_spec_low, andb_true_r by exact Hk.
  destruct (N.testbit (sh_mask s) k) eqn:E.
  - specialize (H2 eq_refl). rewrite andb_true_r.
    assert (E2 : N.testbit (N.shiftl (N.land (N.lxor x (N.shiftr x s)) (sh_mask s)) s) k = false).
    { destruct (N.leb_spec s k) as [L|L].
      - rewrite N.shiftl_spec_high' by exact L. bits_rw. simpl in H2. rewrite H2. apply andb_false_r.
      - rewrite N.shiftl_spec_low by exact L. reflexivity. }
    rewrite E2. destruct (N.testbit x k), (N.testbit x (k + s)); reflexivity.
  - rewrite andb_false_r, xorb_false_r.
    destruct (N.leb_spec s k) as [L|L].
    + rewrite N.shiftl_spec_high' by exact L. bits_rw. rewrite N.shiftr_spec'.
      replace (k - s + s)%N with k by lia. simpl andb.
      destruct (N.testbit (sh_mask s) (k - s)).
      * destruct (N.testbit x k), (N.testbit x (k - s)); reflexivity.
      * rewrite andb_false_r. apply xorb_false_r.
    + rewrite N.shiftl_spec_low by exact L. simpl. apply xorb_false_r.
Qed.

Lemma word32_bit x j k : (k < 32)%N -> N.testbit (word32 x j) k = N.testbit x (32 * N.of_nat j + k).
Proof.
  intros H. unfold word32. rewrite N.land_spec, N.ones_spec_low, andb_true_r by exact H.
  rewrite N.shiftr_spec'. f_equal. lia.
Qed.

Lemma word32_lt x j : (word32 x j < 2 ^ 32)%N.
Proof. unfold word32. rewrite N.land_ones. apply N.mod_lt. discriminate. Qed.

Lemma word32_high x j k : (32 <= k)%N -> N.testbit (word32 x j) k = false.
Proof. intros H. unfold word32. rewrite N.land_spec, N.ones_spec_high by exact H. apply andb_false_r. Qed.

Lemma srli32_bit s x j k : j < 4 -> (k < 32)%N ->
  N.testbit (srli_epi32 s x) (32 * N.of_nat j + k) =
  (k + s <? 32)%N && N.testbit x (32 * N.of_nat j + (k + s)).
Proof.
  intros Hj Hk. unfold srli_epi32. rewrite of_words_bit; [|lia| |exact Hk].
  - rewrite nth_map_seq by exact Hj. rewrite N.shiftr_spec'.
    destruct (N.ltb_spec (k + s) 32) as [L|L].
    + rewrite word32_bit by exact L. reflexivity.
    + rewrite word32_high by exact L. reflexivity.
  - apply Forall_forall. intros y Hy. apply in_map_iff in Hy. destruct Hy as [i [<- _]].
    rewrite N.shiftr_div_pow2.
    pose proof (word32_lt x i) as L. apply N.le_lt_trans with (word32 x i); [|exact L].
    apply N.div_le_upper_bound; [apply N.pow_nonzero; discriminate|].
    pose proof (N.pow_nonzero 2 s). nia.
Qed.

Lemma slli32_bit s x j k : j < 4 -> (k < 32)%N ->
  N.testbit (slli_epi32 s x) (32 * N.of_nat j + k) =
  (s <=? k)%N && N.testbit x (32 * N.of_nat j + (k - s)).
Proof.
  intros Hj Hk. unfold slli_epi32. rewrite of_words_bit; [|lia| |exact Hk].
  - rewrite nth_map_seq by exact Hj. rewrite N.land_spec, N.ones_spec_low, andb_true_r by exact Hk.
    destruct (N.leb_spec s k) as [L|L].
    + rewrite N.shiftl_spec_high' by exact L. rewrite word32_bit by lia. reflexivity.
    + rewrite N.shiftl_spec_low by exact L. reflexivity.
  - apply Forall_forall. intros y Hy. apply in_map_iff in Hy. destruct Hy as [i [<- _]].
    rewrite N.land_ones. apply N.mod_lt. discriminate.
Qed.

Lemma mask_lt s : is_shift s -> (sh_mask s < 2 ^ 32)%N.
Proof. intros H. repeat (destruct H as [<-|H]; [reflexivity|]). destruct H. Qed.

Lemma set1_bit v j k : (v < 2 ^ 32)%N -> j < 4 -> (k < 32)%N ->
  N.testbit (set1_epi32 v) (32 * N.of_nat j + k) = N.testbit v k.
Proof.
  intros Hv Hj Hk. unfold set1_epi32. rewrite of_words_bit; [|lia| |exact Hk].
  - destruct j as [|[|[|[|j]]]]; try reflexivity. lia.
  - repeat constructor; exact Hv.
Qed.

Lemma sse_round_bit_jk s x j k : is_shift s -> j < 4 -> (k < 32)%N ->
  N.testbit (sse_round s x) (32 * N.of_nat j + k) = N.testbit x (32 * N.of_nat j + rp s k).
Proof.
  intros Hs Hj Hk. destruct (mask_facts Hs Hk) as [H1 H2].
  unfold sse_round, rp. cbv zeta. set (T := N.land _ _).
  assert (HT : forall k, (k < 32)%N -> N.testbit T (32 * N.of_nat j + k) =
    xorb ((k + s <? 32)%N && N.testbit x (32 * N.of_nat j + (k + s))) (N.testbit x (32 * N.of_nat j + k)) && N.testbit (sh_mask s) k).
  { intros k' Hk'. unfold T.
    rewrite N.land_spec, N.lxor_spec, srli32_bit, set1_bit by (try assumption; apply mask_lt; assumption). reflexivity. }
  rewrite N.lxor_spec, slli32_bit, N.lxor_spec, (HT k) by assumption.
  destruct (N.testbit (sh_mask s) k) eqn:E.
  - specialize (H2 eq_refl). destruct (H1 eq_refl) as [H3 _]. apply N.ltb_lt in H3. rewrite H3.
    assert (E2 : (s <=? k)%N && N.testbit T (32 * N.of_nat j + (k - s)) = false).
    { destruct (N.leb_spec s k) as [L|L]; [|reflexivity]. rewrite andb_true_l in *. rewrite HT by lia. rewrite H2. apply andb_false_r. }
    rewrite E2. destruct (N.testbit x (32 * N.of_nat j + k)), (N.testbit x (32 * N.of_nat j + (k + s))); reflexivity.
  - rewrite andb_false_r, xorb_false_l.
    destruct (N.leb_spec s k) as [L|L]; simpl andb; [|apply xorb_false_l].
    rewrite HT by lia.
    destruct (N.testbit (sh_mask s) (k - s)) eqn:E3.
    + replace (k - s + s)%N with k by lia. replace (k <? 32)%N with true by (symmetry; apply N.ltb_lt; exact Hk).
      destruct (N.testbit x (32 * N.of_nat j + k)), (N.testbit x (32 * N.of_nat j + (k - s))); reflexivity.
    + rewrite andb_false_r. apply xorb_false_l.
Qed.

(* the same with a flat position *)
Definition rpb (s i : N) : N := (32 * (i / 32) + rp s (i mod 32))%N.

Lemma sse_round_bit s x i : is_shift s -> (i < 128)%N ->
  N.testbit (sse_round s x) i = N.testbit x (rpb s i).
Proof.
  intros Hs Hi. unfold rpb.
  pose proof (N.div_mod i 32 ltac:(discriminate)) as E.
  pose proof (N.mod_lt i 32 ltac:(discriminate)) as L.
  assert (Lq : (i / 32 < 4)%N) by (apply N.div_lt_upper_bound; [discriminate|exact Hi]).
  rewrite E at 1. rewrite <- (N2Nat.id (i / 32)).
  rewrite sse_round_bit_jk; [reflexivity|exact Hs|lia|exact L].
Qed.

Lemma rpb_lt s i : is_shift s -> (i < 128)%N -> (rpb s i < 128)%N.
Proof.
  intros Hs Hi. unfold rpb.
  assert (Lq : (i / 32 < 4)%N) by (apply N.div_lt_upper_bound; [discriminate|exact Hi]).
  pose proof (@rp_lt s (i mod 32) Hs (N.mod_lt i 32 ltac:(discriminate))). lia.
Qed.

(* where a byte shuffle takes bit i from *)
Definition bp (b i : N) : N := (8 * N.land (byte_of b (i / 8)) 15 + i mod 8)%N.

Lemma shuffle_epi8_bit a b i : (i < 128)%N -> N.testbit (byte_of b (i / 8)) 7 = false ->
  N.testbit (shuffle_epi8 a b) i = N.testbit a (bp b i).
Proof.
  intros Hi Hb. unfold bp.
  pose proof (N.div_mod i 8 ltac:(discriminate)) as E.
  pose proof (N.mod_lt i 8 ltac:(discriminate)) as L.
  assert (Lq : (i / 8 < 16)%N) by (apply N.div_lt_upper_bound; [discriminate|exact Hi]).
  rewrite E at 1. rewrite <- (N2Nat.id (i / 8)) at 1.
  rewrite shuffle_bit; [|lia|exact L].
  rewrite <- byteN_bit by lia. unfold byteN. rewrite N2Nat.id, Hb.
  unfold byte_of at 1. change 255%N with (N.ones 8).
  rewrite N.land_spec, N.ones_spec_low, andb_true_r by exact L.
  rewrite N.shiftr_spec'. f_equal. lia.
Qed.

Lemma cases128 k : (k < 128)%N -> In k (map N.of_nat (seq 0 128)).
Proof. intros H. rewrite <- (N2Nat.id k). apply in_map. apply in_seq. lia. Qed.

Lemma is_shift1 : is_shift 1. Proof. left; reflexivity. Qed.
Lemma is_shift2 : is_shift 2. Proof. right; left; reflexivity. Qed.
Lemma is_shift4 : is_shift 4. Proof. right; right; left; reflexivity. Qed.
Lemma is_shift8 : is_shift 8. Proof. right; right; right; left; reflexivity. Qed.
#[export] Hint Resolve is_shift1 is_shift2 is_shift4 is_shift8 rp_lt rpb_lt : shifts.

Definition unsh_pos (h i : N) : N := if N.even i then (i / 2)%N else (h + i / 2)%N.

Lemma c_shuffle_bit x0 x1 i : (x0 < 2 ^ 16)%N -> (i < 32)%N ->
  N.testbit (c_shuffle x0 x1) i = N.testbit (if N.even i then x0 else x1) (i / 2).
Proof.
  intros H0 Hi. unfold c_shuffle. cbv zeta.
  rewrite !c_round_bit by eauto 6 with shifts.
  assert (H : forallb (fun i => (rp 8 (rp 4 (rp 2 (rp 1 i))) =? unsh_pos 16 i)%N) (map N.of_nat (seq 0 32)) = true)
    by (vm_compute; reflexivity).
  rewrite forallb_forall in H. specialize (H i (cases32 Hi)). apply N.eqb_eq in H. rewrite H.
  unfold unsh_pos. rewrite N.lor_spec.
  assert (Lh : (i / 2 < 16)%N) by (apply N.div_lt_upper_bound; [discriminate|exact Hi]).
  destruct (N.even i).
  - rewrite N.shiftl_spec_low by exact Lh. apply orb_false_r.
  - rewrite (pow2_bits_high H0) by lia. rewrite N.shiftl_spec_high' by lia.
    rewrite orb_false_l. f_equal. lia.
Qed.

Lemma sh_bytes_ok i : (i < 128)%N -> N.testbit (byte_of sh_bytes (i / 8)) 7 = false /\ N.testbit (byte_of unsh_bytes (i / 8)) 7 = false.
Proof.
  intros Hi.
  assert (H : forallb (fun i => negb (N.testbit (byte_of sh_bytes (i / 8)) 7) && negb (N.testbit (byte_of unsh_bytes (i / 8)) 7))
     (map N.of_nat (seq 0 128)) = true) by (vm_compute; reflexivity).
  rewrite forallb_forall in H. specialize (H i (cases128 Hi)).
  apply andb_true_iff in H. destruct H as [H H']. apply negb_true_iff in H, H'. auto.
Qed.

Lemma sse_shuffle_bit x0 x1 i : (x0 < 2 ^ 64)%N -> (x1 < 2 ^ 64)%N -> (i < 128)%N ->
  N.testbit (sse_shuffle x0 x1) i = N.testbit (if N.even i then x0 else x1) (i / 2).
Proof.
  intros H0 H1 Hi. unfold sse_shuffle. cbv zeta.
  rewrite !sse_round_bit by eauto 6 with shifts.
  rewrite shuffle_epi8_bit; [| eauto 6 with shifts | apply sh_bytes_ok; eauto 6 with shifts].
  assert (H : forallb (fun i => (bp sh_bytes (rpb 4 (rpb 2 (rpb 1 i))) =? unsh_pos 64 i)%N) (map N.of_nat (seq 0 128)) = true)
    by (vm_compute; reflexivity).
  rewrite forallb_forall in H. specialize (H i (cases128 Hi)). apply N.eqb_eq in H. rewrite H.
  unfold unsh_pos.
  assert (Lh : (i / 2 < 64)%N) by (apply N.div_lt_upper_bound; [discriminate|exact Hi]).
  assert (HF : Forall (fun x => (x < 2 ^ 64)%N) [x0; x1]) by (repeat constructor; assumption).
  destruct (N.even i).
  - exact (@of_words_bit 64 ltac:(lia) [x0; x1] 0 (i / 2)%N HF Lh).
  - exact (@of_words_bit 64 ltac:(lia) [x0; x1] 1 (i / 2)%N HF Lh).
Qed.

Definition sh_pos (h i : N) : N := if (i <? h)%N then (2 * i)%N else (2 * (i - h) + 1)%N.

Lemma c_unshuffle_bit x i : (i < 16)%N ->
  N.testbit (fst (c_unshuffle x)) i = N.testbit x (2 * i) /\
  N.testbit (snd (c_unshuffle x)) i = N.testbit x (2 * i + 1).
Proof.
  intros Hi. unfold c_unshuffle. cbv zeta. cbn [fst snd].
  assert (H : forallb (fun i => (rp 1 (rp 2 (rp 4 (rp 8 i))) =? sh_pos 16 i)%N) (map N.of_nat (seq 0 32)) = true)
    by (vm_compute; reflexivity).
  rewrite forallb_forall in H.
  assert (G : forall k, (k < 32)%N -> N.testbit (c_round 8 (c_round 4 (c_round 2 (c_round 1 x)))) k = N.testbit x (sh_pos 16 k)).
  { intros k Hk. rewrite !c_round_bit by eauto 6 with shifts.
    specialize (H k (cases32 Hk)). apply N.eqb_eq in H. rewrite H. reflexivity. }
  rewrite !N.land_spec, N.ones_spec_low, !andb_true_r, N.shiftr_spec' by exact Hi.
  rewrite !G by lia. unfold sh_pos.
  replace (i <? 16)%N with true by (symmetry; apply N.ltb_lt; exact Hi).
  replace (i + 16 <? 16)%N with false by (symmetry; apply N.ltb_ge; lia).
  split; f_equal; lia.
Qed.

Lemma sse_unshuffle_bit x i : (i < 64)%N ->
  N.testbit (fst (sse_unshuffle x)) i = N.testbit x (2 * i) /\
  N.testbit (snd (sse_unshuffle x)) i = N.testbit x (2 * i + 1).
Proof.
  intros Hi. unfold sse_unshuffle. cbv zeta. cbn [fst snd].
  assert (H : forallb (fun i => (bp unsh_bytes i <? 128)%N && (rpb 1 (rpb 2 (rpb 4 (bp unsh_bytes i))) =? sh_pos 64 i)%N) (map N.of_nat (seq 0 128)) = true)
    by (vm_compute; reflexivity).
  rewrite forallb_forall in H.
  assert (G : forall k, (k < 128)%N -> N.testbit (shuffle_epi8 (sse_round 4 (sse_round 2 (sse_round 1 x))) unsh_bytes) k = N.testbit x (sh_pos 64 k)).
  { intros k Hk. specialize (H k (cases128 Hk)). apply andb_true_iff in H. destruct H as [Hl H].
    apply N.ltb_lt in Hl. apply N.eqb_eq in H.
    rewrite shuffle_epi8_bit; [|exact Hk|apply sh_bytes_ok; exact Hk].
    rewrite !sse_round_bit by eauto 6 with shifts. rewrite H. reflexivity. }
  rewrite !N.land_spec, N.ones_spec_low, !andb_true_r, N.shiftr_spec' by exact Hi.
  rewrite !G by lia. unfold sh_pos.
  replace (i <? 64)%N with true by (symmetry; apply N.ltb_lt; exact Hi).
  replace (i + 64 <? 64)%N with false by (symmetry; apply N.ltb_ge; lia).
  split; f_equal; lia.
Qed.
