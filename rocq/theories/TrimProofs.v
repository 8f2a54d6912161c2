(* Trimming, comparing and sharing matrices *)
From Verif Require Import Base Words Mod3Proofs PermModel KeyMultModel ShuffleModel ShuffleSpec ShuffleSpanProofs F2CodeProofs BitInjProofs RadixModel RadixFlagProofs RadixSortProofs TableModel TableSpec.

Lemma mapM_rel A B (f : A -> outcome B) (R : A -> B -> Prop) l :
  (forall a, In a l -> exists b, f a = Ok b /\ R a b) -> exists l', mapM f l = Ok l' /\ Forall2 R l l'.
Proof.
  induction l as [|a l IH]; intros H; cbn [mapM]; [exists []; split; [reflexivity|constructor]|].
  destruct (H a (or_introl eq_refl)) as (b & -> & Hb). destruct IH as (l' & -> & Hl); [intros x Hx; apply H; right; exact Hx|].
  cbn [bind]. exists (b :: l'). split; [reflexivity|constructor; assumption].
Qed.

Lemma Forall2_length A B (R : A -> B -> Prop) l l' : Forall2 R l l' -> length l = length l'.
Proof. induction 1; cbn [length]; congruence. Qed.

Lemma mask8_bit m k : N.testbit (mask8 m) (N.of_nat k) = (k <? m).
Proof.
  unfold mask8. replace (2 ^ N.of_nat m - 1)%N with (N.ones (N.of_nat m)) by (rewrite N.ones_equiv; lia).
  destruct (Nat.ltb_spec k m) as [H|H]; [apply N.ones_spec_low|apply N.ones_spec_high]; lia.
Qed.
Lemma mask8_bitN m k : N.testbit (mask8 m) k = (N.to_nat k <? m).
Proof. rewrite <- (N2Nat.id k) at 1. apply mask8_bit. Qed.

Lemma bytes_eq_iff a : forall b, bytes_eq a b = true <-> a = b.
Proof.
  induction a as [|x a IH]; intros [|y b]; cbn [bytes_eq]; split; try discriminate; auto.
  - intros H. apply andb_prop in H. destruct H as [H1 H2]. apply N.eqb_eq in H1. apply IH in H2. congruence.
  - intros H. injection H as -> ->. rewrite N.eqb_refl. apply IH. reflexivity.
Qed.

Lemma sbit_above l k : 8 * length l <= k -> sbit l k = false.
Proof.
  intros H. unfold sbit. rewrite nth_overflow; [apply N.bits_0|]. apply Nat.div_le_lower_bound; lia.
Qed.

Lemma agree_firstn k a b : k <= length a -> k <= length b -> bytes a -> bytes b ->
  (firstn k a = firstn k b <-> agree (8 * k) a b).
Proof.
  intros Ha Hb Ba Bb. split.
  - intros E j Hj. rewrite <- (@firstn_bit a k), <- (@firstn_bit b k) by lia. rewrite E. reflexivity.
  - intros H. apply bytes_ext; try (apply firstn_bytes; assumption); rewrite !firstn_length_le by assumption; [reflexivity|].
    intros j Hj. rewrite !firstn_bit by lia. apply H. lia.
Qed.

Lemma memcmp_ok k a b : k <= length a -> k <= length b -> bytes a -> bytes b ->
  exists e, memcmp_eq k a b = Ok e /\ (e = true <-> agree (8 * k) a b).
Proof.
  intros Ha Hb Ba Bb. unfold memcmp_eq. rewrite (proj2 (Nat.leb_le _ _) Ha), (proj2 (Nat.leb_le _ _) Hb). cbn [andb].
  eexists. split; [reflexivity|]. rewrite bytes_eq_iff. apply agree_firstn; assumption.
Qed.

Lemma mask_zero m x y : (N.land (mask8 m) (N.lxor x y) =? 0)%N = true <-> forall k, k < m -> N.testbit x (N.of_nat k) = N.testbit y (N.of_nat k).
Proof.
  rewrite N.eqb_eq. split.
  - intros H k Hk. assert (N.testbit (N.land (mask8 m) (N.lxor x y)) (N.of_nat k) = false) as E by (rewrite H; apply N.bits_0).
    rewrite N.land_spec, mask8_bit, N.lxor_spec in E. rewrite (proj2 (Nat.ltb_lt _ _) Hk) in E. cbn [andb] in E. destruct (N.testbit x (N.of_nat k)), (N.testbit y (N.of_nat k)); try reflexivity; discriminate.
  - intros H. apply N.bits_inj_0. intros k. rewrite N.land_spec, mask8_bitN, N.lxor_spec.
    destruct (Nat.ltb_spec (N.to_nat k) m) as [Hk|Hk]; [|reflexivity]. cbn [andb]. rewrite <- (N2Nat.id k), H by exact Hk. apply xorb_nilpotent.
Qed.

Lemma agree_split bits a b : agree bits a b <->
  agree (8 * (bits / 8)) a b /\ forall k, k < bits mod 8 -> N.testbit (nth (bits / 8) a 0%N) (N.of_nat k) = N.testbit (nth (bits / 8) b 0%N) (N.of_nat k).
Proof.
  pose proof (div_mod8 bits) as [E B]. split.
  - intros H. split; [intros j Hj; apply H; lia|]. intros k Hk. specialize (H (8 * (bits / 8) + k) ltac:(lia)). unfold sbit in H.
    replace (8 * (bits / 8) + k) with (k + bits / 8 * 8) in H by lia. rewrite Nat.div_add, Nat.mod_add, Nat.div_small, Nat.mod_small in H by lia. exact H.
  - intros [H1 H2] j Hj. destruct (Nat.lt_ge_cases j (8 * (bits / 8))) as [L|L]; [apply H1; exact L|].
    unfold sbit. assert (j / 8 = bits / 8) as -> by (symmetry; apply Nat.div_unique with (j - 8 * (bits / 8)); lia).
    assert (j mod 8 = j - 8 * (bits / 8)) as -> by (symmetry; apply Nat.mod_unique with (bits / 8); lia). apply H2. lia.
Qed.

Lemma row_equal_ok bits a b : bits <= 8 * length a -> bits <= 8 * length b -> bytes a -> bytes b ->
  exists e, row_equal (bits / 8) (bits mod 8) a b = Ok e /\ (e = true <-> agree bits a b).
Proof.
  intros Ha Hb Ba Bb. pose proof (div_mod8 bits) as [E B]. unfold row_equal.
  assert (exists e, (if 0 <? bits / 8 then memcmp_eq (bits / 8) a b else Ok true) = Ok e /\ (e = true <-> agree (8 * (bits / 8)) a b)) as (e & -> & He).
  { destruct (Nat.ltb_spec 0 (bits / 8)) as [H|H]; [apply memcmp_ok; assumption || lia|]. exists true. split; [reflexivity|].
    split; [|reflexivity]. intros _ j Hj. lia. }
  cbn [bind]. destruct e; cbn [negb].
  - destruct (Nat.ltb_spec 0 (bits mod 8)) as [H|H].
    + rewrite !(@get_ok _ _ (bits / 8) 0%N) by lia. cbn [bind]. eexists. split; [reflexivity|]. rewrite mask_zero, agree_split. tauto.
    + exists true. split; [reflexivity|]. rewrite agree_split. split; [|reflexivity]. intros _. split; [apply He; reflexivity|intros k Hk; lia].
  - exists false. split; [reflexivity|]. rewrite agree_split. split; [discriminate|]. intros [H _]. apply He in H. discriminate.
Qed.

Lemma rows_equal_ok bits n ac bc a : forall b, bits <= 8 * ac -> bits <= 8 * bc -> rows_ok n ac a -> rows_ok n bc b ->
  exists e, rows_equal (bits / 8) (bits mod 8) a b = Ok e /\ (e = true <-> Forall2 (agree bits) a b).
Proof.
  revert n. induction a as [|x a IH]; intros n b Ha Hb [La Ra] [Lb Rb].
  - destruct b; [|cbn [length] in *; lia]. exists true. split; [reflexivity|]. split; [constructor|reflexivity].
  - destruct b as [|y b]; [cbn [length] in *; lia|]. cbn [rows_equal]. apply Forall_cons_iff in Ra, Rb. destruct Ra as [[Lx Bx] Ra], Rb as [[Ly By] Rb].
    destruct (@row_equal_ok bits x y ltac:(lia) ltac:(lia) Bx By) as (e & -> & He). cbn [bind]. cbn [length] in La, Lb.
    destruct (IH (n - 1) b Ha Hb) as (e' & Ee & He'); [split; [lia|exact Ra]|split; [lia|exact Rb]|].
    destruct e.
    + rewrite Ee. exists e'. split; [reflexivity|]. rewrite He'. split; intros H; [constructor; [apply He; reflexivity|exact H]|inversion H; assumption].
    + exists false. split; [reflexivity|]. split; [discriminate|]. intros H. inversion H; subst. apply He. assumption.
Qed.

Lemma rows_concat_bytes n c m : rows_ok n c m -> bytes (concat m).
Proof. intros [_ H]. induction H as [|r m [L B] H IH]; [constructor|]. cbn [concat]. apply Forall_app. split; assumption. Qed.
Lemma rows_concat_length n c m : rows_ok n c m -> length (concat m) = n * c.
Proof.
  intros [L H]. revert n L. induction H as [|r m [Lr B] H IH]; intros n L; cbn [length concat] in *; [subst; reflexivity|].
  destruct n; [lia|]. rewrite app_length, Lr, (IH n) by lia. lia.
Qed.

Lemma concat_inj_rows n c a : forall b, rows_ok n c a -> rows_ok n c b -> concat a = concat b -> a = b.
Proof.
  revert n. induction a as [|x a IH]; intros n b [La Ra] [Lb Rb] E; (destruct b as [|y b]; cbn [length] in *; [try reflexivity; lia|try lia]).
  cbn [concat] in E. apply Forall_cons_iff in Ra, Rb. destruct Ra as [[Lx Bx] Ra], Rb as [[Ly By] Rb].
  assert (x = y) as ->. { apply (f_equal (firstn c)) in E. rewrite !firstn_app in E. replace (c - length x) with 0 in E by lia. replace (c - length y) with 0 in E by lia.
    cbn [firstn] in E. rewrite !app_nil_r, !firstn_all2 in E by lia. exact E. }
  apply app_inv_head in E. f_equal. apply (IH (n - 1)); [split; [lia|assumption]|split; [lia|assumption]|exact E].
Qed.

Lemma concat_equal_ok n c a b : rows_ok n c a -> rows_ok n c b ->
  exists e, memcmp_eq (length (concat a)) (concat a) (concat b) = Ok e /\ (e = true <-> Forall2 (agree (8 * c)) a b).
Proof.
  intros Ha Hb. unfold memcmp_eq. rewrite (rows_concat_length Ha), (rows_concat_length Hb), Nat.leb_refl. cbn [andb].
  eexists. split; [reflexivity|]. rewrite bytes_eq_iff, !firstn_all2 by (rewrite ?(rows_concat_length Ha), ?(rows_concat_length Hb); lia). split.
  - intros E. apply (concat_inj_rows Ha Hb) in E. subst b. clear. induction a; constructor; [intros j _; reflexivity|assumption].
  - intros H. f_equal. destruct Ha as [_ Ha], Hb as [_ Hb]. induction H as [|x y a b Hxy H IH]; [reflexivity|].
    apply Forall_cons_iff in Ha, Hb. destruct Ha as [[Lx Bx] Ha], Hb as [[Ly By] Hb]. f_equal; [|apply IH; assumption].
    apply bytes_ext; [assumption|assumption|lia|]. intros k Hk. apply Hxy. lia.
Qed.

Lemma are_equal_ok n ac a bc b bits : rows_ok n ac a -> rows_ok n bc b -> bits <= ac * 8 -> bits <= bc * 8 ->
  exists e, are_equal ac a bc b bits = Ok e /\ (e = true <-> Forall2 (agree bits) a b).
Proof.
  intros Ha Hb Hac Hbc. unfold are_equal. pose proof (div_mod8 bits) as [E B]. rewrite (proj1 Ha), (proj1 Hb), Nat.eqb_refl.
  rewrite (proj2 (Nat.ltb_ge _ _) Hac), (proj2 (Nat.ltb_ge _ _) Hbc). cbn [negb throw_if bind].
  rewrite (proj2 (Nat.ltb_ge ac (bits / 8))) by lia. rewrite (proj2 (Nat.ltb_ge bc (bits / 8))) by lia.
  rewrite (proj2 (Nat.ltb_ge ac ((bits + 7) / 8))) by (enough ((bits + 7) / 8 < ac + 1) by lia; apply Nat.div_lt_upper_bound; lia).
  cbn [throw_if bind]. destruct ((0 <? bits mod 8) || negb (ac =? bits / 8) || negb (bc =? bits / 8)) eqn:C.
  - apply (@rows_equal_ok bits n ac bc); [lia|lia|assumption|assumption].
  - apply orb_false_iff in C. destruct C as [C C3]. apply orb_false_iff in C. destruct C as [C1 C2].
    apply negb_false_iff, Nat.eqb_eq in C2, C3. apply Nat.ltb_ge in C1. replace bits with (8 * ac) by lia.
    rewrite C3, <- C2 in Hb. apply (concat_equal_ok Ha Hb).
Qed.

Lemma are_equal_throw ac a bc b bits : length a <> length b \/ ac * 8 < bits \/ bc * 8 < bits -> are_equal ac a bc b bits = Throw.
Proof.
  intros H. unfold are_equal. destruct (Nat.eqb_spec (length a) (length b)) as [E|E]; cbn [negb throw_if bind]; [|reflexivity].
  destruct (Nat.ltb_spec (ac * 8) bits); cbn [throw_if bind]; [reflexivity|]. destruct (Nat.ltb_spec (bc * 8) bits); cbn [throw_if bind]; [reflexivity|]. lia.
Qed.

Lemma are_equal_span_ok a b bits : bytes a -> bytes b -> bits <= length a * 8 -> bits <= length b * 8 ->
  exists e, are_equal_span a b bits = Ok e /\ (e = true <-> agree bits a b).
Proof.
  intros Ba Bb Ha Hb. unfold are_equal_span. pose proof (div_mod8 bits) as [E B].
  rewrite (proj2 (Nat.ltb_ge _ _) Ha), (proj2 (Nat.ltb_ge _ _) Hb). cbn [throw_if bind].
  destruct (Nat.ltb_spec 0 (bits mod 8)); [apply row_equal_ok; assumption || lia|].
  destruct (@memcmp_ok (bits / 8) a b ltac:(lia) ltac:(lia) Ba Bb) as (e & -> & He). replace (8 * (bits / 8)) with bits in He by lia. exists e. split; [reflexivity|exact He].
Qed.
Lemma are_equal_span_throw a b bits : length a * 8 < bits \/ length b * 8 < bits -> are_equal_span a b bits = Throw.
Proof.
  intros H. unfold are_equal_span. destruct (Nat.ltb_spec (length a * 8) bits); cbn [throw_if bind]; [reflexivity|].
  destruct (Nat.ltb_spec (length b * 8) bits); cbn [throw_if bind]; [reflexivity|]. lia.
Qed.

(* ---------- trim ---------- *)
Lemma land_mask_lt x m : (x < 256)%N -> (N.land x m < 256)%N.
Proof. intros H. change 256%N with (2 ^ 8)%N in *. apply bits_high_pow2. intros i Hi. rewrite N.land_spec, (pow2_bits_high H Hi). reflexivity. Qed.

Lemma trim_rel_char bits r r' : bits <= 8 * length r -> bytes r ->
  length r' = length r ->
  (forall k, k < length r -> nth k r' 0%N = if k <? bits / 8 then nth k r 0%N else if k =? bits / 8 then N.land (nth k r 0%N) (mask8 (bits mod 8)) else 0%N) ->
  trim_rel bits r r'.
Proof.
  intros HL Br L H. pose proof (div_mod8 bits) as [E B].
  assert (Bn : forall k, (nth k r 0 < 256)%N).
  { intros k. destruct (Nat.lt_ge_cases k (length r)) as [Hk|Hk]; [apply (proj1 (Forall_forall _ _) Br); apply nth_In; exact Hk|rewrite nth_overflow by exact Hk; reflexivity]. }
  split; [exact L|]. split.
  - apply Forall_forall. intros x Hx. apply In_nth with (d := 0%N) in Hx. destruct Hx as (k & Hk & <-). rewrite H by lia.
    destruct (k <? bits / 8); [apply Bn|]. destruct (k =? bits / 8); [apply land_mask_lt, Bn|reflexivity].
  - intros j. destruct (Nat.lt_ge_cases j (8 * length r)) as [Hj|Hj].
    + unfold sbit. pose proof (div_mod8 j) as [Ej Bj]. rewrite H by (apply Nat.div_lt_upper_bound; lia).
      destruct (Nat.ltb_spec (j / 8) (bits / 8)) as [H1|H1].
      * rewrite (proj2 (Nat.ltb_lt j bits)) by lia. reflexivity.
      * destruct (Nat.eqb_spec (j / 8) (bits / 8)) as [H2|H2].
        { rewrite N.land_spec, mask8_bit, andb_comm. f_equal. destruct (Nat.ltb_spec (j mod 8) (bits mod 8)), (Nat.ltb_spec j bits); try reflexivity; lia. }
        rewrite N.bits_0. rewrite (proj2 (Nat.ltb_ge j bits)) by lia. reflexivity.
    + rewrite !sbit_above by lia. rewrite andb_false_r. reflexivity.
Qed.

Lemma zero_tail_ok o r : o <= length r -> exists r', forN o (length r - o) (fun i r => set r i 0%N) r = Ok r' /\ length r' = length r /\
  forall k, k < length r -> nth k r' 0%N = if k <? o then nth k r 0%N else 0%N.
Proof.
  intros Ho. set (P := fun i (l : list N) => length l = length r /\ forall k, nth k l 0%N = if (o <=? k) && (k <? i) then 0%N else nth k r 0%N).
  destruct (@forN_inv _ P (fun i r => set r i 0%N) (length r - o) o r) as (l & El & PL & Hl).
  - split; [reflexivity|]. intros k. destruct (Nat.leb_spec o k), (Nat.ltb_spec k o); cbn [andb]; try reflexivity; lia.
  - intros k s Hk [L H]. rewrite set_lt by lia. eexists. split; [reflexivity|]. split; [rewrite upd_length; exact L|]. intros j.
    rewrite nth_upd, H. destruct (Nat.eqb_spec k j) as [->|Hn].
    + rewrite (proj2 (Nat.ltb_lt j (length s))) by lia. cbn [andb]. rewrite (proj2 (Nat.leb_le o j)), (proj2 (Nat.ltb_lt j (j + 1))) by lia. reflexivity.
    + cbn [andb]. destruct (Nat.leb_spec o j), (Nat.ltb_spec j k), (Nat.ltb_spec j (k + 1)); cbn [andb]; try reflexivity; lia.
  - exists l. split; [exact El|]. split; [exact PL|]. intros k Hk. rewrite Hl.
    destruct (Nat.leb_spec o k), (Nat.ltb_spec k o), (Nat.ltb_spec k (o + (length r - o))); cbn [andb]; try reflexivity; lia.
Qed.

Lemma trim_row_ok bits r : bits < 8 * length r -> bytes r ->
  exists r', trim_row (bits / 8) (if 0 <? bits mod 8 then mask8 (bits mod 8) else 0%N) r = Ok r' /\ trim_rel bits r r'.
Proof.
  intros HL Br. pose proof (div_mod8 bits) as [E B]. unfold trim_row. assert (Hd : bits / 8 < length r) by lia.
  assert ((if 0 <? bits mod 8 then mask8 (bits mod 8) else 0%N) = mask8 (bits mod 8)) as ->.
  { destruct (Nat.ltb_spec 0 (bits mod 8)) as [H|H]; [reflexivity|]. replace (bits mod 8) with 0 by lia. reflexivity. }
  rewrite (@get_ok _ r (bits / 8) 0%N) by exact Hd. cbn [bind]. rewrite set_lt by exact Hd. cbn [bind].
  destruct (@zero_tail_ok (bits / 8 + 1) (upd r (bits / 8) (N.land (nth (bits / 8) r 0%N) (mask8 (bits mod 8))))) as (r' & Er & L & H); [rewrite upd_length; lia|].
  exists r'. split; [exact Er|]. rewrite upd_length in L, H. apply trim_rel_char; [lia|exact Br|exact L|].
  intros k Hk. rewrite H by exact Hk. rewrite nth_upd, (proj2 (Nat.ltb_lt (bits / 8) (length r))) by exact Hd. rewrite andb_true_r, (Nat.eqb_sym (bits / 8) k).
  destruct (Nat.ltb_spec k (bits / 8 + 1)), (Nat.ltb_spec k (bits / 8)), (Nat.eqb_spec k (bits / 8)); try reflexivity; try lia. subst k. reflexivity.
Qed.

Lemma trim_rel_refl bits r : bytes r -> trimmed bits r -> trim_rel bits r r.
Proof. intros Br H. split; [reflexivity|]. split; [exact Br|]. intros j. destruct (Nat.ltb_spec j bits) as [L|L]; [reflexivity|]. rewrite H by exact L. reflexivity. Qed.
Lemma trim_rel_full bits r : bytes r -> 8 * length r <= bits -> trim_rel bits r r.
Proof. intros Br H. apply trim_rel_refl; [exact Br|]. intros j Hj. apply sbit_above. lia. Qed.
Lemma trim_rel_eq bits r r' : bytes r -> trimmed bits r -> trim_rel bits r r' -> r' = r.
Proof.
  intros Br H (L & B & HB). apply bytes_ext; [exact B|exact Br|exact L|]. intros k _. rewrite HB. destruct (Nat.ltb_spec k bits) as [Hk|Hk]; [reflexivity|].
  rewrite H by exact Hk. reflexivity.
Qed.
Lemma trim_rel_fun bits r r1 r2 : trim_rel bits r r1 -> trim_rel bits r r2 -> r1 = r2.
Proof. intros (L & B & H) (L' & B' & H'). apply bytes_ext; [exact B|exact B'|congruence|]. intros k _. rewrite H, H'. reflexivity. Qed.
Lemma trim_rel_trimmed bits r r' : trim_rel bits r r' -> trimmed bits r'.
Proof. intros (_ & _ & H) j Hj. rewrite H, (proj2 (Nat.ltb_ge _ _) Hj). reflexivity. Qed.

Lemma trim_ok n c a bits : rows_ok n c a -> bits <= c * 8 ->
  exists a', trim c a bits = Ok a' /\ Forall2 (trim_rel bits) a a'.
Proof.
  intros [L H] Hb. unfold trim. rewrite (proj2 (Nat.ltb_ge _ _) Hb). cbn [throw_if bind]. rewrite Forall_forall in H. destruct (Nat.eqb_spec bits (c * 8)) as [E|E].
  - exists a. split; [reflexivity|]. clear L. induction a as [|r a IH]; constructor; [|apply IH; intros x Hx; apply H; right; exact Hx].
    destruct (H r (or_introl eq_refl)) as [Lr Br]. apply trim_rel_full; [exact Br|lia].
  - apply mapM_rel. intros r Hr. destruct (H r Hr) as [Lr Br]. apply trim_row_ok; [lia|exact Br].
Qed.
Lemma trim_throw c a bits : c * 8 < bits -> trim c a bits = Throw.
Proof. intros H. unfold trim. rewrite (proj2 (Nat.ltb_lt _ _) H). reflexivity. Qed.

Lemma div_ceil8_mod bits : bits mod 8 <> 0 -> div_ceil bits 8 = bits / 8 + 1.
Proof.
  intros H. pose proof (div_mod8 bits) as [E B]. unfold div_ceil. symmetry. apply Nat.div_unique with (bits mod 8 - 1); lia.
Qed.
Lemma div_ceil8_exact bits : bits mod 8 = 0 -> div_ceil bits 8 = bits / 8.
Proof.
  intros H. pose proof (div_mod8 bits) as [E B]. unfold div_ceil. symmetry. apply Nat.div_unique with 7; lia.
Qed.

Lemma bm_trim_ok m : bm_ok m -> exists r, bm_trim m = Ok (BM (bBits m) (bCols m) r) /\ Forall2 (trim_rel (bBits m)) (bRows m) r.
Proof.
  intros [H E]. unfold bm_trim. destruct (@trim_ok _ _ _ (bBits m) H) as (r & -> & Hr); [rewrite E; pose proof (div_ceil_le (bBits m)); lia|].
  exists r. split; [reflexivity|exact Hr].
Qed.

Lemma bm_eq_ok a b : rows_ok (bm_n a) (bCols a) (bRows a) -> rows_ok (bm_n b) (bCols b) (bRows b) -> bBits a <= bCols a * 8 -> bBits b <= bCols b * 8 ->
  exists e, bm_eq a b = Ok e /\ (e = true <-> bBits a = bBits b /\ Forall2 (agree (bBits a)) (bRows a) (bRows b)).
Proof.
  intros Ha Hb La Lb. unfold bm_eq. destruct (Nat.eqb_spec (bm_n a) (bm_n b)) as [En|En]; cbn [negb].
  2:{ exists false. split; [reflexivity|]. split; [discriminate|]. intros [_ H]. apply Forall2_length in H. contradiction. }
  destruct (Nat.eqb_spec (bBits a) (bBits b)) as [Eb|Eb]; cbn [negb].
  2:{ exists false. split; [reflexivity|]. split; [discriminate|]. intros [H _]. contradiction. }
  rewrite <- En in Hb. destruct ((bm_n a * bCols a =? bm_n b * bCols b) && (bBits a =? bCols a * 8)) eqn:C.
  - apply andb_prop in C. destruct C as [C1 C2]. apply Nat.eqb_eq in C1, C2. rewrite <- En in C1.
    destruct (Nat.eq_dec (bm_n a) 0) as [Ez|Ez].
    + rewrite Ez in Ha, Hb. destruct Ha as [Ha _], Hb as [Hb _]. apply length_zero_iff_nil in Ha, Hb. rewrite Ha, Hb. exists true. split; [reflexivity|]. split; [intros _; split; [exact Eb|constructor]|reflexivity].
    + apply Nat.mul_cancel_l in C1; [|exact Ez]. rewrite <- C1 in Hb. destruct (concat_equal_ok Ha Hb) as (e & -> & He). exists e. split; [reflexivity|].
      rewrite He. replace (8 * bCols a) with (bBits a) by lia. tauto.
  - destruct (@are_equal_ok _ _ _ _ _ (bBits a) Ha Hb La ltac:(lia)) as (e & -> & He). exists e. split; [reflexivity|]. rewrite He. tauto.
Qed.

(* ---------- sharing matrices ---------- *)
Lemma mask_back_ok bits r : bits mod 8 <> 0 -> length r = div_ceil bits 8 -> bytes r ->
  exists r', mask_back (mask8 (bits mod 8)) r = Ok r' /\ trim_rel bits r r'.
Proof.
  intros Hm HL Br. rewrite div_ceil8_mod in HL by exact Hm. pose proof (div_mod8 bits) as [E B]. unfold mask_back.
  replace (length r - 1) with (bits / 8) by lia. rewrite (@get_ok _ r (bits / 8) 0%N) by lia. cbn [bind]. rewrite set_lt by lia.
  eexists. split; [reflexivity|]. apply trim_rel_char; [lia|exact Br|apply upd_length|]. intros k Hk. rewrite nth_upd, (proj2 (Nat.ltb_lt (bits / 8) (length r))) by lia.
  rewrite andb_true_r, (Nat.eqb_sym (bits / 8) k). destruct (Nat.eqb_spec k (bits / 8)) as [->|Hn]; [rewrite Nat.ltb_irrefl; reflexivity|].
  rewrite (proj2 (Nat.ltb_lt k (bits / 8))) by lia. reflexivity.
Qed.

Lemma mask_rows_ok bits n m : rows_ok n (div_ceil bits 8) m ->
  exists m', (if 0 <? bits mod 8 then mapM (mask_back (mask8 (bits mod 8))) m else Ok m) = Ok m' /\ Forall2 (trim_rel bits) m m'.
Proof.
  intros [L H]. rewrite Forall_forall in H. destruct (Nat.ltb_spec 0 (bits mod 8)) as [Hm|Hm].
  - apply mapM_rel. intros r Hr. destruct (H r Hr) as [Lr Br]. apply mask_back_ok; [lia|exact Lr|exact Br].
  - exists m. split; [reflexivity|]. clear L. induction m as [|r m IH]; constructor; [|apply IH; intros x Hx; apply H; right; exact Hx].
    destruct (H r (or_introl eq_refl)) as [Lr Br]. apply trim_rel_full; [exact Br|]. rewrite Lr, div_ceil8_exact by lia. pose proof (div_mod8 bits). lia.
Qed.

Lemma xor_rows_ok n c a b : rows_ok n c a -> rows_ok n c b -> rows_ok n c (xor_rows a b).
Proof.
  intros [La Ra] [Lb Rb]. split; [unfold xor_rows; rewrite map2_length; lia|]. clear La Lb. revert b Rb.
  induction Ra as [|x a [Lx Bx] Ra IH]; intros b Rb; [constructor|]. destruct Rb as [|y b [Ly By] Rb]; [constructor|].
  cbn [xor_rows map2]. constructor; [|apply IH; exact Rb]. split; [rewrite map2_length; lia|apply bytes_xors; assumption].
Qed.

Lemma trim_rel_xor bits a b a' b' : length a = length b -> trim_rel bits a a' -> trim_rel bits b b' -> trim_rel bits (map2 N.lxor a b) (map2 N.lxor a' b').
Proof.
  intros L (La & Ba & Ha) (Lb & Bb & Hb). split; [rewrite !map2_length; lia|]. split; [apply bytes_xors; assumption|].
  intros j. rewrite !map2_lxor_bit by lia. rewrite Ha, Hb. destruct (j <? bits), (sbit a j), (sbit b j); reflexivity.
Qed.
Lemma trim_rows_xor bits n c a b a' b' : rows_ok n c a -> rows_ok n c b -> Forall2 (trim_rel bits) a a' -> Forall2 (trim_rel bits) b b' ->
  Forall2 (trim_rel bits) (xor_rows a b) (xor_rows a' b').
Proof.
  intros [La Ra] [Lb Rb] Ha Hb. assert (LL : length a = length b) by lia. clear La Lb. revert b b' Rb Hb LL. induction Ha as [|x x' a a' Hx Ha IH]; intros b b' Rb Hb LL.
  - constructor.
  - destruct Hb as [|y y' b b' Hy Hb]; [constructor|]. apply Forall_cons_iff in Ra, Rb. destruct Ra as [[Lx Bx] Ra], Rb as [[Ly By] Rb]. cbn [length] in LL.
    cbn [xor_rows map2]. constructor; [apply trim_rel_xor; [lia|assumption|assumption]|]. apply IH; assumption || lia.
Qed.
Lemma xor_row_cancel : forall x r : list N, length x = length r -> map2 N.lxor r (map2 N.lxor x r) = x.
Proof.
  induction x as [|a x IH]; intros [|b r] L; cbn [map2 length] in *; try reflexivity; try lia. f_equal; [|apply IH; lia].
  rewrite (N.lxor_comm a b), <- N.lxor_assoc, N.lxor_nilpotent, N.lxor_0_l. reflexivity.
Qed.
Lemma xor_rows_cancel n c x r : rows_ok n c x -> rows_ok n c r -> xor_rows r (xor_rows x r) = x.
Proof.
  intros [Lx Rx] [Lr Rr]. assert (L : length x = length r) by lia. clear Lx Lr. revert r Rr L. induction Rx as [|a x [La Ba] Rx IH]; intros r Rr L; destruct Rr as [|b r [Lb Bb] Rr]; cbn [length] in L; try lia; [reflexivity|].
  cbn [xor_rows map2]. f_equal; [apply xor_row_cancel; lia|]. apply IH; [assumption|lia].
Qed.
Lemma trim_rows_ok bits n c a a' : rows_ok n c a -> Forall2 (trim_rel bits) a a' -> rows_ok n c a'.
Proof.
  intros [L R] H. split; [rewrite <- (Forall2_length H); exact L|]. clear L. induction H as [|x x' a a' (Lx & Bx & _) H IH]; [constructor|].
  apply Forall_cons_iff in R. destruct R as [[La Ba] R]. constructor; [split; [lia|exact Bx]|apply IH; exact R].
Qed.

(* the shares, and what they reveal *)
Lemma share_bm_ok x rnd : bm_ok x -> rows_ok (bm_n x) (bCols x) rnd -> exists r0 r1,
  share_bm x rnd = Ok (BM (bBits x) (bCols x) r0, BM (bBits x) (bCols x) r1) /\
  Forall2 (trim_rel (bBits x)) rnd r0 /\ Forall2 (trim_rel (bBits x)) (xor_rows (bRows x) rnd) r1 /\
  Forall2 (trim_rel (bBits x)) (bRows x) (xor_rows r0 r1).
Proof.
  intros [Hx Ex] Hr. unfold share_bm. cbv zeta. rewrite <- Ex, Nat.eqb_refl. cbn [orb negb].
  pose proof (xor_rows_ok Hx Hr) as H1. rewrite Ex in Hr, H1. destruct (mask_rows_ok Hr) as (r0 & E0 & T0). destruct (mask_rows_ok H1) as (r1 & E1 & T1). rewrite <- Ex in Hr, H1.
  exists r0, r1. split; [|split; [exact T0|]; split; [exact T1|]].
  - destruct (0 <? bBits x mod 8); [rewrite E0, E1; reflexivity|]. injection E0 as ->. injection E1 as ->. reflexivity.
  - pose proof (trim_rows_xor Hr H1 T0 T1) as H. rewrite (xor_rows_cancel Hx Hr) in H. exact H.
Qed.

Lemma reveal_bm_ok x r0 r1 : bm_ok x -> length r0 = bm_n x -> length r1 = bm_n x ->
  reveal_bm (BM (bBits x) (bCols x) r0) (BM (bBits x) (bCols x) r1) = Ok (BM (bBits x) (bCols x) (xor_rows r0 r1)).
Proof.
  intros [_ Ex] L0 L1. unfold reveal_bm, bm_n. cbn [bBits bCols bRows]. rewrite L0, L1, Ex, !Nat.eqb_refl. reflexivity.
Qed.

Lemma share_mat_ok n c x bits rnd : rows_ok n c x -> rows_ok n c rnd -> c = div_ceil bits 8 -> exists r0 r1,
  share_mat c x bits rnd = Ok (r0, r1) /\ Forall2 (trim_rel bits) rnd r0 /\ Forall2 (trim_rel bits) (xor_rows x rnd) r1 /\
  reveal_mat c r0 c r1 = Ok (xor_rows r0 r1) /\ Forall2 (trim_rel bits) x (xor_rows r0 r1).
Proof.
  intros Hx Hr ->. unfold share_mat. cbv zeta. rewrite Nat.eqb_refl. cbn [negb throw_if bind].
  pose proof (xor_rows_ok Hx Hr) as H1. destruct (mask_rows_ok Hr) as (r0 & E0 & T0). destruct (mask_rows_ok H1) as (r1 & E1 & T1).
  exists r0, r1. split; [|split; [exact T0|]; split; [exact T1|]; split].
  - destruct (0 <? bits mod 8); [rewrite E0, E1; reflexivity|]. injection E0 as ->. injection E1 as ->. reflexivity.
  - unfold reveal_mat. rewrite <- (Forall2_length T0), <- (Forall2_length T1), (proj1 Hr), (proj1 H1), !Nat.eqb_refl. reflexivity.
  - pose proof (trim_rows_xor Hr H1 T0 T1) as H. rewrite (xor_rows_cancel Hx Hr) in H. exact H.
Qed.

Lemma reveal_u32_ok x r : length x = length r -> Forall (fun v => (v < 2 ^ 32)%N) x -> Forall (fun v => (v < 2 ^ 32)%N) r ->
  reveal_u32 (fst (share_u32 x r)) (snd (share_u32 x r)) = x.
Proof.
  unfold share_u32, reveal_u32. cbn [fst snd]. intros L Hx Hr. revert r L Hr. induction x as [|a x IH]; intros [|b r] L Hr; cbn [map2 length] in *; try reflexivity; try lia.
  apply Forall_cons_iff in Hx, Hr. destruct Hx as [Ha Hx], Hr as [Hb Hr]. f_equal; [|apply IH; [assumption|lia|assumption]].
  rewrite N.add_mod_idemp_r by discriminate. replace (b + (a + 2 ^ 32 - b))%N with (a + 1 * 2 ^ 32)%N by lia. rewrite N.mod_add by discriminate. apply N.mod_small. exact Ha.
Qed.
