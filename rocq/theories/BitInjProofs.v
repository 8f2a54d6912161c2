From Verif Require Import Base Words GmwModel ShuffleModel ShuffleSpec KeyMultModel BitInjModel RadixSpec.
From Verif Require Import PermCorProofs GmwProofs ShuffleSpanProofs SimdProofs Mod3Proofs ConvProofs CompressProofs CorStartProofs.
From Coq Require Import Setoid Morphisms.

(* ---------- congruences ---------- *)
Definition eqm (m a b : Z) : Prop := (m | a - b)%Z.
Global Instance eqm_equiv m : Equivalence (eqm m).
Proof.
  split.
  - intros a. exists 0%Z. lia.
  - intros a b [k H]. exists (- k)%Z. lia.
  - intros a b c [k H] [l H']. exists (k + l)%Z. lia.
Qed.
Global Instance eqm_add m : Proper (eqm m ==> eqm m ==> eqm m) Z.add.
Proof. intros a b [k H] c d [l H']. exists (k + l)%Z. lia. Qed.
Global Instance eqm_sub m : Proper (eqm m ==> eqm m ==> eqm m) Z.sub.
Proof. intros a b [k H] c d [l H']. exists (k - l)%Z. lia. Qed.
Global Instance eqm_opp m : Proper (eqm m ==> eqm m) Z.opp.
Proof. intros a b [k H]. exists (- k)%Z. lia. Qed.
Global Instance eqm_mul m : Proper (eqm m ==> eqm m ==> eqm m) Z.mul.
Proof. intros a b [k H] c d [l H']. exists (k * c + b * l)%Z. replace (a * c - b * d)%Z with ((a - b) * c + b * (c - d))%Z by ring. rewrite H, H'. ring. Qed.

Lemma eqm_mod m z : (0 < m)%Z -> eqm m (z mod m) z.
Proof. intros H. exists (- (z / m))%Z. pose proof (Z.div_mod z m ltac:(lia)). lia. Qed.
Lemma eqm_eq m a b : eqm m a b -> (a mod m = b mod m)%Z.
Proof. intros [k H]. replace a with (b + k * m)%Z by lia. apply Z_mod_plus_full. Qed.
Lemma eqm_small m a b : (0 <= a < m)%Z -> (0 <= b < m)%Z -> eqm m a b -> a = b.
Proof. intros Ha Hb H. apply eqm_eq in H. rewrite !Z.mod_small in H; assumption. Qed.
Lemma eqm_weaken m m' a b : (m' | m)%Z -> eqm m a b -> eqm m' a b.
Proof. intros H H'. exact (Z.divide_trans _ _ _ H H'). Qed.
Lemma eqm_refl' m a b : a = b -> eqm m a b.
Proof. intros ->. reflexivity. Qed.

Lemma pow_div w : w <= 32 -> (2 ^ Z.of_nat w | 2 ^ 32)%Z.
Proof. intros H. exists (2 ^ (32 - Z.of_nat w))%Z. rewrite <- Z.pow_add_r by lia. f_equal. lia. Qed.

Lemma w32_eqm z : eqm (2 ^ 32) (Z.of_N (w32 z)) z.
Proof. unfold w32. rewrite Z2N.id by (apply Z.mod_pos_bound; reflexivity). apply eqm_mod. reflexivity. Qed.
Lemma w32_lt z : (w32 z < 2 ^ 32)%N.
Proof. unfold w32. pose proof (Z.mod_pos_bound z (2 ^ 32) ltac:(reflexivity)). change (2 ^ 32)%N with (Z.to_N (2 ^ 32)). apply Z2N.inj_lt; lia. Qed.
Lemma add32_eqm a b : eqm (2 ^ 32) (Z.of_N (add32 a b)) (Z.of_N a + Z.of_N b).
Proof. apply w32_eqm. Qed.
Lemma sub32_eqm a b : eqm (2 ^ 32) (Z.of_N (sub32 a b)) (Z.of_N a - Z.of_N b).
Proof. apply w32_eqm. Qed.
Lemma mul32_eqm a b : eqm (2 ^ 32) (Z.of_N (mul32 a b)) (Z.of_N a * Z.of_N b).
Proof. apply w32_eqm. Qed.

Lemma land_eqm w x : eqm (2 ^ Z.of_nat w) (Z.of_N (N.land x (N.ones (N.of_nat w)))) (Z.of_N x).
Proof.
  rewrite N.land_ones, N2Z.inj_mod, N2Z.inj_pow, nat_N_Z. apply eqm_mod. lia.
Qed.
Lemma land_lt w x : (N.land x (N.ones (N.of_nat w)) < 2 ^ N.of_nat w)%N.
Proof. rewrite N.land_ones. apply N.mod_lt. apply N.pow_nonzero. discriminate. Qed.

Lemma shares_bit_intro w b x y : 0 < w -> (x < 2 ^ N.of_nat w)%N -> (y < 2 ^ N.of_nat w)%N ->
  eqm (2 ^ Z.of_nat w) (Z.of_N x + Z.of_N y) (Z.b2z b) -> shares_bit w b x y.
Proof.
  intros Hw Hx Hy H. split; [exact Hx|]. split; [exact Hy|]. apply eqm_eq in H.
  apply N2Z.inj. rewrite N2Z.inj_mod, N2Z.inj_add, N2Z.inj_pow, nat_N_Z. change (Z.of_N 2) with 2%Z. rewrite H.
  assert (P : (2 ^ 1 <= 2 ^ Z.of_nat w)%Z) by (apply Z.pow_le_mono_r; lia).
  rewrite Z.mod_small by (destruct b; simpl; lia). destruct b; reflexivity.
Qed.

(* ---------- mapM ---------- *)
Lemma mapM_ok A B (f : A -> outcome B) g l : (forall a, In a l -> f a = Ok (g a)) -> mapM f l = Ok (map g l).
Proof.
  induction l as [|a l IH]; intros H; cbn [mapM map]; [reflexivity|].
  rewrite (H a) by (left; reflexivity). cbn [bind]. rewrite IH by (intros x Hx; apply H; right; exact Hx). reflexivity.
Qed.
Lemma mapM_seq B (f : nat -> outcome B) g i m : (forall j, i <= j < i + m -> f j = Ok (g j)) -> mapM f (seq i m) = Ok (map g (seq i m)).
Proof. intros H. apply mapM_ok. intros a Ha. apply in_seq in Ha. apply H. lia. Qed.
Lemma get_ok A (l : list A) i d : i < length l -> get l i = Ok (nth i l d).
Proof. intros H. unfold get. rewrite (nth_error_nth_lt d H). reflexivity. Qed.
Lemma mapM_ub A B (f : A -> outcome B) l a k : In a l -> f a = UB -> (forall x, In x l -> f x = UB \/ exists y, f x = Ok y) -> k = mapM f l -> k = UB.
Proof.
  intros Ha Hf HO ->. induction l as [|x l IH]; [destruct Ha|]. cbn [mapM].
  destruct (HO x (or_introl eq_refl)) as [E|[y E]]; rewrite E; cbn [bind]; [reflexivity|].
  destruct Ha as [->|Ha]; [congruence|]. rewrite IH; [reflexivity|exact Ha|intros z Hz; apply HO; right; exact Hz].
Qed.

Lemma map_seq_shift A (g : nat -> A) i n : map g (seq i n) = map (fun t => g (i + t)) (seq 0 n).
Proof.
  revert i. induction n as [|n IH]; intros i; cbn [seq map]; [reflexivity|]. f_equal; [f_equal; lia|].
  rewrite IH, <- seq_shift, map_map. apply map_ext. intros a. f_equal. lia.
Qed.
Lemma nth_map_seq' A (g : nat -> A) i n k d : k < n -> nth k (map g (seq i n)) d = g (i + k).
Proof. intros H. rewrite (nth_indep _ d (g 0)) by (rewrite map_length, seq_length; exact H). rewrite map_nth. rewrite seq_nth by exact H. reflexivity. Qed.
Lemma seq_app_map A (g : nat -> A) n m : map g (seq 0 (n + m)) = map g (seq 0 n) ++ map (fun t => g (n + t)) (seq 0 m).
Proof. rewrite seq_app, map_app. f_equal. apply map_seq_shift. Qed.

(* ---------- bits of a matrix ---------- *)
Lemma mat_bit_ok c d row off : row * c + off / 8 < length d -> mat_bit c d row off = Ok (mbit c d row off).
Proof.
  intros H. unfold mat_bit. rewrite (get_ok 0%N H). cbn [bind]. unfold mbit, sbit. f_equal. f_equal; [f_equal|f_equal].
  - rewrite (Nat.mul_comm 8), Nat.div_add_l by lia. reflexivity.
  - rewrite (Nat.mul_comm 8), Nat.add_comm, Nat.mod_add by lia. reflexivity.
Qed.

(* the k-th bit in the order of the rows *)
Definition inb (nb c : nat) (d : list N) (k : nat) : bool := mbit c d (k / nb) (k mod nb).

Lemma in_range r c nb k : nb <= c * 8 -> k < r * nb -> k / nb * c + (k mod nb) / 8 < r * c.
Proof.
  intros H Hk. assert (Hn : nb <> 0) by (intros ->; lia).
  assert (k / nb < r) by (apply Nat.div_lt_upper_bound; lia).
  assert (k mod nb < nb) by (apply Nat.mod_upper_bound; exact Hn).
  assert ((k mod nb) / 8 < c) by (apply Nat.div_lt_upper_bound; lia). nia.
Qed.

Lemma bi_bits_ok r nb c d m : nb <= c * 8 -> length d = r * c -> forall fuel i j acc, m - j <= fuel -> i + (m - j) <= r * nb ->
  bi_bits fuel nb c d i j m acc = Ok (acc ++ map (fun t => inb nb c d (i + t)) (seq 0 (m - j))).
Proof.
  intros Hn Hd. induction fuel as [|fuel IH]; intros i j acc Hf Hi; cbn [bi_bits].
  - replace (m <=? j) with true by lia. replace (m - j) with 0 by lia. cbn [seq map]. rewrite app_nil_r. reflexivity.
  - destruct (Nat.leb_spec m j) as [H|H].
    { replace (m - j) with 0 by lia. cbn [seq map]. rewrite app_nil_r. reflexivity. }
    assert (Hnb : nb <> 0) by (intros ->; lia). replace (nb =? 0) with false by lia. cbn [bind].
    set (off := i mod nb). set (row := i / nb).
    assert (Ho : off < nb) by (apply Nat.mod_upper_bound; exact Hnb).
    assert (Ei : i = nb * row + off) by (apply Nat.div_mod; exact Hnb).
    remember (Nat.min (m - j) (nb - off)) as rem eqn:Er.
    assert (Q : forall t, t < rem -> (i + t) / nb = row /\ (i + t) mod nb = off + t).
    { intros t Ht. assert (E : i + t = nb * row + (off + t)) by lia. assert (B : off + t < nb) by lia.
      split; [symmetry; apply (Nat.div_unique _ _ _ _ B E)|symmetry; apply (Nat.mod_unique _ _ _ _ B E)]. }
    rewrite (@mapM_seq _ _ (fun t => inb nb c d (i + t))).
    2:{ intros t Ht. destruct (Q t ltac:(lia)) as [Q1 Q2]. unfold inb. rewrite Q1, Q2. apply mat_bit_ok.
        rewrite Hd, <- Q1, <- Q2. apply in_range; [exact Hn|]. lia. }
    cbn [bind]. rewrite IH by lia. f_equal. rewrite <- app_assoc. f_equal.
    replace (m - j) with (rem + (m - (j + rem))) by lia. rewrite seq_app_map. f_equal. apply map_ext_in. intros t Ht. f_equal. lia.
Qed.

(* ---------- packing ---------- *)
Lemma slice_concat A (l : list (list A)) m : (forall x, In x l -> length x = m) -> forall k, k < length l ->
  slice (concat l) (k * m) m = nth k l [].
Proof.
  intros H. induction l as [|x l IH]; intros k Hk; cbn [length] in Hk; [lia|].
  pose proof (H x (or_introl eq_refl)) as Lx. destruct k as [|k]; cbn [concat nth].
  - unfold slice. cbn [Nat.mul skipn]. rewrite firstn_app, <- Lx, Nat.sub_diag, firstn_all. cbn [firstn]. apply app_nil_r.
  - rewrite <- IH; [|intros y Hy; apply H; right; exact Hy|lia]. unfold slice.
    replace (S k * m) with (length x + k * m) by lia. f_equal. rewrite skipn_app. rewrite skipn_all2 by lia.
    replace (length x + k * m - length x) with (k * m) by lia. reflexivity.
Qed.

Lemma load_store4 x : (x < 2 ^ 32)%N -> load (store 4 x) = x.
Proof.
  intros H. apply N.bits_inj. intros k. destruct (N.lt_ge_cases k 32) as [Hk|Hk].
  - rewrite <- (N2Nat.id k). rewrite load_bit by apply store_bytes. apply store_bit. lia.
  - rewrite (pow2_bits_high (w := 32)); [symmetry; apply (pow2_bits_high (w := 32)); assumption| |exact Hk].
    apply (load_lt (n := 4) (store_bytes 4 x)). rewrite store_length. lia.
Qed.

Lemma pack_length w l : length (bi_pack w l) = length l * (if w =? 32 then 4 else div_ceil w 8).
Proof.
  unfold bi_pack. rewrite (concat_length (m := if w =? 32 then 4 else div_ceil w 8)); [rewrite map_length; reflexivity|].
  intros x Hx. apply in_map_iff in Hx. destruct Hx as (y & <- & _). apply store_length.
Qed.

Definition wide (w : nat) : Prop := w = 32 \/ 24 < w <= 30.
Lemma wide_bytes w : wide w -> (if w =? 32 then 4 else div_ceil w 8) = 4 /\ div_ceil w 8 = 4.
Proof. unfold wide, div_ceil. intros H. destruct (Nat.eqb_spec w 32); lia. Qed.
Lemma wide_mask w : wide w -> bi_mask w = Ok (N.ones (N.of_nat w)).
Proof. unfold wide, bi_mask. intros [->|H]; [reflexivity|]. replace (w =? 32) with false by lia. replace (w <? 31) with true by lia. reflexivity. Qed.

Lemma unpack_pack w l : wide w -> Forall (fun x => (x < 2 ^ 32)%N) l -> bi_unpack w (length l) (bi_pack w l) = Ok l.
Proof.
  intros Hw Hl. unfold bi_unpack. cbv zeta. destruct (wide_bytes Hw) as [E1 _]. rewrite pack_length. rewrite Nat.eqb_refl. cbn [negb throw_if bind].
  rewrite (@mapM_seq _ _ (fun j => nth j l 0%N)).
  - f_equal. apply nth_ext with 0%N 0%N; [rewrite map_length, seq_length; reflexivity|].
    intros k Hk. rewrite map_length, seq_length in Hk. rewrite nth_map_seq' by exact Hk. reflexivity.
  - intros j Hj. rewrite E1. rewrite readN_ok by (rewrite pack_length, E1; lia). cbn [bind]. f_equal.
    unfold bi_pack. rewrite E1. rewrite slice_concat; [|intros x Hx; apply in_map_iff in Hx; destruct Hx as (y & <- & _); apply store_length|rewrite map_length; lia].
    rewrite (nth_indep _ [] (store 4 0%N)) by (rewrite map_length; lia). rewrite map_nth. apply load_store4.
    rewrite Forall_forall in Hl. apply Hl. apply nth_In. lia.
Qed.

(* ---------- the protocol ---------- *)
Lemma nth_firstn_lt A (l : list A) n i d : i < n -> nth i (firstn n l) d = nth i l d.
Proof. intros H. apply nth_firstn. exact H. Qed.

Lemma inj_element w (b0 b1 ch : bool) (x : N) (p : N * N) :
  0 < w <= 32 -> x = (if ch then snd p else fst p) ->
  let diff := xorb b1 ch in
  let m0 := if diff then snd p else fst p in
  let m1 := if diff then fst p else snd p in
  let u := N.land (sub32 (add32 m0 (w32 (1 - 2 * Z.b2z b0))) m1) (N.ones (N.of_nat w)) in
  shares_bit w (xorb b0 b1) (N.land (w32 (Z.b2z b0 - Z.of_N m0)) (N.ones (N.of_nat w)))
    (N.land (if b1 then add32 x u else x) (N.ones (N.of_nat w))).
Proof.
  intros Hw Hx diff m0 m1 u. apply shares_bit_intro; [lia|apply land_lt|apply land_lt|].
  rewrite !land_eqm. assert (D : (2 ^ Z.of_nat w | 2 ^ 32)%Z) by (apply pow_div; lia).
  rewrite (eqm_weaken D (w32_eqm _)).
  destruct b1.
  - rewrite (eqm_weaken D (add32_eqm _ _)). unfold u. rewrite land_eqm.
    rewrite (eqm_weaken D (sub32_eqm _ _)). rewrite (eqm_weaken D (add32_eqm _ _)). rewrite (eqm_weaken D (w32_eqm _)).
    apply eqm_refl'. subst x. unfold m0, m1, diff. destruct ch, b0; cbn [xorb Z.b2z]; lia.
  - apply eqm_refl'. subst x. unfold m0, m1, diff. destruct ch, b0; cbn [xorb Z.b2z]; lia.
Qed.

Lemma map2_nth A B C (f : A -> B -> C) l m i da db dc : i < length l -> i < length m -> nth i (map2 f l m) dc = f (nth i l da) (nth i m db).
Proof. apply nth_map2. Qed.

Lemma Forall2_cons_inv_l A B (R : A -> B -> Prop) a l m : Forall2 R (a :: l) m -> exists b m', m = b :: m' /\ R a b /\ Forall2 R l m'.
Proof. intros H. inversion H; subst; eauto. Qed.

Section Run.
Variables (r nb c : nat) (d0 d1 : list N) (w : nat).
Hypothesis Hnb : nb <= c * 8.
Hypothesis H0 : length d0 = r * c.
Hypothesis H1 : length d1 = r * c.
Hypothesis Hw : wide w.

Lemma bi_run : forall ss rs i, Forall2 ot_rel ss rs -> Forall (fun s => s <> []) ss -> i <= r * nb -> r * nb - i <= length (concat ss) ->
  exists x y o1, bi_recv1 (r * nb) nb c d1 rs i = Ok x /\
    bi_send (r * nb) nb c d0 w (N.ones (N.of_nat w)) ss (map fst x) i = Ok y /\
    bi_recv2 w (N.ones (N.of_nat w)) (map snd x) (snd y) = Ok o1 /\
    length (fst y) = r * nb - i /\ length o1 = r * nb - i /\
    forall t, t < r * nb - i -> shares_bit w (xorb (inb nb c d0 (i + t)) (inb nb c d1 (i + t))) (nth t (fst y) 0%N) (nth t o1 0%N).
Proof.
  induction ss as [|s ss IH]; intros rs i HR HE Hi Hk.
  - cbn [concat length] in Hk. inversion HR; subst. exists [], ([], []), [].
    cbn [bi_recv1 bi_send bi_recv2 map]. replace (r * nb <=? i) with true by lia. do 5 (split; [reflexivity || (cbn; lia)|]). intros t Ht. lia.
  - apply Forall2_cons_inv_l in HR. destruct HR as (q & rs' & -> & (L1 & L2 & Hq) & HR). inversion HE as [|? ? Hs HE']; subst.
    cbn [bi_recv1]. destruct (Nat.leb_spec (r * nb) i) as [Hc|Hc].
    { exists [], ([], []), []. cbn [bi_send bi_recv2 map]. replace (r * nb <=? i) with true by lia.
      do 5 (split; [reflexivity || (cbn; lia)|]). intros t Ht. lia. }
    assert (Ls : 0 < length s) by (destruct s; [congruence|cbn; lia]).
    rewrite <- L1. remember (Nat.min (length s) (r * nb - i)) as m eqn:Em.
    assert (Hm : 0 < m) by lia. replace (m =? 0) with false by lia.
    rewrite (@bi_bits_ok r) by (assumption || lia). rewrite Nat.sub_0_r. cbn [app bind].
    set (bits := map (fun t => inb nb c d1 (i + t)) (seq 0 m)).
    assert (Lb : length bits = m) by (unfold bits; rewrite map_length, seq_length; reflexivity).
    set (cho := firstn m (oChoice q)).
    assert (Lc : length cho = m) by (unfold cho; rewrite firstn_length; lia).
    set (diff := map2 xorb bits cho).
    assert (Ld : length diff = m) by (unfold diff; rewrite map2_length; lia).
    destruct (IH rs' (i + m)) as (x & y & o1 & E1 & E2 & E3 & Ly & Lo & Hsh); [exact HR|exact HE'|lia|cbn [concat] in Hk; rewrite app_length in Hk; lia|].
    rewrite E1. cbn [bind].
    assert (Hdiff : forall j, j < m -> nth j diff false = xorb (inb nb c d1 (i + j)) (nth j (oChoice q) false)).
    { intros j Hj. unfold diff. rewrite (@map2_nth _ _ _ xorb _ _ j false false) by lia. f_equal.
      - unfold bits. rewrite nth_map_seq' by exact Hj. reflexivity.
      - unfold cho. apply nth_firstn_lt. exact Hj. }
    set (g0 := fun j => let y := inb nb c d0 (i + j) in
       let p := nth j s (0, 0)%N in
       let m0 := if nth j diff false then snd p else fst p in
       let m1 := if nth j diff false then fst p else snd p in
       (N.land (w32 (Z.b2z y - Z.of_N m0)) (N.ones (N.of_nat w)),
        N.land (sub32 (add32 m0 (w32 (1 - 2 * Z.b2z y))) m1) (N.ones (N.of_nat w)))).
    set (ups := map snd (map g0 (seq 0 m))).
    assert (Lu : length ups = m) by (unfold ups; rewrite !map_length, seq_length; reflexivity).
    set (cho' := map2 xorb cho diff).
    assert (Lc' : length cho' = m) by (unfold cho'; rewrite map2_length; lia).
    assert (Hcho' : forall j, j < m -> nth j cho' false = inb nb c d1 (i + j)).
    { intros j Hj. unfold cho'. rewrite (@map2_nth _ _ _ xorb _ _ j false false) by lia. rewrite Hdiff by exact Hj.
      unfold cho. rewrite nth_firstn_lt by exact Hj. destruct (nth j (oChoice q) false), (inb nb c d1 (i + j)); reflexivity. }
    set (g1 := fun j => N.land (if inb nb c d1 (i + j) then add32 (nth j (oMsg q) 0%N) (nth j ups 0%N) else nth j (oMsg q) 0%N) (N.ones (N.of_nat w))).
    exists ((diff, OtR cho' (oMsg q)) :: x), (map fst (map g0 (seq 0 m)) ++ fst y, bi_pack w ups :: snd y), (map g1 (seq 0 m) ++ o1).
    split; [reflexivity|]. split.
    { cbn [map fst bi_send]. replace (r * nb <=? i) with false by lia. rewrite <- Em. replace (m =? 0) with false by lia.
      rewrite Ld, Nat.eqb_refl. cbn [negb throw_if bind].
      rewrite (@mapM_seq _ _ g0).
      2:{ intros j Hj. rewrite mat_bit_ok by (rewrite H0; apply in_range; [exact Hnb|lia]). cbn [bind].
          rewrite (get_ok false) by lia. cbn [bind]. rewrite (get_ok (0, 0)%N) by lia. cbn [bind]. reflexivity. }
      cbn [bind]. rewrite E2. cbn [bind fst snd]. reflexivity. }
    split.
    { cbn [map snd bi_recv2 oChoice]. rewrite Lc', pack_length. destruct (wide_bytes Hw) as [W1 W2]. rewrite W1, W2, Lu, Nat.eqb_refl. cbn [negb throw_if bind].
      rewrite <- Lu. rewrite unpack_pack; [|exact Hw|].
      2:{ apply Forall_forall. intros u Hu. unfold ups in Hu. apply in_map_iff in Hu. destruct Hu as (pp & <- & Hpp).
          apply in_map_iff in Hpp. destruct Hpp as (j & <- & _). unfold g0. cbn [snd].
          eapply N.lt_le_trans; [apply land_lt|]. apply N.pow_le_mono_r; [discriminate|]. destruct Hw; lia. }
      cbn [bind]. rewrite Lu. rewrite (@mapM_seq _ _ g1).
      2:{ intros j Hj. cbn [oMsg]. rewrite (get_ok false) by lia. cbn [bind]. rewrite (get_ok 0%N) by lia. cbn [bind].
          rewrite (get_ok 0%N) by lia. cbn [bind]. rewrite Hcho' by lia. reflexivity. }
      cbn [bind]. rewrite E3. reflexivity. }
    assert (LA : length (map fst (map g0 (seq 0 m))) = m) by (rewrite !map_length, seq_length; reflexivity).
    assert (LB : length (map g1 (seq 0 m)) = m) by (rewrite map_length, seq_length; reflexivity).
    cbn [fst]. split; [rewrite app_length, LA, Ly; lia|]. split; [rewrite app_length, LB, Lo; lia|].
    intros t Ht. destruct (Nat.lt_ge_cases t m) as [Htm|Htm].
    + rewrite !app_nth1 by lia. rewrite map_map. rewrite !nth_map_seq' by exact Htm. cbn [Nat.add].
      unfold g0, g1. cbn [fst].
      assert (EU : nth t ups 0%N = snd (g0 t)) by (unfold ups; rewrite map_map, nth_map_seq' by exact Htm; reflexivity).
      rewrite EU. unfold g0. cbn [snd]. rewrite Hdiff by exact Htm.
      apply inj_element; [destruct Hw; lia|]. apply Hq. lia.
    + rewrite !app_nth2 by lia. rewrite LA, LB. specialize (Hsh (t - m)). replace (i + m + (t - m)) with (i + t) in Hsh by lia. apply Hsh. lia.
Qed.
End Run.

Lemma bit_inject_ok nr nb req r c d0 d1 w ss rs : nb <= c * 8 -> r = nr -> r * nb <= req -> length d0 = r * c -> length d1 = r * c ->
  wide w -> ots_ok (r * nb) ss rs ->
  exists o0 o1, bit_inject true nr nb req r c d0 d1 w ss rs = Ok (o0, o1) /\ length o0 = r * nb /\ length o1 = r * nb /\
    forall i j, i < r -> j < nb -> shares_bit w (xorb (mbit c d0 i j) (mbit c d1 i j)) (nth (i * nb + j) o0 0%N) (nth (i * nb + j) o1 0%N).
Proof.
  intros Hn Hr Hq H0 H1 Hw (HR & HE & HK). unfold bit_inject.
  replace (c * 8 <? nb) with false by lia. replace (r =? nr) with true by lia. cbn [throw_if bind negb].
  rewrite (wide_mask Hw). cbn [bind]. replace (req <? r * nb) with false by lia. cbn [throw_if bind].
  destruct (@bi_run r nb c d0 d1 w Hn H0 H1 Hw ss rs 0 HR HE) as (x & y & o1 & E1 & E2 & E3 & Ly & Lo & Hs); [lia|lia|].
  rewrite E1. cbn [bind]. rewrite E2. cbn [bind]. rewrite E3. cbn [bind]. exists (fst y), o1. rewrite Nat.sub_0_r in *.
  split; [reflexivity|]. split; [exact Ly|]. split; [exact Lo|]. intros i j Hi Hj.
  specialize (Hs (i * nb + j) ltac:(nia)). cbn [Nat.add] in Hs. unfold inb in Hs.
  assert (E : i * nb + j = nb * i + j) by lia.
  rewrite <- (Nat.div_unique _ _ _ _ Hj E), <- (Nat.mod_unique _ _ _ _ Hj E) in Hs. exact Hs.
Qed.

(* ---------- narrow widths ---------- *)
Definition nbytes (w : nat) : nat := if w =? 32 then 4 else div_ceil w 8.

Lemma bi_msgs r nb c d0 d1 w mask : nb <= c * 8 -> length d0 = r * c -> length d1 = r * c ->
  forall ss rs i, Forall2 ot_rel ss rs -> Forall (fun s => s <> []) ss -> i <= r * nb -> r * nb - i <= length (concat ss) ->
  exists x y, bi_recv1 (r * nb) nb c d1 rs i = Ok x /\
    bi_send (r * nb) nb c d0 w mask ss (map fst x) i = Ok y /\
    (i < r * nb -> x <> []) /\
    Forall2 (fun o b => 0 < length (oChoice o) /\ length b = length (oChoice o) * nbytes w) (map snd x) (snd y).
Proof.
  intros Hnb H0 H1. induction ss as [|s ss IH]; intros rs i HR HE Hi Hk.
  - cbn [concat length] in Hk. inversion HR; subst. exists [], ([], []).
    cbn [bi_recv1 bi_send map]. replace (r * nb <=? i) with true by lia. split; [reflexivity|]. split; [reflexivity|]. split; [lia|]. constructor.
  - apply Forall2_cons_inv_l in HR. destruct HR as (q & rs' & -> & (L1 & L2 & Hq) & HR). inversion HE as [|? ? Hs HE']; subst.
    cbn [bi_recv1]. destruct (Nat.leb_spec (r * nb) i) as [Hc|Hc].
    { exists [], ([], []). cbn [bi_send map]. replace (r * nb <=? i) with true by lia. split; [reflexivity|]. split; [reflexivity|]. split; [lia|]. constructor. }
    assert (Ls : 0 < length s) by (destruct s; [congruence|cbn; lia]).
    rewrite <- L1. remember (Nat.min (length s) (r * nb - i)) as m eqn:Em.
    assert (Hm : 0 < m) by lia. replace (m =? 0) with false by lia.
    rewrite (@bi_bits_ok r) by (assumption || lia). rewrite Nat.sub_0_r. cbn [app bind].
    destruct (IH rs' (i + m)) as (x & y & E1 & E2 & _ & F); [exact HR|exact HE'|lia|cbn [concat] in Hk; rewrite app_length in Hk; lia|].
    rewrite E1. cbn [bind].
    set (diff := map2 xorb (map (fun t => inb nb c d1 (i + t)) (seq 0 m)) (firstn m (oChoice q))).
    assert (Ld : length diff = m) by (unfold diff; rewrite map2_length, map_length, seq_length, firstn_length; lia).
    assert (G : exists ou, mapM (fun j =>
      do y <- mat_bit c d0 ((i + j) / nb) ((i + j) mod nb);
      do b <- get diff j;
      do p <- get s j;
      let m0 := if b then snd p else fst p in
      let m1 := if b then fst p else snd p in
      let v1 := add32 m0 (w32 (1 - 2 * Z.b2z y)) in
      Ok (N.land (w32 (Z.b2z y - Z.of_N m0)) mask, N.land (sub32 v1 m1) mask)) (seq 0 m) = Ok ou /\ length ou = m).
    { eexists. split; [apply mapM_seq; intros j Hj; rewrite mat_bit_ok by (rewrite H0; apply in_range; [exact Hnb|lia]); cbn [bind];
          rewrite (get_ok false) by lia; cbn [bind]; rewrite (get_ok (0, 0)%N) by lia; cbn [bind]; reflexivity|].
      rewrite map_length, seq_length. reflexivity. }
    destruct G as (ou & EO & LO).
    eexists _, (map fst ou ++ fst y, bi_pack w (map snd ou) :: snd y). split; [reflexivity|].
    split. { cbn [map fst bi_send]. replace (r * nb <=? i) with false by lia. rewrite <- Em. replace (m =? 0) with false by lia.
      rewrite Ld, Nat.eqb_refl. cbn [negb throw_if bind]. match goal with |- bind ?e _ = _ => change e with (mapM (fun j =>
      do y <- mat_bit c d0 ((i + j) / nb) ((i + j) mod nb);
      do b <- get diff j;
      do p <- get s j;
      let m0 := if b then snd p else fst p in
      let m1 := if b then fst p else snd p in
      let v1 := add32 m0 (w32 (1 - 2 * Z.b2z y)) in
      Ok (N.land (w32 (Z.b2z y - Z.of_N m0)) mask, N.land (sub32 v1 m1) mask)) (seq 0 m)) end.
      rewrite EO. cbn [bind]. rewrite E2. reflexivity. }
    split; [discriminate|]. cbn [map snd]. constructor; [|exact F]. cbn [oChoice]. rewrite map2_length, firstn_length, Ld.
    rewrite pack_length, map_length. unfold nbytes. split; lia.
Qed.

Lemma unpack_narrow w m buf : nbytes w < 4 -> 0 < m -> length buf = m * nbytes w -> bi_unpack w m buf = UB.
Proof.
  intros Hn Hm Hl. unfold bi_unpack. fold (nbytes w). cbv zeta. rewrite Hl, Nat.eqb_refl. cbn [negb throw_if bind].
  eapply (@mapM_ub _ _ _ _ (m - 1)); [| | |reflexivity].
  - apply in_seq. lia.
  - unfold readN. replace ((m - 1) * nbytes w + 4 <=? length buf) with false by nia. reflexivity.
  - intros x _. unfold readN. destruct (x * nbytes w + 4 <=? length buf); cbn [bind]; eauto.
Qed.

Lemma bit_inject_narrow nr nb req r c d0 d1 w ss rs : nb <= c * 8 -> r = nr -> r * nb <= req -> length d0 = r * c -> length d1 = r * c ->
  0 < r * nb -> w <= 24 -> ots_ok (r * nb) ss rs -> bit_inject true nr nb req r c d0 d1 w ss rs = UB.
Proof.
  intros Hn Hr Hq H0 H1 Hp Hw (HR & HE & HK). unfold bit_inject.
  replace (c * 8 <? nb) with false by lia. replace (r =? nr) with true by lia. cbn [throw_if bind negb].
  assert (EM : exists mask, bi_mask w = Ok mask) by (unfold bi_mask; replace (w =? 32) with false by lia; replace (w <? 31) with true by lia; eauto).
  destruct EM as (mask & ->). cbn [bind]. replace (req <? r * nb) with false by lia. cbn [throw_if bind].
  destruct (@bi_msgs r nb c d0 d1 w mask Hn H0 H1 ss rs 0 HR HE) as (x & y & E1 & E2 & Hx & F); [lia|lia|].
  rewrite E1. cbn [bind]. rewrite E2. cbn [bind].
  assert (N4 : nbytes w < 4) by (unfold nbytes, div_ceil; replace (w =? 32) with false by lia; apply Nat.div_lt_upper_bound; lia).
  destruct x as [|a x]; [exfalso; apply Hx; [exact Hp|reflexivity]|]. cbn [map] in *.
  apply Forall2_cons_inv_l in F. destruct F as (b & bs & Eb & (P & Q) & F). rewrite Eb. cbn [bi_recv2].
  rewrite Q. replace (div_ceil w 8) with (nbytes w) by (unfold nbytes; replace (w =? 32) with false by lia; reflexivity).
  rewrite Nat.eqb_refl. cbn [negb throw_if bind]. rewrite unpack_narrow by assumption. reflexivity.
Qed.

Lemma bit_inject_mask_ub nb nr req r c d0 d1 w ss rs : nb <= c * 8 -> r = nr -> w = 31 \/ 32 < w ->
  bit_inject true nr nb req r c d0 d1 w ss rs = UB.
Proof.
  intros Hn Hr Hw. unfold bit_inject. replace (c * 8 <? nb) with false by lia. replace (r =? nr) with true by lia. cbn [throw_if bind negb].
  unfold bi_mask. replace (w =? 32) with false by lia. replace (w <? 31) with false by lia. reflexivity.
Qed.

Lemma bit_inject_throws rq nb nr req r c d0 d1 w ss rs : c * 8 < nb \/ r <> nr \/ rq = false \/ (wide w /\ req < r * nb) ->
  bit_inject rq nr nb req r c d0 d1 w ss rs = Throw.
Proof.
  intros H. unfold bit_inject. destruct (Nat.ltb_spec (c * 8) nb) as [|H1]; [reflexivity|]. cbn [throw_if bind].
  destruct (Nat.eqb_spec r nr) as [H2|]; [|reflexivity]. cbn [negb throw_if bind]. destruct rq; [|reflexivity]. cbn [negb throw_if bind].
  destruct H as [H|[H|[H|[Hw H]]]]; [lia|congruence|discriminate|]. rewrite (wide_mask Hw). cbn [bind]. replace (req <? r * nb) with true by lia. reflexivity.
Qed.
