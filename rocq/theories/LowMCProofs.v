(* encrypt, decrypt and the instantiation of LowMC (C58). *)
From Verif Require Import Base GmwModel LowMCModel LowMCSpec LowMCMat.

Notation row m i := (nth i m 0%N).

(* ---------------- the substitution layers ---------------- *)
Definition num3 (c b a : bool) : N := ((if c then 1 else 0) + (if b then 2 else 0) + (if a then 4 else 0))%N.
Definition tabbit (tab : list N) (c b a : bool) (r : nat) : bool := bit_at (row tab (N.to_nat (num3 c b a))) r.

Lemma num3_bit c b a i : bit_at (num3 c b a) i = match i with 0 => c | 1 => b | 2 => a | _ => false end.
Proof.
  destruct i as [|[|[|i]]]; try (destruct c, b, a; reflexivity).
  apply (proj1 (small_iff 3 (num3 c b a))); [|lia]. destruct c, b, a; reflexivity.
Qed.
Lemma box_num x k : N.land (N.shiftr x (N.of_nat k)) 7 = num3 (bit_at x k) (bit_at x (k + 1)) (bit_at x (k + 2)).
Proof.
  apply bits_eq. intros i. rewrite num3_bit. unfold bit_at at 1. rewrite N.land_spec, N.shiftr_spec by lia.
  change 7%N with (num3 true true true). change (N.testbit (num3 true true true) (N.of_nat i)) with (bit_at (num3 true true true) i).
  rewrite num3_bit. replace (N.of_nat i + N.of_nat k)%N with (N.of_nat (k + i)) by lia.
  change (N.testbit x (N.of_nat (k + i))) with (bit_at x (k + i)).
  destruct i as [|[|[|i]]]; rewrite ?andb_true_r, ?andb_false_r; auto.
Qed.
Lemma bit_shiftl x k i : bit_at (N.shiftl x (N.of_nat k)) i = if i <? k then false else bit_at x (i - k).
Proof.
  unfold bit_at. destruct (Nat.ltb_spec i k).
  - apply N.shiftl_spec_low. lia.
  - rewrite N.shiftl_spec_high by lia. f_equal. lia.
Qed.
Lemma bit_shiftr x k i : bit_at (N.shiftr x (N.of_nat k)) i = bit_at x (i + k).
Proof. unfold bit_at. rewrite N.shiftr_spec by lia. f_equal. lia. Qed.
Lemma bit_ones n i : bit_at (N.ones (N.of_nat n)) i = (i <? n).
Proof.
  unfold bit_at. destruct (Nat.ltb_spec i n); [apply N.ones_spec_low; lia|apply N.ones_spec_high; lia].
Qed.

Definition layer (tab : list N) (m : nat) (x : bvec) : bvec := fun j =>
  if j <? 3 * m then let q := 3 * (j / 3) in tabbit tab (x q) (x (q + 1)) (x (q + 2)) (j mod 3) else x j.

Lemma substitute_ok tab p x : length tab = 8 -> Forall (small 3) tab -> 3 * lpBoxes p <= lpBits p -> small (lpBits p) x ->
  exists y, substitute tab p x = Ok y /\ small (lpBits p) y /\ forall j, bit_at y j = layer tab (lpBoxes p) (bit_at x) j.
Proof.
  intros HT HF Hb Hx. set (m := lpBoxes p) in *. set (B := lpBits p) in *.
  assert (Sx : forall i, B <= i -> bit_at x i = false) by (apply small_iff; auto).
  unfold substitute. fold m. fold B.
  destruct (@forN_inv _ (fun i t => forall j, bit_at t j =
      let d := i - 1 in
      if j <? 3 * d then let q := 3 * (m - d + j / 3) in tabbit tab (bit_at x q) (bit_at x (q + 1)) (bit_at x (q + 2)) (j mod 3)
      else bit_at x (j + 3 * (m - d)))
    (fun i t =>
      let t := N.land (N.shiftl t 3) (N.ones (N.of_nat B)) in
      do v <- get tab (N.to_nat (N.land (N.shiftr x (N.of_nat (3 * (m - i)))) 7)); Ok (N.lxor t v))
    m 1 (N.shiftr x (N.of_nat (3 * m)))) as (y & E & Hy).
  - intros j. cbn zeta. destruct (Nat.ltb_spec j (3 * (1 - 1))); [lia|]. rewrite bit_shiftr. f_equal. lia.
  - intros i t Hi Ht. cbn zeta in *. rewrite box_num.
    set (v := num3 _ _ _). assert (Hv : N.to_nat v < 8).
    { unfold v, num3. destruct (bit_at x (3 * (m - i))), (bit_at x (3 * (m - i) + 1)), (bit_at x (3 * (m - i) + 2)); cbn; lia. }
    rewrite getr by lia. cbn [bind]. eexists. split; [reflexivity|]. intros j.
    assert (S3 : small 3 (row tab (N.to_nat v))) by (rewrite Forall_forall in HF; apply HF, nth_In; lia).
    rewrite bit_lxor. unfold bit_at at 1. rewrite N.land_spec.
    change (N.testbit (N.shiftl t 3) (N.of_nat j)) with (bit_at (N.shiftl t (N.of_nat 3)) j).
    change (N.testbit (N.ones (N.of_nat B)) (N.of_nat j)) with (bit_at (N.ones (N.of_nat B)) j).
    rewrite bit_shiftl, bit_ones. replace (i + 1 - 1) with i by lia.
    destruct (Nat.ltb_spec j 3) as [L3|L3].
    + cbn [andb]. rewrite xorb_false_l. destruct (Nat.ltb_spec j (3 * i)); [|lia].
      rewrite (Nat.div_small j 3), (Nat.mod_small j 3) by lia. rewrite Nat.add_0_r. reflexivity.
    + rewrite (proj1 (small_iff 3 _) S3) by auto. rewrite xorb_false_r, Ht.
      assert (Ed : j / 3 = (j - 3) / 3 + 1 /\ j mod 3 = (j - 3) mod 3).
      { clear - L3. replace j with ((j - 3) + 1 * 3) at 1 3 by lia. rewrite Nat.div_add, Nat.mod_add by lia. lia. }
      destruct Ed as [Ed Em].
      destruct (Nat.ltb_spec (j - 3) (3 * (i - 1))), (Nat.ltb_spec j (3 * i)); try lia.
      * destruct (Nat.ltb_spec j B); [|lia]. rewrite andb_true_r, Em, Ed.
        replace (m - (i - 1) + (j - 3) / 3) with (m - i + ((j - 3) / 3 + 1)) by lia. reflexivity.
      * replace (j - 3 + 3 * (m - (i - 1))) with (j + 3 * (m - i)) by lia.
        destruct (Nat.ltb_spec j B); [apply andb_true_r|]. rewrite andb_false_r. symmetry. apply Sx. lia.
  - assert (Hb' : forall j, bit_at y j = layer tab m (bit_at x) j).
    { intros j. rewrite Hy. cbn zeta. unfold layer. replace (1 + m - 1) with m by lia.
      rewrite Nat.sub_diag. cbn [Nat.add]. rewrite Nat.mul_0_r, Nat.add_0_r. reflexivity. }
    exists y. split; [exact E|]. split; [|exact Hb'].
    apply small_iff. intros i Hi. rewrite Hb'. unfold layer. destruct (Nat.ltb_spec i (3 * m)); [lia|auto].
Qed.

Lemma sbox_tab : length sbox = 8 /\ Forall (small 3) sbox.
Proof. split; [reflexivity|]. unfold sbox. repeat constructor. Qed.
Lemma inv_sbox_tab : length inv_sbox = 8 /\ Forall (small 3) inv_sbox.
Proof. split; [reflexivity|]. unfold inv_sbox. repeat constructor. Qed.

Lemma layer_sbox m x j : layer sbox m x j = slayer m x j.
Proof.
  unfold layer, slayer. destruct (j <? 3 * m); auto. cbn zeta.
  pose proof (Nat.mod_upper_bound j 3 ltac:(lia)) as Hm. destruct (j mod 3) as [|[|[|r]]]; [| | |lia];
    destruct (x (3 * (j / 3))), (x (3 * (j / 3) + 1)), (x (3 * (j / 3) + 2)); reflexivity.
Qed.

Lemma layer_ext tab m x y j : (forall i, x i = y i) -> layer tab m x j = layer tab m y j.
Proof. intros H. unfold layer. rewrite !H. reflexivity. Qed.

Lemma layer_layer t1 t2 m x j :
  (forall c b a r, r < 3 -> tabbit t1 (tabbit t2 c b a 0) (tabbit t2 c b a 1) (tabbit t2 c b a 2) r = match r with 0 => c | 1 => b | _ => a end) ->
  layer t1 m (layer t2 m x) j = x j.
Proof.
  intros H. unfold layer at 1. destruct (Nat.ltb_spec j (3 * m)) as [L|L].
  - cbn zeta. set (q := j / 3).
    assert (Hq : 3 * q + j mod 3 = j) by (unfold q; symmetry; apply Nat.div_mod; lia).
    pose proof (Nat.mod_upper_bound j 3 ltac:(lia)) as Hm.
    assert (Hl : forall r, r < 3 -> layer t2 m x (3 * q + r) = tabbit t2 (x (3 * q)) (x (3 * q + 1)) (x (3 * q + 2)) r).
    { intros r Hr. unfold layer. destruct (Nat.ltb_spec (3 * q + r) (3 * m)); [|lia].
      assert (E1 : (3 * q + r) / 3 = q) by (rewrite Nat.mul_comm, Nat.div_add_l, Nat.div_small by lia; lia).
      assert (E2 : (3 * q + r) mod 3 = r) by (rewrite Nat.mul_comm, Nat.add_comm, Nat.mod_add, Nat.mod_small by lia; auto).
      rewrite E1, E2. reflexivity. }
    pose proof (Hl 0 ltac:(lia)) as H0. rewrite Nat.add_0_r in H0.
    rewrite H0, !Hl by lia. rewrite H by auto. transitivity (x (3 * q + j mod 3)); [|rewrite Hq; auto].
    clear - Hm.
    destruct (j mod 3) as [|[|[|r]]]; [rewrite Nat.add_0_r; auto|auto|auto|lia].
  - unfold layer. destruct (Nat.ltb_spec j (3 * m)); [lia|auto].
Qed.

Lemma inv_sbox_sbox c b a r : r < 3 ->
  tabbit inv_sbox (tabbit sbox c b a 0) (tabbit sbox c b a 1) (tabbit sbox c b a 2) r = match r with 0 => c | 1 => b | _ => a end.
Proof. intros Hr. destruct r as [|[|[|r]]]; [| | |lia]; destruct c, b, a; reflexivity. Qed.
Lemma sbox_inv_sbox c b a r : r < 3 ->
  tabbit sbox (tabbit inv_sbox c b a 0) (tabbit inv_sbox c b a 1) (tabbit inv_sbox c b a 2) r = match r with 0 => c | 1 => b | _ => a end.
Proof. intros Hr. destruct r as [|[|[|r]]]; [| | |lia]; destruct c, b, a; reflexivity. Qed.

Lemma substitute_inverse p x : 3 * lpBoxes p <= lpBits p -> small (lpBits p) x ->
  (exists y, small (lpBits p) y /\ substitute sbox p x = Ok y /\ substitute inv_sbox p y = Ok x) /\
  (exists y, small (lpBits p) y /\ substitute inv_sbox p x = Ok y /\ substitute sbox p y = Ok x).
Proof.
  intros Hb Hx. destruct sbox_tab as [A1 A2], inv_sbox_tab as [B1 B2]. split.
  - destruct (substitute_ok A1 A2 Hb Hx) as (y & E & Sy & Hy). exists y. split; auto. split; auto.
    destruct (substitute_ok B1 B2 Hb Sy) as (z & Ez & _ & Hz). rewrite Ez. f_equal. apply bits_eq. intros i.
    rewrite Hz, (layer_ext _ _ _ Hy). apply layer_layer. apply inv_sbox_sbox.
  - destruct (substitute_ok B1 B2 Hb Hx) as (y & E & Sy & Hy). exists y. split; auto. split; auto.
    destruct (substitute_ok A1 A2 Hb Sy) as (z & Ez & _ & Hz). rewrite Ez. f_equal. apply bits_eq. intros i.
    rewrite Hz, (layer_ext _ _ _ Hy). apply layer_layer. apply sbox_inv_sbox.
Qed.

Lemma mul_inverse n mat inv x : square n mat -> square n inv -> inverse_of n mat inv -> small n x ->
  (exists y, small n y /\ mul_mat n mat x = Ok y /\ mul_mat n inv y = Ok x) /\
  (exists y, small n y /\ mul_mat n inv x = Ok y /\ mul_mat n mat y = Ok x).
Proof.
  intros [Lm _] [Li _] HI Hx. split.
  - destruct (mul_mat_ok Lm Hx) as (y & E & Sy & Hy). exists y. split; auto. split; auto.
    destruct (mul_mat_ok Li Sy) as (z & Ez & Sz & Hz). rewrite Ez. f_equal. apply (bits_eq_small Sz Hx). intros i Hi.
    rewrite Hz, <- matvec_dot by auto. rewrite <- (proj1 (HI (bit_at x) i Hi)). apply matvec_ext. intros j Hj.
    apply Hy. auto.
  - destruct (mul_mat_ok Li Hx) as (y & E & Sy & Hy). exists y. split; auto. split; auto.
    destruct (mul_mat_ok Lm Sy) as (z & Ez & Sz & Hz). rewrite Ez. f_equal. apply (bits_eq_small Sz Hx). intros i Hi.
    rewrite Hz, <- matvec_dot by auto. rewrite <- (proj2 (HI (bit_at x) i Hi)). apply matvec_ext. intros j Hj.
    apply Hy. auto.
Qed.

(* ---------------- encrypt ---------------- *)
Lemma nth_in_forall A (P : A -> Prop) l i d : Forall P l -> i < length l -> P (nth i l d).
Proof. intros F Hi. rewrite Forall_forall in F. apply F, nth_In, Hi. Qed.
Lemma getd A (l : list A) i d : i < length l -> get l i = Ok (nth i l d).
Proof. intros H. apply get_Ok, nth_error_nth_lt, H. Qed.

Definition enc_round (p : lparams) (l : lowmc) (r : nat) (c : N) : outcome N :=
  do c <- substitute sbox p c;
  do m <- get (lmLin l) (r - 1);
  do c <- mul_mat (lpBits p) m c;
  do rc <- get (lmConst l) (r - 1);
  do k <- get (lmKeys l) r;
  Ok (N.lxor (N.lxor c rc) k).
Definition dec_round (p : lparams) (l : lowmc) (r : nat) (c : N) : outcome N :=
  do k <- get (lmKeys l) r;
  do rc <- get (lmConst l) (r - 1);
  do m <- get (lmInv l) (r - 1);
  do c <- mul_mat (lpBits p) m (N.lxor (N.lxor c k) rc);
  substitute inv_sbox p c.

Lemma slayer_ext m n x y j : 3 * m <= n -> (forall i, i < n -> x i = y i) -> j < n -> slayer m x j = slayer m y j.
Proof.
  intros Hm H Hj. unfold slayer. destruct (Nat.ltb_spec j (3 * m)) as [L|L]; [|apply H; auto].
  cbn zeta. assert (3 * (j / 3) + 2 < 3 * m) by (clear - L; lia).
  rewrite !H by lia. reflexivity.
Qed.

Lemma enc_round_ok p l r c (y : bvec) : shaped p l -> keyed p l -> 1 <= r <= lpRounds p -> small (lpBits p) c ->
  (forall i, i < lpBits p -> bit_at c i = y i) ->
  exists d, enc_round p l r c = Ok d /\ small (lpBits p) d /\ forall i, i < lpBits p -> bit_at d i =
    xorb (xorb (matvec (lpBits p) (nth (r - 1) (lmLin l) []) (slayer (lpBoxes p) y) i) (nth (r - 1) (const_vecs l) (fun _ => false) i)) (key_vecs l r i).
Proof.
  intros (Hb & L1 & F1 & L2 & F2) (L3 & F3) Hr Sc Hc. unfold enc_round.
  destruct sbox_tab as [A1 A2]. destruct (substitute_ok A1 A2 Hb Sc) as (s & Es & Ss & Hs). rewrite Es. cbn [bind].
  rewrite (@getd _ (lmLin l) _ []) by lia. cbn [bind].
  assert (Sq : square (lpBits p) (nth (r - 1) (lmLin l) [])) by (apply nth_in_forall; auto; lia).
  destruct (mul_mat_ok (proj1 Sq) Ss) as (t & Et & St & Ht). rewrite Et. cbn [bind].
  rewrite (@getd _ (lmConst l) _ 0%N) by lia. cbn [bind]. rewrite (@getd _ (lmKeys l) _ 0%N) by lia. cbn [bind].
  eexists. split; [reflexivity|]. split.
  - apply small_lxor; [apply small_lxor; auto|].
    + apply (nth_in_forall (P := small (lpBits p))); auto; lia.
    + apply (nth_in_forall (P := small (lpBits p))); auto; lia.
  - intros i Hi. rewrite !bit_lxor, Ht by auto. unfold key_vecs, const_vecs.
    rewrite (nth_indep _ _ (bitv 0%N)) by (rewrite map_length; lia). rewrite map_nth. f_equal. f_equal.
    rewrite <- matvec_dot. apply matvec_ext. intros j Hj. rewrite Hs, layer_sbox.
    apply (@slayer_ext _ (lpBits p)); auto.
Qed.

Lemma enc_forN p l x : lm_encrypt p l x = (do k0 <- get (lmKeys l) 0; forN 1 (lpRounds p) (enc_round p l) (N.lxor x k0)).
Proof. reflexivity. Qed.

Theorem encrypt_cipher p l x : shaped p l -> keyed p l -> small (lpBits p) x ->
  exists y, lm_encrypt p l x = Ok y /\ small (lpBits p) y /\ forall i, i < lpBits p ->
    bit_at y i = cipher (lpBoxes p) (lpBits p) (lmLin l) (const_vecs l) (key_vecs l) (lpRounds p) (bit_at x) i.
Proof.
  intros HS HK Sx. pose proof HK as (L3 & F3). rewrite enc_forN. rewrite (@getd _ (lmKeys l) _ 0%N) by lia. cbn [bind].
  destruct (@forN_inv _ (fun r c => small (lpBits p) c /\ forall i, i < lpBits p ->
      bit_at c i = cipher (lpBoxes p) (lpBits p) (lmLin l) (const_vecs l) (key_vecs l) (r - 1) (bit_at x) i)
    (enc_round p l) (lpRounds p) 1 (N.lxor x (row (lmKeys l) 0))) as (y & E & Sy & Hy).
  - split; [apply small_lxor; auto; apply (nth_in_forall (P := small (lpBits p))); auto; lia|].
    intros i Hi. rewrite bit_lxor. reflexivity.
  - intros r c Hr [Sc Hc]. destruct (enc_round_ok (r := r) HS HK ltac:(lia) Sc Hc) as (d & E & Sd & Hd).
    exists d. split; auto. split; auto. intros i Hi. rewrite Hd by auto.
    replace (r + 1 - 1) with (S (r - 1)) by lia. cbn [cipher]. replace (S (r - 1)) with r by lia. reflexivity.
  - exists y. split; auto. split; auto. intros i Hi. rewrite Hy by auto. replace (1 + lpRounds p - 1) with (lpRounds p) by lia. reflexivity.
Qed.

(* ---------------- decrypt ---------------- *)
Lemma forall2_nth A B (R : A -> B -> Prop) l m i a b : Forall2 R l m -> i < length l -> R (nth i l a) (nth i m b).
Proof.
  intros F. revert i. induction F as [|x y l m Hxy F IH]; intros i Hi; cbn in Hi; [lia|].
  destruct i as [|i]; cbn; auto. apply IH. lia.
Qed.
Lemma forall2_len A B (R : A -> B -> Prop) l m : Forall2 R l m -> length m = length l.
Proof. induction 1; cbn; auto. Qed.
Lemma lxor_cancel2 c a b : N.lxor (N.lxor (N.lxor (N.lxor c a) b) b) a = c.
Proof. rewrite (N.lxor_assoc (N.lxor c a)), N.lxor_nilpotent, N.lxor_0_r, N.lxor_assoc, N.lxor_nilpotent, N.lxor_0_r. reflexivity. Qed.

Lemma round_inverse p l r c : shaped p l -> keyed p l -> inverted p l -> 1 <= r <= lpRounds p -> small (lpBits p) c ->
  (exists d, small (lpBits p) d /\ enc_round p l r c = Ok d /\ dec_round p l r d = Ok c) /\
  (exists d, small (lpBits p) d /\ dec_round p l r c = Ok d /\ enc_round p l r d = Ok c).
Proof.
  intros (Hb & L1 & F1 & L2 & F2) (L3 & F3) (_ & F4 & F5) Hr Sc.
  assert (L4 : length (lmInv l) = lpRounds p) by (apply forall2_len in F4; lia).
  set (M := nth (r - 1) (lmLin l) []) in *. set (V := nth (r - 1) (lmInv l) []) in *.
  assert (SqM : square (lpBits p) M) by (apply nth_in_forall; auto; lia).
  assert (SqV : square (lpBits p) V) by (apply nth_in_forall; auto; lia).
  assert (HI : inverse_of (lpBits p) M V) by (apply forall2_nth; auto; lia).
  set (rc := row (lmConst l) (r - 1)). set (k := row (lmKeys l) r).
  assert (Src : small (lpBits p) rc) by (apply (nth_in_forall (P := small (lpBits p))); auto; lia).
  assert (Sk : small (lpBits p) k) by (apply (nth_in_forall (P := small (lpBits p))); auto; lia).
  assert (EE : forall c, enc_round p l r c = (do c <- substitute sbox p c; do c <- mul_mat (lpBits p) M c; Ok (N.lxor (N.lxor c rc) k))).
  { intros c'. unfold enc_round. destruct (substitute sbox p c'); cbn [bind]; auto.
    rewrite (@getd _ (lmLin l) _ []) by lia. cbn [bind]. fold M. destruct (mul_mat _ M a); cbn [bind]; auto.
    rewrite (@getd _ (lmConst l) _ 0%N) by lia. cbn [bind]. rewrite (@getd _ (lmKeys l) _ 0%N) by lia. reflexivity. }
  assert (ED : forall c, dec_round p l r c = (do c <- mul_mat (lpBits p) V (N.lxor (N.lxor c k) rc); substitute inv_sbox p c)).
  { intros c'. unfold dec_round. rewrite (@getd _ (lmKeys l) _ 0%N) by lia. cbn [bind].
    rewrite (@getd _ (lmConst l) _ 0%N) by lia. cbn [bind]. rewrite (@getd _ (lmInv l) _ []) by lia. reflexivity. }
  split.
  - destruct (substitute_inverse Hb Sc) as [(s & Ss & E1 & E2) _].
    destruct (mul_inverse SqM SqV HI Ss) as [(t & St & E3 & E4) _].
    exists (N.lxor (N.lxor t rc) k). split; [apply small_lxor; auto; apply small_lxor; auto|].
    split; [rewrite EE, E1; cbn [bind]; rewrite E3; reflexivity|].
    rewrite ED, lxor_cancel2, E4. exact E2.
  - assert (Sz : small (lpBits p) (N.lxor (N.lxor c k) rc)) by (apply small_lxor; auto; apply small_lxor; auto).
    destruct (mul_inverse SqM SqV HI Sz) as [_ (t & St & E3 & E4)].
    destruct (substitute_inverse Hb St) as [_ (s & Ss & E1 & E2)].
    exists s. split; auto. split; [rewrite ED, E3; exact E1|].
    rewrite EE, E2. cbn [bind]. rewrite E4. cbn [bind]. rewrite lxor_cancel2. reflexivity.
Qed.

Lemma dec_forN p l x : lmInvertable l = true ->
  lm_decrypt p l x = (do c <- forN 0 (lpRounds p) (fun i => dec_round p l (lpRounds p - i)) x; do k0 <- get (lmKeys l) 0; Ok (N.lxor c k0)).
Proof. intros H. unfold lm_decrypt. rewrite H. reflexivity. Qed.

Lemma lxor_cancel1 c a : N.lxor (N.lxor c a) a = c.
Proof. rewrite N.lxor_assoc, N.lxor_nilpotent, N.lxor_0_r. reflexivity. Qed.

(* running k rounds forwards and then backwards *)
Lemma run_back p l c : shaped p l -> keyed p l -> inverted p l -> small (lpBits p) c -> forall k, k <= lpRounds p ->
  exists d, small (lpBits p) d /\ forN 1 k (enc_round p l) c = Ok d /\
    forN (lpRounds p - k) k (fun i => dec_round p l (lpRounds p - i)) d = Ok c.
Proof.
  intros HS HK HI Sc. induction k as [|k IH]; intros Hk.
  - exists c. auto.
  - destruct IH as (d & Sd & E1 & E2); [lia|].
    destruct (round_inverse (r := S k) HS HK HI ltac:(lia) Sd) as [(d' & Sd' & E3 & E4) _].
    exists d'. split; auto. split.
    + replace (S k) with (k + 1) by lia. rewrite forN_app, E1. cbn [bind forN]. replace (1 + k) with (S k) by lia. rewrite E3. reflexivity.
    + cbn [forN]. replace (lpRounds p - (lpRounds p - S k)) with (S k) by lia. rewrite E4. cbn [bind].
      replace (lpRounds p - S k + 1) with (lpRounds p - k) by lia. exact E2.
Qed.
Lemma run_forth p l c : shaped p l -> keyed p l -> inverted p l -> small (lpBits p) c -> forall k, k <= lpRounds p ->
  exists d, small (lpBits p) d /\ forN 0 k (fun i => dec_round p l (lpRounds p - i)) c = Ok d /\
    forN (lpRounds p - k + 1) k (enc_round p l) d = Ok c.
Proof.
  intros HS HK HI Sc. induction k as [|k IH]; intros Hk.
  - exists c. auto.
  - destruct IH as (d & Sd & E1 & E2); [lia|].
    destruct (round_inverse (r := lpRounds p - k) HS HK HI ltac:(lia) Sd) as [_ (d' & Sd' & E3 & E4)].
    exists d'. split; auto. split.
    + replace (S k) with (k + 1) by lia. rewrite forN_app, E1. cbn [bind forN Nat.add]. rewrite E3. reflexivity.
    + cbn [forN]. replace (lpRounds p - S k + 1) with (lpRounds p - k) by lia. rewrite E4. cbn [bind]. exact E2.
Qed.

Theorem decrypt_encrypt p l x : shaped p l -> keyed p l -> inverted p l -> small (lpBits p) x ->
  exists y, lm_encrypt p l x = Ok y /\ lm_decrypt p l y = Ok x.
Proof.
  intros HS HK HI Sx. pose proof HK as (L3 & F3). pose proof HI as (Hi & _ & _).
  assert (Sk : small (lpBits p) (row (lmKeys l) 0)) by (apply (nth_in_forall (P := small (lpBits p))); auto; lia).
  destruct (run_back HS HK HI (small_lxor Sx Sk) (le_n (lpRounds p))) as (d & Sd & E1 & E2).
  rewrite Nat.sub_diag in E2. exists d. rewrite enc_forN, dec_forN by auto.
  rewrite !(@getd _ (lmKeys l) 0 0%N) by lia. cbn [bind]. rewrite E1, E2. cbn [bind]. rewrite lxor_cancel1. auto.
Qed.
Theorem encrypt_decrypt p l x : shaped p l -> keyed p l -> inverted p l -> small (lpBits p) x ->
  exists y, small (lpBits p) y /\ lm_decrypt p l x = Ok y /\ lm_encrypt p l y = Ok x.
Proof.
  intros HS HK HI Sx. pose proof HK as (L3 & F3). pose proof HI as (Hi & _ & _).
  assert (Sk : small (lpBits p) (row (lmKeys l) 0)) by (apply (nth_in_forall (P := small (lpBits p))); auto; lia).
  destruct (run_forth HS HK HI Sx (le_n (lpRounds p))) as (d & Sd & E1 & E2).
  rewrite Nat.sub_diag in E2. cbn [Nat.add] in E2. exists (N.lxor d (row (lmKeys l) 0)).
  split; [apply small_lxor; auto|]. rewrite dec_forN, enc_forN by auto.
  rewrite E1. cbn [bind]. rewrite !(@getd _ (lmKeys l) 0 0%N) by lia. cbn [bind]. rewrite lxor_cancel1. auto.
Qed.

(* ---------------- the instantiation ---------------- *)
Lemma rand_bits_small rng n pos : small n (rand_bits rng n pos).
Proof.
  unfold rand_bits. assert (G : forall l t, (forall i, In i l -> i < n) -> small n t ->
    small n (fold_left (fun t i => put_bit t i (rng (pos + i))) l t)).
  { induction l as [|i l IH]; intros t Hl Ht; cbn [fold_left]; auto. apply IH.
    - intros j Hj. apply Hl. right. auto.
    - apply small_put; auto. apply Hl. left. auto. }
  apply G; [|apply small_0]. intros i Hi. apply in_seq in Hi. lia.
Qed.
Definition sized (rows n : nat) (m : list N) : Prop := length m = rows /\ Forall (small n) m.
Lemma rand_mat_sized rng rows n pos : sized rows n (rand_mat rng rows n pos).
Proof.
  unfold rand_mat. split; [rewrite map_length; apply seq_length|]. apply Forall_forall. intros x Hx.
  apply in_map_iff in Hx. destruct Hx as (i & <- & _). apply rand_bits_small.
Qed.
Lemma pick_mat_ok good rng rows n : forall fuel pos m pos', pick_mat good fuel rng rows n pos = Ok (m, pos') ->
  sized rows n m /\ exists r, rank_of n m = Ok r /\ good r = true.
Proof.
  induction fuel as [|fuel IH]; intros pos m pos' H; cbn [pick_mat] in H; [discriminate|].
  destruct (rank_of n (rand_mat rng rows n pos)) as [r| | |] eqn:E; cbn [bind] in H; try discriminate.
  destruct (good r) eqn:G.
  - inversion H; subst. split; [apply rand_mat_sized|]. exists r. auto.
  - eapply IH; eauto.
Qed.
Lemma load_sized rows n f m : load_matrix rows n f = Ok m -> sized rows n m.
Proof.
  intros H. unfold load_matrix in H. apply bind_ok in H. destruct H as (s & H & E). inversion E; subst m; clear E.
  assert (G : forall S (P : S -> Prop) (g : nat -> S -> outcome S) k lo s s', P s ->
    (forall i s s', lo <= i < lo + k -> P s -> g i s = Ok s' -> P s') -> forN lo k g s = Ok s' -> P s').
  { clear. intros S P g. induction k as [|k IH]; intros lo s s' Hs Hg E; cbn [forN] in E; [congruence|].
    apply bind_ok in E. destruct E as (s1 & E1 & E2). apply (IH (lo + 1) s1 s'); auto.
    - apply (Hg lo s s1); auto. lia.
    - intros i a b Hi. apply Hg. lia. }
  revert H. apply (G _ (fun s : (option N * list N) * list N => sized rows n (snd s))).
  - cbn [snd]. split; [apply repeat_length|]. apply Forall_forall. intros x Hx. apply repeat_spec in Hx. subst. apply small_0.
  - intros i a b Hi Ha E. apply bind_ok in E. destruct E as (c & E & E').
    assert (Sc : sized rows n (snd c)).
    { revert E. apply (G _ (fun s : (option N * list N) * list N => sized rows n (snd s))); auto.
      intros j u v Hj [Lu Fu] Ev. cbn zeta in Ev.
      destruct (fst (read_char (fst u))) as [ch|]; [|discriminate].
      assert (Hp : forall b, (do x <- get (snd u) i; do m <- set (snd u) i (put_bit x j b); Ok (read_char (fst u), m)) = Ok v -> sized rows n (snd v)).
      { intros b0 Hv. rewrite getr in Hv by lia. cbn [bind] in Hv. rewrite set_lt in Hv by lia. cbn [bind] in Hv.
        inversion Hv; subst v. cbn [snd]. split; [rewrite upd_length; auto|]. apply Forall_forall. intros y Hy.
        apply (In_nth _ _ 0%N) in Hy. destruct Hy as (k & Hk & <-). rewrite upd_length in Hk. rewrite rowu by lia.
        destruct (k =? i).
        - apply small_put; [|lia]. apply (nth_in_forall (P := small n)); auto. lia.
        - apply (nth_in_forall (P := small n)); auto. }
      destruct (ch =? 48)%N; [apply (Hp false); auto|]. destruct (ch =? 49)%N; [apply (Hp true); auto|discriminate]. }
    cbn zeta in E'. destruct (fst (read_char (fst c))) as [ch|]; [|discriminate].
    destruct (ch =? 10)%N; [|discriminate]. inversion E'; subst b. exact Sc.
Qed.
Lemma make_mat_ok good inv fuel rng f rows n pos m pos' : make_mat good inv fuel rng f rows n pos = Ok (m, pos') ->
  sized rows n m /\ (inv = true -> exists r, rank_of n m = Ok r /\ good r = true).
Proof.
  unfold make_mat. destruct inv.
  - destruct f as [f|].
    + intros H. apply bind_ok in H. destruct H as (m' & E & H). apply bind_ok in H. destruct H as (r & E2 & H).
      apply bind_ok in H. destruct H as ([] & E3 & H). inversion H; subst. split; [eapply load_sized; eauto|].
      intros _. exists r. split; auto. unfold throw_if in E3. destruct (good r); [auto|discriminate].
    + intros H. apply pick_mat_ok in H. destruct H. auto.
  - intros H. inversion H; subst. split; [apply rand_mat_sized|discriminate].
Qed.

Lemma forN_keep S (P : nat -> S -> Prop) (g : nat -> S -> outcome S) : forall k lo s s', P lo s ->
  (forall i s s', lo <= i < lo + k -> P i s -> g i s = Ok s' -> P (i + 1) s') -> forN lo k g s = Ok s' -> P (lo + k) s'.
Proof.
  induction k as [|k IH]; intros lo s s' Hs Hg E; cbn [forN] in E.
  - rewrite Nat.add_0_r. congruence.
  - apply bind_ok in E. destruct E as (s1 & E1 & E2). replace (lo + Datatypes.S k) with (lo + 1 + k) by lia.
    apply (IH (lo + 1) s1 s'); auto.
    + apply (Hg lo s s1); auto. lia.
    + intros i a b Hi. apply Hg. lia.
Qed.

Theorem instantiate_ok p inv fuel rng lf kf l : 0 < lpBits p -> 3 * lpBoxes p <= lpBits p ->
  instantiate p inv fuel rng lf kf = Ok l ->
  shaped p l /\ lmInvertable l = inv /\ (inv = true -> inverted p l) /\
  length (lmKeyMat l) = lpRounds p + 1 /\ Forall (sized (lpBits p) (lpKey p)) (lmKeyMat l).
Proof.
  intros H0 Hb H. unfold instantiate in H.
  apply bind_ok in H. destruct H as ([[ls is] pos] & E1 & H).
  apply bind_ok in H. destruct H as ([ks pos2] & E2 & H). inversion H; subst l; clear H. cbn [fst] in *.
  assert (G1 : length ls = lpRounds p /\ Forall (square (lpBits p)) ls /\
    (inv = true -> Forall2 (inverse_of (lpBits p)) ls is /\ Forall (square (lpBits p)) is)).
  { revert E1. apply (@forN_keep _ (fun r (s : list (list N) * list (list N) * nat) => let '(ls, is, _) := s in
      length ls = r /\ Forall (square (lpBits p)) ls /\
      (inv = true -> Forall2 (inverse_of (lpBits p)) ls is /\ Forall (square (lpBits p)) is))).
    - split; auto.
    - intros r [[a b] c] s' Hr (A & B & C) E. apply bind_ok in E. destruct E as ([m pm] & Em & E). cbn [fst snd] in E.
      apply make_mat_ok in Em. destruct Em as [[Lm Fm] Rm].
      assert (Sq : square (lpBits p) m) by (split; auto).
      apply bind_ok in E. destruct E as (is' & Ei & E). inversion E; subst s'; clear E.
      split; [rewrite app_length; cbn; lia|]. split; [apply Forall_app; auto|]. intros ->.
      destruct (Rm eq_refl) as (rk & Er & Gr). apply Nat.eqb_eq in Gr. subst rk.
      destruct (invert_inverse H0 Sq) as (v & Ev & Sv & Iv); [apply rank_regular; auto|].
      rewrite Ev in Ei. cbn [bind] in Ei. inversion Ei; subst is'. destruct (C eq_refl) as [C1 C2].
      split; [apply Forall2_app; auto|apply Forall_app; auto]. }
  assert (G2 : length ks = lpRounds p + 1 /\ Forall (sized (lpBits p) (lpKey p)) ks).
  { refine (@forN_keep _ (fun r (s : list (list N) * nat) => length (fst s) = r /\ Forall (sized (lpBits p) (lpKey p)) (fst s)) _ (lpRounds p + 1) 0 _ (ks, pos2) _ _ E2).
    - split; auto. cbn. auto.
    - intros r [a b] s' Hr [A B] E. cbn [fst snd] in *. apply bind_ok in E. destruct E as ([m pm] & Em & E). inversion E; subst s'.
      apply make_mat_ok in Em. destruct Em as [Sm _]. cbn [fst]. split; [rewrite app_length; cbn; lia|apply Forall_app; auto]. }
  destruct G1 as (A & B & C), G2 as (D & F).
  split; [|split; [reflexivity|split; [|split; auto]]].
  - unfold shaped. cbn [lmLin lmConst]. split; auto. split; auto. split; auto.
    split; [rewrite map_length; apply seq_length|]. apply Forall_forall. intros x Hx. apply in_map_iff in Hx.
    destruct Hx as (i & <- & _). apply rand_bits_small.
  - intros Hi. destruct (C Hi) as [C1 C2]. split; [exact Hi|]. auto.
Qed.

Lemma mapO_ok A B (f : A -> outcome B) (P : A -> B -> Prop) : forall l, (forall a, In a l -> exists b, f a = Ok b /\ P a b) ->
  exists r, mapO f l = Ok r /\ Forall2 P l r.
Proof.
  induction l as [|a l IH]; intros H; [exists []; auto|].
  destruct (H a (or_introl eq_refl)) as (b & Eb & Pb). destruct IH as (r & Er & Pr); [intros; apply H; right; auto|].
  exists (b :: r). cbn [mapO]. rewrite Eb. cbn [bind]. rewrite Er. cbn. auto.
Qed.

Theorem set_key_ok p l key : length (lmKeyMat l) = lpRounds p + 1 -> Forall (sized (lpBits p) (lpKey p)) (lmKeyMat l) ->
  small (lpKey p) key ->
  exists l', set_key p l key = Ok l' /\ keyed p l' /\ scheduled p l' key /\ lmLin l' = lmLin l /\ lmInv l' = lmInv l /\
    lmConst l' = lmConst l /\ lmInvertable l' = lmInvertable l /\ lmKeyMat l' = lmKeyMat l.
Proof.
  intros L F Sk. unfold set_key, key_schedule.
  destruct (@mapO_ok _ _ (fun r => do m <- get (lmKeyMat l) r; mul_mat (lpBits p) m key)
    (fun r k => small (lpBits p) k /\ forall i, i < lpBits p -> bit_at k i = dot (lpKey p) (row (nth r (lmKeyMat l) []) i) key)
    (seq 0 (lpRounds p + 1))) as (ks & E & Fk).
  - intros r Hr. apply in_seq in Hr. rewrite (@getd _ (lmKeyMat l) r []) by lia. cbn [bind].
    assert (Sz : sized (lpBits p) (lpKey p) (nth r (lmKeyMat l) [])) by (apply nth_in_forall; auto; lia).
    destruct (mul_mat_ok (proj1 Sz) Sk) as (y & Ey & Sy & Hy). exists y. auto.
  - rewrite E. cbn [bind]. pose proof (forall2_len Fk) as Lk. rewrite seq_length in Lk.
    eexists. split; [reflexivity|]. split; [|split; [|cbn; auto]].
    + split; [exact Lk|]. cbn [lmKeys]. apply Forall_forall. intros k Hk. apply (In_nth _ _ 0%N) in Hk.
      destruct Hk as (r & Hr & <-). pose proof (forall2_nth (i := r) 0 0%N Fk) as Q. rewrite seq_length in Q.
      exact (proj1 (Q ltac:(lia))).
    + intros r i Hr Hi. cbn [lmKeys lmKeyMat]. pose proof (forall2_nth (i := r) 0 0%N Fk) as Q. rewrite seq_length in Q.
      specialize (Q ltac:(lia)). rewrite seq_nth in Q by lia. exact (proj2 Q i Hi).
Qed.

Theorem new_ok p inv fuel rng lf kf key l : 0 < lpBits p -> 3 * lpBoxes p <= lpBits p -> small (lpKey p) key ->
  lm_new p inv fuel rng lf kf key = Ok l ->
  shaped p l /\ keyed p l /\ scheduled p l key /\ lmInvertable l = inv /\ (inv = true -> inverted p l) /\
  length (lmKeyMat l) = lpRounds p + 1 /\ Forall (sized (lpBits p) (lpKey p)) (lmKeyMat l).
Proof.
  intros H0 Hb Sk H. unfold lm_new in H. apply bind_ok in H. destruct H as (l0 & E & H).
  destruct (instantiate_ok H0 Hb E) as (A & B & C & D & F).
  destruct (@set_key_ok p l0 key D F Sk) as (l' & E' & K1 & K2 & K3 & K4 & K5 & K6 & K7).
  rewrite E' in H. inversion H; subst l'; clear H. unfold shaped, inverted in *.
  rewrite K3, K4, K5, K6, K7. exact (conj A (conj K1 (conj K2 (conj B (conj C (conj D F)))))).
Qed.
(* the key can be changed later *)
Theorem rekey_ok p inv fuel rng lf kf key key' l : 0 < lpBits p -> 3 * lpBoxes p <= lpBits p ->
  small (lpKey p) key -> small (lpKey p) key' -> lm_new p inv fuel rng lf kf key = Ok l ->
  set_key p l key' = lm_new p inv fuel rng lf kf key' /\ exists l', set_key p l key' = Ok l'.
Proof.
  intros H0 Hb Sk Sk' H. destruct (new_ok H0 Hb Sk H) as (_ & _ & _ & _ & _ & D & F).
  split; [|destruct (@set_key_ok p l key' D F Sk') as (l' & E' & _); eauto].
  unfold lm_new in *. apply bind_ok in H. destruct H as (l0 & E & H). rewrite E. cbn [bind].
  unfold set_key in *. apply bind_ok in H. destruct H as (ks & Ek & H). inversion H; subst l. reflexivity.
Qed.
