From Verif Require PermProofs.
From Verif Require Import Base Words Mod3Proofs GF4Model GF4Spec GF4Proofs CompressModel CompressSpec CompressProofs SilentVoleModel SilentVoleSpec.

Lemma nth_upd A (l : list A) i x j d : i < length l -> nth j (upd l i x) d = if i =? j then x else nth j l d.
Proof.
  revert i j. induction l as [|a l IH]; intros [|i] [|j] H; cbn [length] in H; try lia; try reflexivity.
  cbn [upd nth]. rewrite IH by lia. reflexivity.
Qed.

Lemma get_nth A (l : list A) i d : i < length l -> get l i = Ok (nth i l d).
Proof. intros H. apply get_Ok. apply nth_error_nth_lt; exact H. Qed.

Lemma gmul_distr x y z : gmul (gadd x y) z = gadd (gmul x z) (gmul y z).
Proof. destruct x as [[] []], y as [[] []], z as [[] []]; reflexivity. Qed.

(* ---------------- the encoder is linear ---------------- *)

Lemma lin_step_rel delta a b c i n : length a = n -> f4_vole delta a b -> length c = n ->
  (forall x, x < n -> gelem (nth x a 0%N) 0 = nth x c g0) -> lin_in n [i] ->
  exists a' b', lin_step a i = Ok a' /\ lin_step b i = Ok b' /\ length a' = n /\ f4_vole delta a' b' /\
   length (glin_step c i) = n /\ forall x, x < n -> gelem (nth x a' 0%N) 0 = nth x (glin_step c i) g0.
Proof.
  intros La [Lb R] Lc HC HI. specialize (HI i (or_introl eq_refl)).
  destruct i as [d x y|d x|d x|d]; cbn [lin_step glin_step].
  - destruct HI as (Hd & Hx & Hy). rewrite !(@get_nth _ _ _ 0%N) by lia. cbn [bind].
    rewrite !set_lt by lia. do 2 eexists. split; [reflexivity|]. split; [reflexivity|].
    split; [rewrite upd_length; exact La|]. split; [split|].
    + rewrite !upd_length. exact Lb.
    + intros p t Hp Ht. rewrite upd_length in Hp. rewrite !nth_upd by lia. destruct (Nat.eqb_spec d p); [|apply R; lia].
      rewrite !f4_plus_spec. rewrite (R x t), (R y t) by lia. rewrite gmul_distr.
      destruct (gelem (nth x b 0%N) t) as [[] []], (gelem (nth y b 0%N) t) as [[] []],
        (gmul (gelem (nth x a 0%N) 0) (gelem delta t)) as [[] []], (gmul (gelem (nth y a 0%N) 0) (gelem delta t)) as [[] []]; reflexivity.
    + split; [rewrite upd_length; exact Lc|]. intros z Hz. rewrite !nth_upd by lia. destruct (Nat.eqb_spec d z); [|apply HC; lia].
      rewrite f4_plus_spec, !HC by lia. reflexivity.
  - destruct HI as (Hd & Hx). rewrite !(@get_nth _ _ _ 0%N) by lia. cbn [bind]. unfold f4_mulConst_block.
    destruct (@f4_mul_block_total (nth x a 0%N) 3 eq_refl) as (ra & Ea & Ha).
    destruct (@f4_mul_block_total (nth x b 0%N) 3 eq_refl) as (rb & Eb & Hb).
    rewrite Ea, Eb. cbn [bind]. rewrite !set_lt by lia. do 2 eexists. split; [reflexivity|]. split; [reflexivity|].
    change (gelem 3 0) with g3 in *.
    split; [rewrite upd_length; exact La|]. split; [split|].
    + rewrite !upd_length. exact Lb.
    + intros p t Hp Ht. rewrite upd_length in Hp. rewrite !nth_upd by lia. destruct (Nat.eqb_spec d p); [|apply R; lia].
      rewrite !Ha, !Hb by lia. rewrite R by lia.
      destruct (gelem (nth x b 0%N) t) as [[] []], (gelem (nth x a 0%N) 0) as [[] []], (gelem delta t) as [[] []]; reflexivity.
    + split; [rewrite upd_length; exact Lc|]. intros z Hz. rewrite !nth_upd by lia. destruct (Nat.eqb_spec d z); [|apply HC; lia].
      rewrite Ha, HC by lia. apply gmul_comm.
  - destruct HI as (Hd & Hx). rewrite !(@get_nth _ _ _ 0%N) by lia. cbn [bind].
    rewrite !set_lt by lia. do 2 eexists. split; [reflexivity|]. split; [reflexivity|].
    split; [rewrite upd_length; exact La|]. split; [split|].
    + rewrite !upd_length. exact Lb.
    + intros p t Hp Ht. rewrite upd_length in Hp. rewrite !nth_upd by lia. destruct (Nat.eqb_spec d p); apply R; lia.
    + split; [rewrite upd_length; exact Lc|]. intros z Hz. rewrite !nth_upd by lia. destruct (Nat.eqb_spec d z); apply HC; lia.
  - rewrite !set_lt by lia. do 2 eexists. split; [reflexivity|]. split; [reflexivity|].
    split; [rewrite upd_length; exact La|]. split; [split|].
    + rewrite !upd_length. exact Lb.
    + intros p t Hp Ht. rewrite upd_length in Hp. rewrite !nth_upd by lia. destruct (Nat.eqb_spec d p); [|apply R; lia].
      unfold gelem. rewrite !N.bits_0. reflexivity.
    + split; [rewrite upd_length; exact Lc|]. intros z Hz. rewrite !nth_upd by lia. destruct (Nat.eqb_spec d z); [|apply HC; lia].
      reflexivity.
Qed.

Lemma lin_run_rel delta n : forall p a b c, length a = n -> f4_vole delta a b -> length c = n ->
  (forall x, x < n -> gelem (nth x a 0%N) 0 = nth x c g0) -> lin_in n p ->
  exists a' b', lin_run p a = Ok a' /\ lin_run p b = Ok b' /\ length a' = n /\ f4_vole delta a' b' /\
   length (glin_run p c) = n /\ forall x, x < n -> gelem (nth x a' 0%N) 0 = nth x (glin_run p c) g0.
Proof.
  induction p as [|i p IH]; intros a b c La R Lc HC HI.
  - exists a, b. cbn [lin_run]. unfold glin_run. cbn [fold_left]. auto 10.
  - destruct (@lin_step_rel delta a b c i n La R Lc HC) as (a1 & b1 & Ea & Eb & La1 & R1 & Lc1 & HC1).
    { intros j [<-|[]]. apply HI. left; reflexivity. }
    destruct (IH a1 b1 _ La1 R1 Lc1 HC1) as (a2 & b2 & Ea2 & Eb2 & H2).
    { intros j Hj. apply HI. right; exact Hj. }
    exists a2, b2. cbn [lin_run]. rewrite Ea, Eb. cbn [bind]. unfold glin_run in *. cbn [fold_left]. auto.
Qed.

(* ---------------- the noise vector ---------------- *)

Lemma at_point_nth A (d : A) : forall pts vs i, NoDup pts -> length vs = length pts -> i < length pts ->
  at_point d pts vs (nth i pts 0) = nth i vs d.
Proof.
  induction pts as [|p pts IH]; intros [|v vs] i ND HL Hi; cbn [length] in *; try lia.
  inversion ND as [|? ? Hn ND']; subst. destruct i as [|i]; cbn [nth at_point].
  - rewrite Nat.eqb_refl. reflexivity.
  - destruct (Nat.eqb_spec p (nth i pts 0)) as [e|]; [|apply IH; auto; lia].
    elim Hn. rewrite e. apply nth_In. lia.
Qed.

Lemma at_point_out A (d : A) : forall pts vs x, ~ In x pts -> at_point d pts vs x = d.
Proof.
  induction pts as [|p pts IH]; intros [|v vs] x H; cbn [at_point]; auto.
  destruct (Nat.eqb_spec p x); [elim H; left; auto|]. apply IH. intros Hx. apply H. right; exact Hx.
Qed.

Lemma in_nth_nat (x : nat) : forall l, In x l -> exists i, i < length l /\ nth i l 0 = x.
Proof. intros l H. destruct (In_nth l x 0 H) as (i & Hi & E). eauto. Qed.

(* updating the cells at the points, one after the other *)
Lemma points_loop (g : N -> N -> N) pts vs n (A : list N) :
  NoDup pts -> length pts = n -> length vs = n -> (forall p, In p pts -> p < length A) ->
  exists A', forN 0 n (fun i A => do p <- get pts i; do x <- get A p; do y <- get vs i; set A p (g x y)) A = Ok A' /\
   length A' = length A /\
   (forall i, i < n -> nth (nth i pts 0) A' 0%N = g (nth (nth i pts 0) A 0%N) (nth i vs 0%N)) /\
   (forall x, ~ In x pts -> nth x A' 0%N = nth x A 0%N).
Proof.
  intros ND HP HV HB.
  assert (INJ : forall i j, i < n -> j < n -> nth i pts 0 = nth j pts 0 -> i = j).
  { intros i j Hi Hj E. apply (proj1 (NoDup_nth pts 0) ND); lia. }
  match goal with |- context [forN 0 n ?f A] =>
    destruct (@forN_inv (list N) (fun k B => length B = length A /\
      (forall i, i < k -> nth (nth i pts 0) B 0%N = g (nth (nth i pts 0) A 0%N) (nth i vs 0%N)) /\
      (forall i, k <= i < n -> nth (nth i pts 0) B 0%N = nth (nth i pts 0) A 0%N) /\
      (forall x, ~ In x pts -> nth x B 0%N = nth x A 0%N)) f n 0 A) as (A' & E & L & H1 & _ & H3)
  end.
  - repeat split; auto. intros; lia.
  - intros k B Hk (LB & H1 & H2 & H3).
    assert (Hpk : nth k pts 0 < length B). { rewrite LB. apply HB, nth_In. lia. }
    rewrite (@get_nth _ pts k 0) by lia. cbn [bind].
    rewrite (@get_nth _ B _ 0%N) by exact Hpk. cbn [bind]. rewrite (@get_nth _ vs k 0%N) by lia. cbn [bind].
    rewrite set_lt by exact Hpk. eexists. split; [reflexivity|]. split; [rewrite upd_length; exact LB|].
    split; [|split].
    + intros i Hi. rewrite nth_upd by exact Hpk. destruct (Nat.eqb_spec (nth k pts 0) (nth i pts 0)) as [e|ne].
      * apply INJ in e; [|lia|lia]. subst i. rewrite H2 by lia. reflexivity.
      * apply H1. assert (i <> k) by (intros ->; congruence). lia.
    + intros i Hi. rewrite nth_upd by exact Hpk. destruct (Nat.eqb_spec (nth k pts 0) (nth i pts 0)) as [e|ne].
      * apply INJ in e; lia.
      * apply H2; lia.
    + intros x Hx. rewrite nth_upd by exact Hpk. destruct (Nat.eqb_spec (nth k pts 0) x) as [e|ne]; [|apply H3; exact Hx].
      elim Hx. rewrite <- e. apply nth_In. lia.
  - exists A'. split; [exact E|]. split; [exact L|]. split; [exact H1|exact H3].
Qed.

Lemma gadd_0_r x : gadd x g0 = x. Proof. destruct x as [[] []]; reflexivity. Qed.
Lemma gadd_0_l x : gadd g0 x = x. Proof. destruct x as [[] []]; reflexivity. Qed.
Lemma gmul_0_l x : gmul g0 x = g0. Proof. destruct x as [[] []]; reflexivity. Qed.
Lemma gadd_nilp x : gadd x x = g0. Proof. destruct x as [[] []]; reflexivity. Qed.
Lemma gadd_assoc x y z : gadd x (gadd y z) = gadd (gadd x y) z.
Proof. destruct x as [[] []], y as [[] []], z as [[] []]; reflexivity. Qed.

Lemma gelem_lxor x y t : gelem (N.lxor x y) t = gadd (gelem x t) (gelem y t).
Proof. apply (f4_plus_spec x y t). Qed.

Lemma land3_gelem x : gelem x 0 = g0 -> (N.land x 3 =? 0)%N = true.
Proof.
  intros H. apply N.eqb_eq, N.bits_inj. intros i. rewrite N.land_spec, N.bits_0.
  injection H as H0 H1. change 3%N with (N.ones 2).
  destruct (N.lt_ge_cases i 2) as [Hi|Hi]; [|rewrite N.ones_spec_high by lia; apply andb_false_r].
  assert (E : i = 0%N \/ i = 1%N) by lia. destruct E as [-> | ->]; cbn in H0, H1; rewrite ?H0, ?H1; reflexivity.
Qed.

(* or-ing a value below four into a block whose element 0 is zero *)
Lemma or_elem x c t : gelem x 0 = g0 -> (c < 4)%N -> (t < 64)%N ->
  gelem (N.lor x c) t = if (t =? 0)%N then gelem c 0 else gelem x t.
Proof.
  intros H Hc Ht. unfold gelem. rewrite !N.lor_spec. destruct (N.eqb_spec t 0) as [->|ne].
  - injection H as H0 H1. cbn [N.mul N.add] in *. rewrite H0, H1. reflexivity.
  - change 4%N with (2 ^ 2)%N in Hc. rewrite (@pow2_bits_high c 2 (2 * t) Hc), (@pow2_bits_high c 2 (2 * t + 1) Hc) by lia. rewrite !orb_false_r. reflexivity.
Qed.

Lemma nth_map0 (f : N -> N) l i : f 0%N = 0%N -> nth i (map f l) 0%N = f (nth i l 0%N).
Proof. intros E. rewrite <- E at 1. apply map_nth. Qed.

Lemma noise_rel delta noise tmp pts parts (c a b : list N) outS outR :
  NoDup pts -> length pts = parts -> length c = parts -> (forall p, In p pts -> p < noise) ->
  (forall x, In x c -> (x < 4)%N) -> base_vole delta c a b ->
  pprf_rel noise pts (map (fun x => clear3 (f4_plus 0 x)) b) outS outR ->
  exists A1 A2, vr_add pts (map clear3 a) parts outR = Ok A1 /\
    forallb (fun x => N.land x 3 =? 0)%N A1 = true /\
    vr_or pts c parts A1 = Ok A2 /\ length A2 = noise /\
    f4_vole delta (A2 ++ repeat 0%N tmp) (outS ++ repeat 0%N tmp) /\
    length (noise_vec noise tmp pts c) = noise + tmp /\
    forall x, x < noise + tmp -> gelem (nth x (A2 ++ repeat 0%N tmp) 0%N) 0 = nth x (noise_vec noise tmp pts c) g0.
Proof.
  intros ND HP HC HB C4 (La & Lb & HV) (LS & LR & Z & HR).
  destruct (@points_loop f4_plus pts (map clear3 a) parts outR ND HP) as (A1 & E1 & L1 & P1 & Q1).
  { rewrite map_length. lia. } { intros p Hp. rewrite LR. auto. }
  destruct (@points_loop N.lor pts c parts A1 ND HP HC) as (A2 & E2 & L2 & P2 & Q2).
  { intros p Hp. rewrite L1, LR. auto. }
  assert (ZS : forall x, x < noise -> gelem (nth x outS 0%N) 0 = g0).
  { intros x Hx. apply Z, nth_In. lia. }
  (* A1 at the points and elsewhere *)
  assert (V1 : forall x t, x < noise -> (t < 64)%N ->
     gelem (nth x A1 0%N) t = if (t =? 0)%N then g0 else
       gadd (gelem (nth x outS 0%N) t) (gmul (gelem (at_point 0%N pts c x) 0) (gelem delta t))).
  { intros x t Hx Ht. destruct (in_dec Nat.eq_dec x pts) as [Hin|Hout].
    - destruct (in_nth_nat Hin) as (i & Hi & Ex). rewrite <- Ex. rewrite P1 by lia.
      rewrite HR by (rewrite Ex; exact Hx). rewrite !at_point_nth by (auto; rewrite ?map_length; lia).
      rewrite !nth_map0 by reflexivity. rewrite f4_plus_spec, gelem_lxor.
      unfold clear3. rewrite !(@gelem_mask3 (fun x => x)) by exact Ht. destruct (N.eqb_spec t 0) as [->|ne].
      + rewrite Ex, ZS by exact Hx. reflexivity.
      + unfold f4_plus. rewrite N.lxor_0_l. rewrite HV by (lia). rewrite !gadd_assoc.
        rewrite <- (gadd_assoc _ (gelem (nth i b 0%N) t) (gelem (nth i b 0%N) t)), gadd_nilp, gadd_0_r. reflexivity.
    - rewrite Q1 by exact Hout. rewrite HR by exact Hx. rewrite !at_point_out by exact Hout.
      rewrite N.lxor_0_r. change (gelem 0 0) with g0. rewrite gmul_0_l, gadd_0_r.
      destruct (N.eqb_spec t 0) as [->|]; [apply ZS; exact Hx|reflexivity]. }
  assert (V2 : forall x t, x < noise -> (t < 64)%N ->
     gelem (nth x A2 0%N) t = if (t =? 0)%N then gelem (at_point 0%N pts c x) 0 else gelem (nth x A1 0%N) t).
  { intros x t Hx Ht. destruct (in_dec Nat.eq_dec x pts) as [Hin|Hout].
    - destruct (in_nth_nat Hin) as (i & Hi & Ex). rewrite <- Ex. rewrite P2 by lia.
      rewrite !at_point_nth by (auto; lia). apply or_elem; [|apply C4, nth_In; lia|exact Ht].
      rewrite Ex, V1 by (auto; lia). reflexivity.
    - rewrite Q2 by exact Hout. rewrite at_point_out by exact Hout.
      destruct (N.eqb_spec t 0) as [->|]; [|reflexivity]. rewrite V1 by (auto; lia). reflexivity. }
  exists A1, A2. split; [exact E1|]. split.
  { apply forallb_forall. intros x Hx. destruct (In_nth _ _ 0%N Hx) as (i & Hi & <-). apply land3_gelem.
    rewrite V1 by lia. reflexivity. }
  split; [exact E2|]. split; [lia|]. split; [split|split].
  - rewrite !app_length, !repeat_length. lia.
  - intros p t Hp Ht. rewrite app_length, repeat_length in Hp.
    destruct (Nat.lt_ge_cases p noise) as [Hl|Hg].
    + rewrite !app_nth1 by lia. rewrite !V2 by lia. destruct (N.eqb_spec t 0); [lia|]. rewrite N.eqb_refl.
      rewrite V1 by lia. destruct (N.eqb_spec t 0); [lia|]. reflexivity.
    + rewrite !app_nth2 by lia. rewrite !nth_repeat. unfold gelem. rewrite !N.bits_0. reflexivity.
  - unfold noise_vec. rewrite app_length, map_length, seq_length, repeat_length. reflexivity.
  - intros x Hx. unfold noise_vec. destruct (Nat.lt_ge_cases x noise) as [Hl|Hg].
    + rewrite !app_nth1 by (rewrite ?map_length, ?seq_length; lia). rewrite V2 by lia. rewrite N.eqb_refl.
      rewrite (nth_indep _ _ (gelem (at_point 0%N pts c 0) 0)) by (rewrite map_length, seq_length; lia).
      rewrite (map_nth (fun x => gelem (at_point 0%N pts c x) 0)). rewrite seq_nth by lia. reflexivity.
    + rewrite !app_nth2 by (rewrite ?map_length, ?seq_length; lia). rewrite !nth_repeat. reflexivity.
Qed.

(* ---------------- sampling ---------------- *)

Lemma fromBlock_mod b : f4_fromBlock_G b = (b mod 4)%N.
Proof.
  unfold f4_fromBlock_G. change 3%N with (N.ones 2). change 255%N with (N.ones 8).
  rewrite <- N.land_assoc. replace (N.land (N.ones 8) (N.ones 2)) with (N.ones 2) by reflexivity.
  rewrite N.land_ones. reflexivity.
Qed.

Notation nz := (filter (fun v => negb (v =? 0)%N)).

Lemma sample_val_ok : forall rnd c rest, nz (map (fun b => b mod 4)%N rnd) = c :: rest ->
  exists rnd', sample_val rnd = Ok (c, rnd') /\ nz (map (fun b => b mod 4)%N rnd') = rest.
Proof.
  induction rnd as [|b rnd IH]; intros c rest H; [discriminate|].
  cbn [map filter] in H. cbn [sample_val]. rewrite fromBlock_mod.
  destruct (N.eqb_spec (b mod 4) 0); cbn [negb] in H; [apply IH; exact H|].
  injection H as H1 H2. subst. eexists. split; [reflexivity|reflexivity].
Qed.

Lemma sample_vals_ok n rnd : n <= length (nz (map (fun b => b mod 4)%N rnd)) ->
  exists rest, sample_vals n rnd = Ok (drawn n rnd, rest).
Proof.
  intros H. unfold sample_vals.
  match goal with |- context [forN 0 n ?f ?s] =>
    destruct (@forN_inv (list N * list N) (fun k st => length (fst st) = k /\
       fst st ++ nz (map (fun b => b mod 4)%N (snd st)) = nz (map (fun b => b mod 4)%N rnd)) f n 0 s) as ([c rest] & E & L & HE)
  end.
  - split; reflexivity.
  - intros k [c r] Hk [L HE]. cbn [fst snd] in *.
    destruct (nz (map (fun b => b mod 4)%N r)) as [|x r'] eqn:Er.
    { rewrite app_nil_r in HE. rewrite <- HE in H. lia. }
    destruct (sample_val_ok Er) as (r2 & E2 & H2). rewrite E2. cbn [bind fst snd].
    eexists. split; [reflexivity|]. cbn [fst snd]. split; [rewrite app_length; cbn [length]; lia|].
    rewrite H2, <- app_assoc. exact HE.
  - cbn [fst snd Nat.add] in *. exists rest. rewrite E. f_equal. f_equal. unfold drawn. rewrite <- HE.
    rewrite firstn_app, <- L, Nat.sub_diag, firstn_all, app_nil_r. reflexivity.
Qed.

Lemma drawn_len n rnd : n <= length (nz (map (fun b => b mod 4)%N rnd)) -> length (drawn n rnd) = n.
Proof. intros H. unfold drawn. rewrite firstn_length. lia. Qed.

Lemma firstn_in A (x : A) : forall n l, In x (firstn n l) -> In x l.
Proof. induction n as [|n IH]; intros [|a l] H; cbn [firstn In] in H; try tauto. destruct H as [H|H]; [left|right]; auto. Qed.

Lemma drawn_range n rnd c : In c (drawn n rnd) -> (1 <= c < 4)%N.
Proof.
  intros H. unfold drawn in H. apply firstn_in, filter_In in H. destruct H as [H Hn].
  apply in_map_iff in H. destruct H as (b & <- & _). pose proof (N.mod_lt b 4 ltac:(lia)).
  destruct (N.eqb_spec (b mod 4) 0); [discriminate|lia].
Qed.

(* ---------------- encode ---------------- *)

Lemma resize_firstn (v : list N) noise req : req <= noise -> noise <= length v ->
  resizeN (firstn noise v) req = firstn req v.
Proof.
  intros H H1. unfold resizeN. rewrite firstn_length. replace (req - Nat.min noise (length v)) with 0 by lia.
  cbn [repeat]. rewrite app_nil_r, firstn_firstn. f_equal. lia.
Qed.

Lemma vole_firstn delta a b n : f4_vole delta a b -> n <= length a -> f4_vole delta (firstn n a) (firstn n b).
Proof.
  intros [L R] H. split; [rewrite !firstn_length; lia|]. intros p t Hp Ht. rewrite firstn_length in Hp.
  assert (F : forall l : list N, nth p (firstn n l) 0%N = nth p l 0%N).
  { intros l. pose proof (nth_error_firstn n l p) as E. destruct (Nat.ltb_spec p n); [|lia].
    destruct (Nat.lt_ge_cases p (length l)) as [Hl|Hg].
    - rewrite (nth_error_nth_lt 0%N Hl) in E. apply nth_error_nth. exact E.
    - rewrite (nth_overflow l) by exact Hg. apply nth_overflow. rewrite firstn_length. lia. }
  rewrite !F. apply R; lia.
Qed.

Lemma nth_firstn_lt (l : list N) n p : p < n -> nth p (firstn n l) 0%N = nth p l 0%N.
Proof.
  intros Hp. pose proof (nth_error_firstn n l p) as E. destruct (Nat.ltb_spec p n); [|lia].
  destruct (Nat.lt_ge_cases p (length l)) as [Hl|Hg].
  - rewrite (nth_error_nth_lt 0%N Hl) in E. apply nth_error_nth. exact E.
  - rewrite (nth_overflow l) by exact Hg. apply nth_overflow. rewrite firstn_length. lia.
Qed.

Lemma sample_total n rnd : sample_vals n rnd <> Hang -> exists p, sample_vals n rnd = Ok p.
Proof.
  assert (V : forall r, sample_val r = Hang \/ exists p, sample_val r = Ok p).
  { induction r as [|b r IH]; [left; reflexivity|]. cbn [sample_val]. destruct (f4_fromBlock_G b =? 0)%N; [exact IH|right; eauto]. }
  unfold sample_vals. generalize (@nil N, rnd) as st. generalize 0 as i.
  induction n as [|n IH]; intros i st H; [cbn [forN]; eauto|].
  rewrite forN_S in *. destruct (V (snd st)) as [E|[p E]]; rewrite E in *; cbn [bind] in *; [elim H; reflexivity|].
  apply IH. exact H.
Qed.

(* ---------------- chosen values ---------------- *)

Lemma forN_shift0 S (f : nat -> S -> outcome S) n i s : forN i n f s = forN 0 n (fun k => f (i + k)) s.
Proof.
  change (forN i n f s) with (forN (0 + i) n f s). rewrite (@PermProofs.forN_shift S f i n 0 s).
  apply forN_ext. intros k s' _. f_equal. lia.
Qed.

Lemma nest4 S (f : nat -> nat -> S -> outcome S) n s :
  forN 0 ((n + 3) / 4) (fun i s => forN 0 (Nat.min (n - i * 4) 4) (f i) s) s =
  forN 0 n (fun p s => f (p / 4) (p mod 4) s) s.
Proof.
  assert (G : forall k, forN 0 k (fun i s => forN 0 (Nat.min (n - i * 4) 4) (f i) s) s =
     forN 0 (Nat.min n (4 * k)) (fun p s => f (p / 4) (p mod 4) s) s).
  { induction k as [|k IH].
    - rewrite Nat.mul_0_r, Nat.min_0_r. reflexivity.
    - replace (Datatypes.S k) with (k + 1) by lia. rewrite forN_app, IH. cbn [Nat.add].
      destruct (Nat.le_gt_cases n (4 * k)) as [Hle|Hgt].
      + replace (Nat.min n (4 * (k + 1))) with (Nat.min n (4 * k)) by lia.
        destruct (forN 0 (Nat.min n (4 * k)) _ s); cbn [bind]; try reflexivity.
        cbn [forN]. replace (Nat.min (n - k * 4) 4) with 0 by lia. cbn [forN bind]. reflexivity.
      + replace (Nat.min n (4 * (k + 1))) with (Nat.min n (4 * k) + Nat.min (n - k * 4) 4) by lia.
        rewrite forN_app. cbn [Nat.add]. destruct (forN 0 (Nat.min n (4 * k)) _ s) as [s1| | |]; cbn [bind]; try reflexivity.
        cbn [forN]. replace (Nat.min n (4 * k)) with (4 * k) by lia.
        rewrite (forN_shift0 (fun p s => f (p / 4) (p mod 4) s)).
        rewrite (@forN_ext _ (f k) (fun j s => f ((4 * k + j) / 4) ((4 * k + j) mod 4) s)).
        * destruct (forN 0 _ _ s1); reflexivity.
        * intros j s2 Hj. assert (Hj4 : j < 4) by lia. f_equal; lia. }
  rewrite G. f_equal. lia.
Qed.

Lemma lt4_bits d i : (d < 4)%N -> (2 <= i)%N -> N.testbit d i = false.
Proof. intros H Hi. exact (@pow2_bits_high d 2 i H Hi). Qed.

Lemma diff_byte w d j q : gelem w j = g0 -> (d < 4)%N -> (q < 4)%N ->
  gelem (N.land (N.lor w (N.shiftl d (j * 2))) 255) q = if (q =? j)%N then gelem d 0 else gelem w q.
Proof.
  intros Hw Hd Hq. unfold gelem. rewrite !N.land_spec. change 255%N with (N.ones 8).
  rewrite !N.ones_spec_low, !andb_true_r by lia. rewrite !N.lor_spec.
  destruct (N.eqb_spec q j) as [->|ne].
  - unfold gelem, g0 in Hw. apply pair_equal_spec in Hw. destruct Hw as [H0 H1]. rewrite H0, H1. rewrite !N.shiftl_spec_high' by lia.
    replace (2 * j - j * 2)%N with 0%N by lia. replace (2 * j + 1 - j * 2)%N with 1%N by lia. reflexivity.
  - destruct (N.lt_ge_cases q j) as [Hl|Hg].
    + rewrite !N.shiftl_spec_low by lia. rewrite !orb_false_r. reflexivity.
    + rewrite !N.shiftl_spec_high' by lia. rewrite !(@lt4_bits d _ Hd) by lia. rewrite !orb_false_r. reflexivity.
Qed.

Lemma land3_lt x : (N.land x 3 < 4)%N.
Proof. change 3%N with (N.ones 2). rewrite N.land_ones. apply N.mod_lt. discriminate. Qed.

Lemma gelem_land3 x : gelem (N.land x 3) 0 = gelem x 0.
Proof. unfold gelem. rewrite !N.land_spec. change (2 * 0)%N with 0%N. change (0 + 1)%N with 1%N. rewrite !andb_true_r. reflexivity. Qed.

Lemma gelem_land255 x : gelem (N.land x 255) 0 = gelem x 0.
Proof. unfold gelem. rewrite !N.land_spec. change (2 * 0)%N with 0%N. change (0 + 1)%N with 1%N. rewrite !andb_true_r. reflexivity. Qed.

Lemma diff_ok A c n : n <= length A -> n <= length c -> (forall p, p < n -> (nth p c 0 < 4)%N) ->
  exists diff, vr_diff A c n = Ok diff /\ length diff = (n + 3) / 4 /\
   forall p, p < n -> gelem (nth (p / 4) diff 0%N) (N.of_nat (p mod 4)) = gadd (gelem (nth p A 0%N) 0) (gelem (nth p c 0%N) 0).
Proof.
  intros HA HC H4. unfold vr_diff.
  rewrite (@nest4 (list N) (fun i j diff =>
    do cv <- get c (4 * i + j);
    do _ <- (if (cv <? 4)%N then Ok tt else UB);
    do x <- get A (4 * i + j);
    let d := N.land (N.lxor (N.land x 255) cv) 3 in
    do w <- get diff i;
    set diff i (N.land (N.lor w (N.shiftl d (N.of_nat j * 2))) 255))).
  match goal with |- context [forN 0 n ?f ?s] =>
    destruct (@forN_inv (list N) (fun k diff => length diff = (n + 3) / 4 /\
      forall p, p < n -> gelem (nth (p / 4) diff 0%N) (N.of_nat (p mod 4)) =
        if p <? k then gadd (gelem (nth p A 0%N) 0) (gelem (nth p c 0%N) 0) else g0) f n 0 s) as (diff & E & L & HD)
  end.
  - split; [apply repeat_length|]. intros p Hp. rewrite nth_repeat. unfold gelem. rewrite !N.bits_0. reflexivity.
  - intros k diff Hk [L HD]. cbv beta.
    assert (Ek : 4 * (k / 4) + k mod 4 = k) by lia. rewrite Ek.
    rewrite (@get_nth _ c k 0%N) by lia. cbn [bind].
    replace (nth k c 0 <? 4)%N with true by (symmetry; apply N.ltb_lt, H4; lia). cbn [bind].
    rewrite (@get_nth _ A k 0%N) by lia. cbn [bind].
    assert (Hd : k / 4 < length diff) by (rewrite L; lia).
    rewrite (@get_nth _ diff _ 0%N) by exact Hd. cbn [bind]. rewrite set_lt by exact Hd.
    eexists. split; [reflexivity|]. split; [rewrite upd_length; exact L|].
    intros p Hp. rewrite nth_upd by exact Hd. destruct (Nat.eqb_spec (k / 4) (p / 4)) as [e|ne].
    + rewrite diff_byte; [|rewrite HD by lia; rewrite Nat.ltb_irrefl; reflexivity|apply land3_lt|lia].
      destruct (N.eqb_spec (N.of_nat (p mod 4)) (N.of_nat (k mod 4))) as [e2|ne2].
      * assert (p = k) by lia. subst p. replace (k <? k + 1) with true by (symmetry; apply Nat.ltb_lt; lia).
        rewrite gelem_land3, gelem_lxor, gelem_land255. reflexivity.
      * rewrite e, HD by exact Hp. assert (p <> k) by (intros ->; lia).
        destruct (Nat.ltb_spec p k), (Nat.ltb_spec p (k + 1)); try lia; reflexivity.
    + rewrite HD by exact Hp. assert (p <> k) by (intros ->; lia).
      destruct (Nat.ltb_spec p k), (Nat.ltb_spec p (k + 1)); try lia; reflexivity.
  - exists diff. split; [exact E|]. split; [exact L|]. intros p Hp. rewrite HD by exact Hp.
    cbn [Nat.add]. destruct (Nat.ltb_spec p n); [reflexivity|lia].
Qed.

Lemma derand_ok delta B n diff : n <= length B -> length diff = (n + 3) / 4 ->
  exists b, vs_derand delta B n diff = Ok b /\ length b = n /\
   forall p t, p < n -> (t < 64)%N -> gelem (nth p b 0%N) t =
     gadd (gelem (nth p B 0%N) t) (gmul (gelem delta t) (gelem (nth (p / 4) diff 0%N) (N.of_nat (p mod 4)))).
Proof.
  intros HB HL. unfold vs_derand. rewrite readN_ok by lia. cbn [bind]. rewrite HL, Nat.eqb_refl. cbn [negb throw_if bind].

  rewrite (@forN_ext _ _ (fun i b => forN 0 (Nat.min (n - i * 4) 4) (fun j b =>
      do w <- get diff i;
      let d := N.land (N.shiftr w (2 * N.of_nat j)) 3 in
      do u <- f4_mul_block delta d;
      do x <- get b (4 * i + j);
      set b (4 * i + j) (N.lxor x u)) b)).
  2:{ intros k s Hk. rewrite (@get_nth _ diff k 0%N) by lia. cbn [bind]. reflexivity. }
  rewrite (@nest4 (list N) (fun i j b =>
      do w <- get diff i;
      let d := N.land (N.shiftr w (2 * N.of_nat j)) 3 in
      do u <- f4_mul_block delta d;
      do x <- get b (4 * i + j);
      set b (4 * i + j) (N.lxor x u))).
  assert (LS : length (slice B 0 n) = n) by (apply slice_length; lia).
  assert (NS : forall p, p < n -> nth p (slice B 0 n) 0%N = nth p B 0%N).
  { intros p Hp. unfold slice. cbn [skipn]. apply nth_firstn_lt. exact Hp. }
  match goal with |- context [forN 0 n ?f ?s] =>
    destruct (@forN_inv (list N) (fun k b => length b = n /\
      forall p t, p < n -> (t < 64)%N -> gelem (nth p b 0%N) t =
        if p <? k then gadd (gelem (nth p B 0%N) t) (gmul (gelem delta t) (gelem (nth (p / 4) diff 0%N) (N.of_nat (p mod 4))))
        else gelem (nth p B 0%N) t) f n 0 s) as (b & E & L & HD)
  end.
  - split; [exact LS|]. intros p t Hp Ht. rewrite NS by exact Hp. reflexivity.
  - intros k b Hk [L HD]. cbv beta.
    assert (Ek : 4 * (k / 4) + k mod 4 = k) by lia. rewrite Ek.
    rewrite (@get_nth _ diff (k / 4) 0%N) by lia. cbn [bind].
    set (w := nth (k / 4) diff 0%N). set (d := N.land (N.shiftr w (2 * N.of_nat (k mod 4))) 3).
    assert (Hd4 : (d < 4)%N) by apply land3_lt.
    destruct (f4_mul_block_total delta Hd4) as (u & Eu & Hu). rewrite Eu. cbn [bind].
    rewrite (@get_nth _ b k 0%N) by lia. cbn [bind]. rewrite set_lt by lia.
    eexists. split; [reflexivity|]. split; [rewrite upd_length; exact L|].
    intros p t Hp Ht. rewrite nth_upd by lia. destruct (Nat.eqb_spec k p) as [<-|ne].
    + replace (k <? k + 1) with true by (symmetry; apply Nat.ltb_lt; lia).
      rewrite gelem_lxor, Hu by exact Ht. rewrite HD by (auto; lia). rewrite Nat.ltb_irrefl. f_equal. f_equal.
      unfold d. rewrite gelem_land3. unfold gelem. rewrite !N.shiftr_spec'. fold w. f_equal; (f_equal; lia).
    + rewrite HD by auto. destruct (Nat.ltb_spec p k), (Nat.ltb_spec p (k + 1)); try lia; reflexivity.
  - exists b. split; [exact E|]. split; [exact L|]. intros p t Hp Ht. rewrite HD by auto.
    cbn [Nat.add]. destruct (Nat.ltb_spec p n); [reflexivity|lia].
Qed.

Lemma chosen_ok delta A B c n : n <= length A -> f4_vole delta A B -> n <= length c -> (forall p, p < n -> (nth p c 0 < 4)%N) ->
  exists diff b, vr_diff A c n = Ok diff /\ vs_derand delta B n diff = Ok b /\ length diff = (n + 3) / 4 /\ length b = n /\
   (forall p, p < n -> gelem (nth (p / 4) diff 0%N) (N.of_nat (p mod 4)) = gadd (gelem (nth p A 0%N) 0) (gelem (nth p c 0%N) 0)) /\
   forall p t, p < n -> (1 <= t < 64)%N -> gelem (nth p A 0%N) t =
     gadd (gelem (nth p b 0%N) t) (gmul (gelem (nth p c 0%N) 0) (gelem delta t)).
Proof.
  intros HA [VL V] HC H4. destruct (diff_ok HA HC H4) as (diff & E1 & L1 & D).
  destruct (@derand_ok delta B n diff) as (b & E2 & L2 & R); [lia|exact L1|].
  exists diff, b. split; [exact E1|]. split; [exact E2|]. split; [exact L1|]. split; [exact L2|]. split; [exact D|].
  intros p t Hp Ht. rewrite R by lia. rewrite D by exact Hp. rewrite V by lia.
  destruct (gelem (nth p B 0%N) t) as [[] []], (gelem (nth p A 0%N) 0) as [[] []], (gelem (nth p c 0%N) 0) as [[] []], (gelem delta t) as [[] []]; reflexivity.
Qed.

Section Run.
Variable sdconf : nat -> mult -> nat * nat * nat.
Variable otCount : nat -> nat -> nat.
Variable enc : mult -> nat -> nat -> nat * list lin.
Variable pprf : list nat -> list N -> list N * list N.

Lemma round_up8 n : round_up n 8 = (n + 7) / 8 * 8.
Proof. unfold round_up. f_equal. f_equal. lia. Qed.

(* after the expansion, from states with base correlations *)
Lemma post_ok delta m noise parts req sS sR gS gR szS szR B0 A0 pts c a b outS outR stS stR tmp prog :
  m <> OtherCode -> req <= noise -> enc m (code_dim m req) noise = (tmp, prog) -> lin_in (noise + tmp) prog ->
  NoDup pts -> length pts = parts -> length c = parts -> (forall p, In p pts -> p < noise) ->
  (forall x, In x c -> (x < 4)%N) -> base_vole delta c a b ->
  pprf_rel noise pts (map (fun x => clear3 (f4_plus 0 x)) b) outS outR ->
  sS = VS stS req noise parts szS false m gS (map (fun x => clear3 (f4_plus 0 x)) b) B0 ->
  sR = VR stR req noise parts szR false m gR pts (map clear3 a) c A0 ->
  exists B A, vs_post enc sS outS = Ok (VS SDefault req noise parts szS false m gS [] B) /\
   vr_post enc sR outR = Ok (VR SDefault req noise parts szR false m gR pts [] [] A) /\
   length A = req /\ f4_vole delta A B /\
   forall p, p < req -> gelem (nth p A 0%N) 0 = nth p (glin_run prog (noise_vec noise tmp pts c)) g0.
Proof.
  intros Hm HN HE HI ND HP HC HB C4 BV PR -> ->.
  destruct (@noise_rel delta noise tmp pts parts c a b outS outR ND HP HC HB C4 BV PR)
    as (A1 & A2 & E1 & F1 & E2 & L2 & R2 & LN & HC2).
  destruct (@lin_run_rel delta (noise + tmp) prog (A2 ++ repeat 0%N tmp) (outS ++ repeat 0%N tmp) (noise_vec noise tmp pts c))
    as (A3 & B3 & EA & EB & L3 & R3 & LG & HC3); auto.
  { rewrite app_length, repeat_length. lia. }
  exists (firstn req B3), (firstn req A3).
  assert (LB3 : length B3 = noise + tmp) by (destruct R3; lia).
  assert (EncB : encode enc m req noise outS = Ok B3).
  { unfold encode. rewrite round_up8. destruct m; cbn [code_dim] in HE; try (elim Hm; reflexivity); rewrite HE; exact EB. }
  assert (EncA : encode enc m req noise A2 = Ok A3).
  { unfold encode. rewrite round_up8. destruct m; cbn [code_dim] in HE; try (elim Hm; reflexivity); rewrite HE; exact EA. }
  split; [|split; [|split; [|split]]].
  - unfold vs_post. cbn [vsMal throw_if bind vsMult vsReq vsNoise vsParts vsSizePer vsGen]. rewrite EncB. cbn [bind].
    rewrite resize_firstn by lia. reflexivity.
  - unfold vr_post. cbn [vrMal throw_if bind vrMult vrReq vrNoise vrParts vrSizePer vrGen vrS vrBaseA vrBaseC].
    rewrite E1. cbn [bind]. rewrite F1. cbn [bind]. rewrite E2. cbn [bind throw_if]. rewrite EncA. cbn [bind].
    rewrite resize_firstn by lia. reflexivity.
  - rewrite firstn_length. lia.
  - apply vole_firstn; [exact R3|lia].
  - intros p Hp. rewrite nth_firstn_lt by exact Hp. apply HC3. lia.
Qed.

Lemma slice_all A (l : list A) n : length l = n -> slice l 0 n = l.
Proof. intros <-. unfold slice. cbn [skipn]. apply firstn_all. Qed.

(* from unconfigured states *)
Lemma run_fresh_ok delta s r n m parts sz noise tmp prog pts rnd genB genA :
  vsState s = SDefault -> vsMal s = false -> vsMult s = m ->
  vrState r = SDefault -> vrMal r = false -> vrMult r = m -> m <> OtherCode ->
  sdconf n m = (parts, sz, noise) -> n <= noise ->
  enc m (code_dim m n) noise = (tmp, prog) -> lin_in (noise + tmp) prog ->
  NoDup pts -> length pts = parts -> (forall p, In p pts -> p < noise) ->
  (forall vs, length vs = parts -> pprf_rel noise pts vs (fst (pprf pts vs)) (snd (pprf pts vs))) ->
  parts <= length (nz (map (fun b => b mod 4)%N rnd)) ->
  base_vole delta (drawn parts rnd) (genA (drawn parts rnd)) genB ->
  exists s' r', vole_run sdconf otCount enc pprf s r n pts rnd genB genA = Ok (s', r') /\
   vsState s' = SDefault /\ vrState r' = SDefault /\
   length (vrA r') = n /\ f4_vole delta (vrA r') (vsB s') /\
   forall p, p < n -> gelem (nth p (vrA r') 0%N) 0 =
     nth p (glin_run prog (noise_vec noise tmp pts (drawn parts rnd))) g0.
Proof.
  intros Es Ms Ts Er Mr Tr Hm HS HN HE HI ND HP HB PP HD BV.
  destruct s as [stS rqS nzS ptS szS mlS mtS gnS bbS vbS], r as [stR rqR nzR ptR szR mlR mtR gnR ssR baR bcR vaR].
  cbn [vsState vsMal vsMult vrState vrMal vrMult] in *. subst stS mlS mtS stR mlR mtR parts.
  pose proof (drawn_len HD) as LD. pose proof BV as (LA & LB & _).
  set (c := drawn (length pts) rnd) in *.
  set (bm := map (fun x => clear3 (f4_plus 0 x)) genB).
  assert (Lbm : length bm = length pts) by (unfold bm; rewrite map_length; lia).
  specialize (PP bm Lbm). destruct (pprf pts bm) as [outS outR] eqn:EP. cbn [fst snd] in PP.
  destruct (sample_vals_ok HD) as (rest & ESm). fold c in ESm.
  unfold vole_run, vs_pre, vr_pre. cbn [vsState vrState is_configured].
  unfold vs_configure, vr_configure. cbn [vsMult vrMult vsMal vrMal vsBaseB vsB vrS vrBaseA vrBaseC vrA]. rewrite HS.
  cbn [vsReq vrReq vsGen vrGen]. rewrite Nat.ltb_irrefl. cbn [throw_if bind].
  unfold vs_otcount, vr_otcount, vs_setBase, vr_sample, vr_setBase, vs_otcount, vr_otcount.
  cbn [vsState vrState is_configured vsSizePer vrSizePer vsParts vrParts bind negb throw_if vsMal vrMal vsReq vrReq vsNoise vrNoise vsMult vrMult vsB vrS vrBaseA vrBaseC vrA fst snd].
  rewrite !Nat.eqb_refl. cbn [negb throw_if bind]. unfold base_vole_count. rewrite Nat.add_0_r.
  rewrite LB, LD, Nat.eqb_refl. cbn [negb throw_if bind vsBaseB vsParts]. fold bm.
  rewrite readN_ok by lia. cbn [bind snd fst]. rewrite slice_all by exact Lbm.
  rewrite ESm. cbn [bind fst snd vrState is_configured negb throw_if vrBaseC vrSizePer vrParts].
  rewrite Nat.eqb_refl. cbn [negb throw_if bind vrS vrReq vrNoise vrParts vrSizePer vrMal vrMult vrA]. rewrite EP.
  match goal with |- context [vs_post enc ?a outS] => match goal with |- context [vr_post enc ?b outR] =>
    destruct (@post_ok delta m noise (length pts) n a b true true sz sz vbS vaR pts c (genA c) genB outS outR SConfigured SHasBase tmp prog)
      as (B & A & EB & EA & LAA & V & HC); auto
  end end.
  { intros x Hx. apply drawn_range in Hx. lia. }
  rewrite EB. cbn [bind]. rewrite EA. cbn [bind]. do 2 eexists. split; [reflexivity|].
  cbn [vsState vrState vrA vsB]. auto.
Qed.

Lemma silent_fresh_ok delta s r n m parts sz noise tmp prog pts rnd genB genA :
  vsState s = SDefault -> vsMal s = false -> vsMult s = m ->
  vrState r = SDefault -> vrMal r = false -> vrMult r = m -> m <> OtherCode ->
  sdconf n m = (parts, sz, noise) -> n <= noise ->
  enc m (code_dim m n) noise = (tmp, prog) -> lin_in (noise + tmp) prog ->
  NoDup pts -> length pts = parts -> (forall p, In p pts -> p < noise) ->
  (forall vs, length vs = parts -> pprf_rel noise pts vs (fst (pprf pts vs)) (snd (pprf pts vs))) ->
  parts <= length (nz (map (fun b => b mod 4)%N rnd)) ->
  base_vole delta (drawn parts rnd) (genA (drawn parts rnd)) genB ->
  exists b a, vole_silent sdconf otCount enc pprf s r n pts rnd genB genA = Ok (b, a) /\
   length a = n /\ f4_vole delta a b /\
   forall p, p < n -> gelem (nth p a 0%N) 0 = nth p (glin_run prog (noise_vec noise tmp pts (drawn parts rnd))) g0.
Proof.
  intros. destruct (@run_fresh_ok delta s r n m parts sz noise tmp prog pts rnd genB genA) as (s' & r' & E & _ & _ & L & V & HC); auto.
  unfold vole_silent. rewrite E. cbn [bind fst snd]. pose proof V as [VL _].
  rewrite !readN_ok by lia. cbn [bind]. rewrite !slice_all by lia. eauto 10.
Qed.

Lemma chosen_fresh_ok delta s r n m parts sz noise tmp prog pts rnd genB genA c :
  vsState s = SDefault -> vsMal s = false -> vsMult s = m ->
  vrState r = SDefault -> vrMal r = false -> vrMult r = m -> m <> OtherCode ->
  sdconf n m = (parts, sz, noise) -> n <= noise ->
  enc m (code_dim m n) noise = (tmp, prog) -> lin_in (noise + tmp) prog ->
  NoDup pts -> length pts = parts -> (forall p, In p pts -> p < noise) ->
  (forall vs, length vs = parts -> pprf_rel noise pts vs (fst (pprf pts vs)) (snd (pprf pts vs))) ->
  parts <= length (nz (map (fun b => b mod 4)%N rnd)) ->
  base_vole delta (drawn parts rnd) (genA (drawn parts rnd)) genB ->
  length c = n -> (forall x, In x c -> (x < 4)%N) ->
  exists b a, vole_chosen sdconf otCount enc pprf delta s r c n pts rnd genB genA = Ok (b, a) /\ base_vole delta c a b.
Proof.
  intros ? ? ? ? ? ? ? ? ? ? ? ? ? ? ? ? ? Lc C4.
  destruct (@run_fresh_ok delta s r n m parts sz noise tmp prog pts rnd genB genA) as (s' & r' & E & _ & _ & L & V & HC); auto.
  destruct (@chosen_ok delta (vrA r') (vsB s') c n) as (diff & b & E1 & E2 & _ & Lb & _ & R); auto; [lia|lia|intros p Hp; apply C4, nth_In; lia|].
  unfold vole_chosen. rewrite E. cbn [bind fst snd]. rewrite readN_ok by lia. cbn [bind]. rewrite E1. cbn [bind]. rewrite E2. cbn [bind].
  rewrite slice_all by exact L. exists b, (vrA r'). split; [reflexivity|]. split; [lia|]. split; [lia|].
  intros i t Hi Ht. apply R; lia.
Qed.

(* ---------------- the batch ---------------- *)

Lemma batch_ok (H : N -> N) dflt delta k parts sz noise tmp prog pts rnd bS bR :
  sdconf (k * 16) dflt = (parts, sz, noise) -> k * 16 <= noise ->
  enc Tungsten (k * 16) noise = (tmp, prog) -> lin_in (noise + tmp) prog ->
  NoDup pts -> length pts = parts -> (forall p, In p pts -> p < noise) ->
  (forall vs, length vs = parts -> pprf_rel noise pts vs (fst (pprf pts vs)) (snd (pprf pts vs))) ->
  parts <= length (nz (map (fun b => b mod 4)%N rnd)) ->
  base_vole delta (drawn parts rnd) (bR (drawn parts rnd)) bS ->
  exists o0 o1 o2 o3 ots ls ms,
   f4_batch sdconf otCount enc pprf H dflt delta (k * 16) (otCount sz parts) pts rnd bS bR = Ok ((o0, o1, o2, o3), (ots, ls, ms)) /\
   length ots = k /\ length ls = 2 * k /\ length ms = 2 * k /\
   length o0 = k /\ length o1 = k /\ length o2 = k /\ length o3 = k /\
   forall p, p < 16 * k ->
    (buf_bit 8 ls p, buf_bit 8 ms p) = nth p (glin_run prog (noise_vec noise tmp pts (drawn parts rnd))) g0 /\
    buf_bit 16 ots p = nth (b2n (buf_bit 8 ls p) + 2 * b2n (buf_bit 8 ms p))
      [buf_bit 16 o0 p; buf_bit 16 o1 p; buf_bit 16 o2 p; buf_bit 16 o3 p] false.
Proof.
  intros HS HN HE HI ND HP HB PP HD BV. subst parts.
  pose proof (drawn_len HD) as LD. pose proof BV as (LA & LB & _).
  set (c := drawn (length pts) rnd) in *.
  set (bm := map (fun x => clear3 (f4_plus 0 x)) bS).
  assert (Lbm : length bm = length pts) by (unfold bm; rewrite map_length; lia).
  specialize (PP bm Lbm). destruct (pprf pts bm) as [outS outR] eqn:EP. cbn [fst snd] in PP.
  destruct (sample_vals_ok HD) as (rest & ESm). fold c in ESm.
  unfold f4_batch. unfold vs_configure, vr_configure. cbn [vsMult vrMult]. rewrite HS.
  unfold vr_sample. cbn [vrState is_configured negb throw_if bind vrParts vrMal]. rewrite ESm. cbn [bind fst snd throw_if].
  unfold vs_setBase, vr_setBase, vs_otcount, vr_otcount.
  cbn [vsState vrState is_configured vsSizePer vrSizePer vsParts vrParts bind negb throw_if vsMal vrMal].
  rewrite !Nat.eqb_refl. cbn [negb throw_if bind]. unfold base_vole_count. rewrite Nat.add_0_r.
  rewrite LB, LD, Nat.eqb_refl.
  cbn [negb throw_if bind vsState vrState vsSizePer vrSizePer vsParts vrParts vsMal vrMal vsReq vrReq vsNoise vrNoise vsMult vrMult vsGen vrGen vsBaseB vsB vrS vrBaseA vrBaseC vrA].
  fold bm. unfold vole_run, vs_pre, vr_pre.
  cbn [vsState vrState is_configured vsReq vrReq]. rewrite Nat.ltb_irrefl. cbn [throw_if bind vsGen vrGen vsBaseB vsParts].
  rewrite readN_ok by lia. cbn [bind snd fst vrS]. rewrite slice_all by exact Lbm. rewrite EP.
  match goal with |- context [vs_post enc ?a outS] => match goal with |- context [vr_post enc ?b outR] =>
    destruct (@post_ok delta Tungsten noise (length pts) (k * 16) a b true true sz sz [] [] pts c (bR c) bS outS outR SConfigured SHasBase tmp prog)
      as (B & A & EB & EA & LAA & V & HC); auto
  end end.
  { discriminate. }
  { unfold code_dim. replace ((k * 16 + 7) / 8 * 8) with (k * 16) by lia. exact HE. }
  { intros x Hx. apply drawn_range in Hx. lia. }
  rewrite EB. cbn [bind]. rewrite EA. cbn [bind fst snd vsB vrA].
  destruct (@f4_compress_ok H delta A B k LAA V) as (ots & ls & ms & o0 & o1 & o2 & o3 & ER & ES & L1 & L2 & L3 & L4 & L5 & L6 & L7 & HB2).
  rewrite ES. cbn [bind]. rewrite ER. cbn [bind].
  exists o0, o1, o2, o3, ots, ls, ms. split; [reflexivity|]. do 7 (split; [assumption|]).
  intros p Hp. destruct (HB2 p Hp) as (H1 & H2 & H3). split; [|exact H3].
  rewrite <- HC by lia. rewrite H1, H2. reflexivity.
Qed.

End Run.
