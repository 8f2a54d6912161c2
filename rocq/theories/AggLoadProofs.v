From Verif Require Import Base Words GmwModel ShuffleModel ShuffleSpec AggModel AggSpec GmwProofs ShuffleSpanProofs.

Section Load.
Context {V : Type} (zero : V).

(* the leaves as one list: rows with their prefix (suffix) bit, then padding *)
Definition pre_leaves (n : nat) (src : list V) (ctrl : list bool) : list (V * bool) :=
  combine src ctrl ++ repeat (zero, false) (n - length src).
Definition suf_leaves (n : nat) (src : list V) (ctrl : list bool) : list (V * bool) :=
  combine src (tl ctrl ++ [false]) ++ repeat (zero, false) (n - length src).

Lemma combine_nth_error A B : forall (l : list A) (m : list B) i a b,
  nth_error l i = Some a -> nth_error m i = Some b -> nth_error (combine l m) i = Some (a, b).
Proof.
  induction l as [|x l IH]; intros [|y m] [|i] a b H1 H2; simpl in *; try discriminate.
  - congruence.
  - apply IH; assumption.
Qed.

Definition linv (X : list (V * bool)) h (d : nat) (s : list (V * bool) * list (V * bool)) : Prop :=
  length (fst s) = h /\ length (snd s) = h /\
  (forall j, j < h -> nth_error (fst s) j = if j <? d then nth_error X (2 * j) else Some (zero, false)) /\
  (forall j, j < h -> nth_error (snd s) j = if j <? d then nth_error X (2 * j + 1) else Some (zero, false)).

Lemma linv_step X h d s e0 e1 : linv X h d s -> d < h ->
  nth_error X (2 * d) = Some e0 -> nth_error X (2 * d + 1) = Some e1 ->
  exists l r, set (fst s) d e0 = Ok l /\ set (snd s) d e1 = Ok r /\ linv X h (d + 1) (l, r).
Proof.
  intros [L0 [L1 [H0 H1]]] Hd E0 E1.
  exists (upd (fst s) d e0), (upd (snd s) d e1). rewrite !set_lt by lia.
  split; [reflexivity|]. split; [reflexivity|]. unfold linv. cbn [fst snd]. rewrite !upd_length.
  split; [exact L0|]. split; [exact L1|].
  split; intros j Hj; destruct (Nat.eq_dec j d) as [->|Ne].
  - rewrite nth_error_upd_eq by lia. replace (d <? d + 1) with true by (symmetry; apply Nat.ltb_lt; lia). congruence.
  - rewrite nth_error_upd_ne by lia. rewrite H0 by exact Hj.
    destruct (Nat.ltb_spec j d), (Nat.ltb_spec j (d + 1)); try lia; reflexivity.
  - rewrite nth_error_upd_eq by lia. replace (d <? d + 1) with true by (symmetry; apply Nat.ltb_lt; lia). congruence.
  - rewrite nth_error_upd_ne by lia. rewrite H1 by exact Hj.
    destruct (Nat.ltb_spec j d), (Nat.ltb_spec j (d + 1)); try lia; reflexivity.
Qed.

Lemma linv_init X h : linv X h 0 (repeat (zero, false) h, repeat (zero, false) h).
Proof.
  split; [apply repeat_length|]. split; [apply repeat_length|]. cbn [fst snd].
  split; intros j Hj; rewrite nth_error_repeat; destruct (Nat.ltb_spec j h); try lia; reflexivity.
Qed.

Lemma linv_done X h d s : linv X h d s -> length X = 2 * h ->
  (forall i, 2 * d <= i < 2 * h -> nth_error X i = Some (zero, false)) -> s = (evens X, odds X).
Proof.
  intros [L0 [L1 [H0 H1]]] HX HZ. destruct s as [l r]. cbn [fst snd] in *.
  f_equal; apply nth_error_ext; intros j.
  - rewrite (proj1 (evens_odds_nth _ _)). destruct (Nat.lt_ge_cases j h) as [Hj|Hj].
    + rewrite H0 by exact Hj. destruct (Nat.ltb_spec j d); [reflexivity|]. rewrite HZ by lia. reflexivity.
    + rewrite !(proj2 (nth_error_None _ _)) by lia. reflexivity.
  - rewrite (proj2 (evens_odds_nth _ _)). destruct (Nat.lt_ge_cases j h) as [Hj|Hj].
    + rewrite H1 by exact Hj. destruct (Nat.ltb_spec j d); [reflexivity|]. rewrite HZ by lia. reflexivity.
    + rewrite !(proj2 (nth_error_None _ _)) by lia. reflexivity.
Qed.

Lemma pre_leaves_length n src ctrl : length src = length ctrl -> length src <= n -> length (pre_leaves n src ctrl) = n.
Proof. intros H1 H2. unfold pre_leaves. rewrite app_length, combine_length, repeat_length. lia. Qed.

Lemma suf_leaves_length n src ctrl : length src = length ctrl -> 0 < length src -> length src <= n -> length (suf_leaves n src ctrl) = n.
Proof.
  intros H1 H0 H2. unfold suf_leaves. rewrite app_length, combine_length, repeat_length, app_length.
  destruct ctrl; simpl in *; lia.
Qed.

Lemma pre_leaves_at n src ctrl i x c : length src = length ctrl -> nth_error src i = Some x -> nth_error ctrl i = Some c ->
  nth_error (pre_leaves n src ctrl) i = Some (x, c).
Proof.
  intros HL H1 H2. unfold pre_leaves. pose proof (nth_error_lt H1).
  rewrite nth_error_app1 by (rewrite combine_length; lia). apply combine_nth_error; assumption.
Qed.

Lemma pre_leaves_pad n src ctrl i : length src = length ctrl -> length src <= i < n ->
  nth_error (pre_leaves n src ctrl) i = Some (zero, false).
Proof.
  intros HL H. unfold pre_leaves. rewrite nth_error_app2 by (rewrite combine_length; lia).
  rewrite combine_length, nth_error_repeat. destruct (Nat.ltb_spec (i - Nat.min (length src) (length ctrl)) (n - length src)); [reflexivity|lia].
Qed.

Lemma tl_nth A (l : list A) i : nth_error (tl l) i = nth_error l (i + 1).
Proof. destruct l; [rewrite Nat.add_comm; destruct i; reflexivity|]. rewrite Nat.add_comm. reflexivity. Qed.

Lemma suf_leaves_at n src ctrl i x c : length src = length ctrl -> nth_error src i = Some x ->
  (if i + 1 <? length ctrl then nth_error ctrl (i + 1) else Some false) = Some c ->
  nth_error (suf_leaves n src ctrl) i = Some (x, c).
Proof.
  intros HL H1 H2. unfold suf_leaves. pose proof (nth_error_lt H1).
  assert (Lt : length (tl ctrl) = length ctrl - 1) by (destruct ctrl; simpl; lia).
  rewrite nth_error_app1 by (rewrite combine_length, app_length; simpl; lia). apply combine_nth_error; [assumption|].
  destruct (Nat.ltb_spec (i + 1) (length ctrl)) as [L|L].
  - rewrite nth_error_app1 by lia. rewrite tl_nth. exact H2.
  - rewrite nth_error_app2 by lia. replace (i - length (tl ctrl)) with 0 by lia. exact H2.
Qed.

Lemma suf_leaves_pad n src ctrl i : length src = length ctrl -> 0 < length src -> length src <= i < n ->
  nth_error (suf_leaves n src ctrl) i = Some (zero, false).
Proof.
  intros HL H0 H. unfold suf_leaves.
  assert (Lt : length (tl ctrl) = length ctrl - 1) by (destruct ctrl; simpl; lia).
  rewrite nth_error_app2 by (rewrite combine_length, app_length; simpl; lia).
  rewrite combine_length, app_length, nth_error_repeat. simpl length.
  destruct (Nat.ltb_spec (i - Nat.min (length src) (length (tl ctrl) + 1)) (n - length src)); [reflexivity|lia].
Qed.

Lemma halves h : div_ceil (2 * h) 2 = h /\ 2 * h / 2 = h.
Proof.
  unfold div_ceil. split.
  - replace (2 * h + 2 - 1) with (1 + h * 2) by lia. rewrite Nat.div_add by discriminate. reflexivity.
  - rewrite Nat.mul_comm. apply Nat.div_mul. discriminate.
Qed.

Lemma half_split n : n = 2 * (n / 2) + b2n (Nat.odd n).
Proof.
  pose proof (Nat.div_mod n 2 ltac:(discriminate)) as H.
  pose proof (Nat.bit0_mod n) as B. rewrite Nat.bit0_odd in B. unfold Nat.b2n in B.
  unfold b2n. destruct (Nat.odd n); lia.
Qed.

Lemma load_pre_ok h src ctrl : length src = length ctrl -> length src <= 2 * h ->
  load_pre zero (2 * h) src ctrl = Ok (evens (pre_leaves (2 * h) src ctrl), odds (pre_leaves (2 * h) src ctrl)).
Proof.
  intros HL Hn. unfold load_pre, split, ent, zent. cbv zeta. destruct (halves h) as [-> ->]. rewrite Nat.min_l by exact Hn.
  set (X := pre_leaves (2 * h) src ctrl). set (n := length src) in *.
  assert (HX : length X = 2 * h) by (apply pre_leaves_length; assumption).
  pose proof (half_split n) as HS.
  destruct (@forN_inv _ (linv X h)
    (fun d (s : list (V * bool) * list (V * bool)) =>
    do x0 <- get src (2 * d); do x1 <- get src (2 * d + 1);
    do c0 <- get ctrl (2 * d); do c1 <- get ctrl (2 * d + 1);
    do l <- set (fst s) d (x0, c0); do r <- set (snd s) d (x1, c1); Ok (l, r)) (n / 2) 0
    (repeat (zero, false) h, repeat (zero, false) h)) as [s [Hs Hi]].
  - apply linv_init.
  - intros d s Hd Hinv.
    destruct (@get_lt _ src (2 * d)) as [x0 [-> Ex0]]; [unfold n in *; lia|].
    destruct (@get_lt _ src (2 * d + 1)) as [x1 [-> Ex1]]; [unfold n in *; lia|].
    destruct (@get_lt _ ctrl (2 * d)) as [c0 [-> Ec0]]; [unfold n in *; lia|].
    destruct (@get_lt _ ctrl (2 * d + 1)) as [c1 [-> Ec1]]; [unfold n in *; lia|].
    cbn [bind].
    destruct (@linv_step X h d s (x0, c0) (x1, c1) Hinv) as [l [r [El [Er Hi]]]].
    { lia. } { apply pre_leaves_at; assumption. } { apply pre_leaves_at; assumption. }
    rewrite El. cbn [bind]. rewrite Er. cbn [bind]. exists (l, r). split; [reflexivity|exact Hi].
  - rewrite Hs. cbn [bind]. rewrite Nat.add_0_l in Hi.
    assert (Hodd : exists s', (if Nat.odd n then
        do x <- get src (2 * (n / 2)); do c <- get ctrl (2 * (n / 2));
        do l <- set (fst s) (n / 2) (x, c); do r <- set (snd s) (n / 2) (zero, false); Ok (l, r) else Ok s) = Ok s' /\
        linv X h (if Nat.odd n then n / 2 + 1 else n / 2) s').
    { destruct (Nat.odd n); cbn [b2n] in HS.
      - destruct (@get_lt _ src (2 * (n / 2))) as [x [-> Ex]]; [unfold n in *; lia|].
        destruct (@get_lt _ ctrl (2 * (n / 2))) as [c [-> Ec]]; [unfold n in *; lia|]. cbn [bind].
        destruct (@linv_step X h (n / 2) s (x, c) (zero, false) Hi) as [l [r [El [Er Hi']]]].
        { lia. } { apply pre_leaves_at; assumption. } { apply pre_leaves_pad; [exact HL|fold n; lia]. }
        rewrite El. cbn [bind]. rewrite Er. cbn [bind]. exists (l, r). split; [reflexivity|exact Hi'].
      - exists s. split; [reflexivity|exact Hi]. }
    destruct Hodd as [s' [-> Hi']]. cbn [bind].
    set (d0 := if Nat.odd n then n / 2 + 1 else n / 2) in *.
    assert (Hd0 : n <= 2 * d0 /\ d0 <= h) by (unfold d0; destruct (Nat.odd n); cbn [b2n] in HS; lia).
    destruct (@forN_inv _ (linv X h)
      (fun d (s : list (V * bool) * list (V * bool)) =>
       do l <- set (fst s) d (zero, false); do r <- set (snd s) d (zero, false); Ok (l, r)) (h - d0) d0 s' Hi') as [s2 [Hs2 Hi2]].
    + intros d t Hd Ht.
      destruct (@linv_step X h d t (zero, false) (zero, false) Ht) as [l [r [El [Er Hi3]]]].
      { lia. } { apply pre_leaves_pad; [exact HL|fold n; lia]. } { apply pre_leaves_pad; [exact HL|fold n; lia]. }
      rewrite El. cbn [bind]. rewrite Er. cbn [bind]. exists (l, r). split; [reflexivity|exact Hi3].
    + rewrite Hs2. f_equal. apply (linv_done Hi2 HX). intros i Hii. lia.
Qed.

Lemma load_suf_ok h src ctrl : length src = length ctrl -> 2 <= length src -> length src <= 2 * h ->
  load_suf zero (2 * h) src ctrl = Ok (evens (suf_leaves (2 * h) src ctrl), odds (suf_leaves (2 * h) src ctrl)).
Proof.
  intros HL H2 Hn. unfold load_suf, split, ent, zent. cbv zeta. destruct (halves h) as [-> ->]. rewrite Nat.min_l by exact Hn.
  set (X := suf_leaves (2 * h) src ctrl). set (n := length src) in *.
  assert (HX : length X = 2 * h) by (apply suf_leaves_length; try assumption; fold n; lia).
  pose proof (half_split n) as HS.
  assert (Hb : b2n (Nat.odd n) <= 1) by (destruct (Nat.odd n); simpl; lia).
  destruct (Nat.eqb_spec (n / 2) 0) as [Z|_]; [lia|].
  destruct (@forN_inv _ (linv X h)
    (fun d (s : list (V * bool) * list (V * bool)) =>
    do x0 <- get src (2 * d); do x1 <- get src (2 * d + 1);
    do c1 <- get ctrl (2 * d + 1); do c2 <- get ctrl (2 * d + 2);
    do l <- set (fst s) d (x0, c1); do r <- set (snd s) d (x1, c2); Ok (l, r)) (n / 2 - 1) 0
    (repeat (zero, false) h, repeat (zero, false) h)) as [s [Hs Hi]].
  - apply linv_init.
  - intros d s Hd Hinv.
    destruct (@get_lt _ src (2 * d)) as [x0 [-> Ex0]]; [unfold n in *; lia|].
    destruct (@get_lt _ src (2 * d + 1)) as [x1 [-> Ex1]]; [unfold n in *; lia|].
    destruct (@get_lt _ ctrl (2 * d + 1)) as [c1 [-> Ec1]]; [unfold n in *; lia|].
    destruct (@get_lt _ ctrl (2 * d + 2)) as [c2 [-> Ec2]]; [unfold n in *; lia|].
    cbn [bind].
    destruct (@linv_step X h d s (x0, c1) (x1, c2) Hinv) as [l [r [El [Er Hi]]]].
    { lia. }
    { apply suf_leaves_at; try assumption. destruct (Nat.ltb_spec (2 * d + 1) (length ctrl)); [assumption|unfold n in *; lia]. }
    { apply suf_leaves_at; try assumption. replace (2 * d + 1 + 1) with (2 * d + 2) by lia.
      destruct (Nat.ltb_spec (2 * d + 2) (length ctrl)); [assumption|unfold n in *; lia]. }
    rewrite El. cbn [bind]. rewrite Er. cbn [bind]. exists (l, r). split; [reflexivity|exact Hi].
  - rewrite Hs. cbn [bind]. rewrite Nat.add_0_l in Hi. set (d := n / 2 - 1) in *.
    destruct (@get_lt _ src (2 * d)) as [x0 [-> Ex0]]; [unfold n in *; lia|].
    destruct (@get_lt _ src (2 * d + 1)) as [x1 [-> Ex1]]; [unfold n in *; lia|].
    destruct (@get_lt _ ctrl (2 * d + 1)) as [c1 [-> Ec1]]; [unfold n in *; lia|].
    cbn [bind].
    assert (Hcl : exists cl, (if 2 * d + 2 <? length ctrl then get ctrl (2 * d + 2) else Ok false) = Ok cl /\
       (if 2 * d + 2 <? length ctrl then nth_error ctrl (2 * d + 2) else Some false) = Some cl).
    { destruct (Nat.ltb_spec (2 * d + 2) (length ctrl)) as [L|L].
      - destruct (get_lt L) as [c [E1 E2]]. exists c. split; assumption.
      - exists false. split; reflexivity. }
    destruct Hcl as [cl [-> Ecl]]. cbn [bind].
    destruct (@linv_step X h d s (x0, c1) (x1, cl) Hi) as [l [r [El [Er Hi']]]].
    { lia. }
    { apply suf_leaves_at; try assumption. destruct (Nat.ltb_spec (2 * d + 1) (length ctrl)); [assumption|unfold n in *; lia]. }
    { apply suf_leaves_at; try assumption. replace (2 * d + 1 + 1) with (2 * d + 2) by lia. exact Ecl. }
    rewrite El. cbn [bind]. rewrite Er. cbn [bind].
    destruct (Nat.odd n); cbn [b2n] in HS.
    + destruct (@get_lt _ src (2 * d + 2)) as [x [-> Ex]]; [unfold n in *; lia|].
      destruct (Nat.ltb_spec (2 * d + 3) (length ctrl)) as [L|L]; [exfalso; unfold n in *; lia|]. cbn [bind].
      destruct (@linv_step X h (d + 1) (l, r) (x, false) (zero, false) Hi') as [l' [r' [El' [Er' Hi3]]]].
      { lia. }
      { replace (2 * (d + 1)) with (2 * d + 2) by lia. apply suf_leaves_at; try assumption.
        destruct (Nat.ltb_spec (2 * d + 2 + 1) (length ctrl)); [unfold n in *; lia|reflexivity]. }
      { apply suf_leaves_pad; [exact HL|fold n; lia|fold n; lia]. }
      cbn [fst snd] in *. rewrite El'. cbn [bind]. rewrite Er'. cbn [bind]. f_equal.
      apply (linv_done Hi3 HX). intros i Hii. apply suf_leaves_pad; [exact HL|fold n; lia|fold n; lia].
    + f_equal. apply (linv_done Hi' HX). intros i Hii. apply suf_leaves_pad; [exact HL|fold n; lia|fold n; lia].
Qed.

End Load.
