(* The tree on shares against the tree on values. *)
From Verif Require Import Base GmwModel GmwSpec ShuffleModel ShuffleSpec AggModel AggCirModel AggCirSpec AggTwoModel AggTwoSpec AggTwoRel AggTwoProofs AggCirProofs.

Lemma bind_inv {A B} (o : outcome A) (f : A -> outcome B) b : bind o f = Ok b -> exists a, o = Ok a /\ f a = Ok b.
Proof. destruct o; cbn [bind]; intros H; try discriminate. eauto. Qed.
Lemma forN_ext {A} (f g : nat -> A -> outcome A) n : forall i, (forall j a, i <= j < i + n -> f j a = g j a) -> forall a, forN i n f a = forN i n g a.
Proof.
  induction n as [|n IH]; intros i H a; [reflexivity|]. cbn [forN]. rewrite H by lia. destruct (g i a); cbn [bind]; auto. apply IH. intros j b Hj. apply H. lia.
Qed.
Lemma forN_pair {A B} (f : nat -> A -> outcome A) (g : nat -> B -> outcome B) n : forall i a b a' b', forN i n f a = Ok a' -> forN i n g b = Ok b' ->
  forN i n (fun j s => do x <- f j (fst s); do y <- g j (snd s); Ok (x, y)) (a, b) = Ok (a', b').
Proof.
  induction n as [|n IH]; intros i a b a' b' H K; cbn [forN] in *; [congruence|].
  apply bind_inv in H. destruct H as (x & Ex & H). apply bind_inv in K. destruct K as (y & Ey & K). cbn [fst snd]. rewrite Ex. cbn [bind]. rewrite Ey. cbn [bind]. apply IH; assumption.
Qed.
Lemma forN_id {B} n : forall i (b : B), forN i n (fun _ s => Ok s) b = Ok b.
Proof. induction n as [|n IH]; intros i b; [reflexivity|]. cbn [forN bind]. apply IH. Qed.
Lemma forN_sim {A B} (Rel : A -> B -> Prop) f g n : forall i, (forall j s c c', i <= j < i + n -> Rel s c -> g j c = Ok c' -> exists s', f j s = Ok s' /\ Rel s' c') ->
  forall s c c', Rel s c -> forN i n g c = Ok c' -> exists s', forN i n f s = Ok s' /\ Rel s' c'.
Proof.
  induction n as [|n IH]; intros i H s c c' HR E; cbn [forN] in *.
  - injection E as <-. exists s. auto.
  - apply bind_inv in E. destruct E as (d & Ed & E). destruct (H i s c d ltac:(lia) HR Ed) as (s' & Es & HR'). rewrite Es. cbn [bind].
    eapply IH; [|exact HR'|exact E]. intros j u v v' Hj. apply H. lia.
Qed.

(* the loops of AggModel, step by step *)
Definition side_up (zero : list bool) ch sh lvl (st : side) : outcome side :=
  do c <- up_check sh lvl st; up_store zero sh lvl st (map2 (cUp ch) (fst c) (snd c)).
Lemma upstream_eq zero ch sh leaves : upstream zero ch sh leaves =
  do levels <- up_init zero sh leaves; forN 0 (length (sSizes sh) - 1) (side_up zero ch sh) (levels, []).
Proof.
  unfold upstream, up_init. cbv zeta.
  match goal with |- bind ?a _ = bind ?b _ => change b with a; destruct a as [levels| | |]; [cbn [bind]|reflexivity|reflexivity|reflexivity] end.
  apply forN_ext. intros lvl st _. unfold side_up, up_check, up_store.
  destruct (get (fst st) lvl) as [ch0| | |]; cbn [bind]; try reflexivity. destruct (get (sSizes sh) lvl); cbn [bind]; try reflexivity.
  destruct (throw_if _); cbn [bind]; try reflexivity. destruct (throw_if _); cbn [bind]; reflexivity.
Qed.
Definition side_down (zero : list bool) ch sh levels cLvl (st : dside) : outcome dside :=
  do c <- down_check sh levels cLvl st;
  let out := map2 (fun lr v => cDown ch (fst lr) (snd lr) v) (combine (fst c) (snd c)) (fst st) in
  down_store zero sh levels cLvl st (map fst out) (map snd out).
Lemma downstream_eq zero ch sh levels root : downstream zero ch sh levels root =
  do st <- forN 0 (length (sSizes sh) - 1) (fun k => side_down zero ch sh levels (length (sSizes sh) - 1 - k - 1)) (root, ([], []));
  Ok (snd st).
Proof.
  unfold downstream. cbv zeta. match goal with |- bind ?a _ = bind ?b _ => replace b with a; [reflexivity|] end.
  apply forN_ext. intros lvl st _. unfold side_down, down_check, down_store. set (cl := length (sSizes sh) - 1 - lvl - 1).
  destruct (get levels cl) as [ch0| | |]; cbn [bind]; try reflexivity. destruct (get (sSizes sh) cl); cbn [bind]; try reflexivity.
  destruct (throw_if _); cbn [bind]; try reflexivity. destruct (throw_if _); cbn [bind]; try reflexivity. destruct (throw_if _); cbn [bind]; reflexivity.
Qed.
Lemma up_check_len sh lvl st c : up_check sh lvl st = Ok c -> length (fst c) = nth lvl (sSizes sh) 0 / 2 /\ length (snd c) = nth lvl (sSizes sh) 0 / 2.
Proof.
  unfold up_check. intros E. apply bind_inv in E. destruct E as (c' & _ & E). apply bind_inv in E. destruct E as (sz & Es & E).
  unfold get in Es. destruct (nth_error (sSizes sh) lvl) as [z|] eqn:En; [|discriminate]. injection Es as ->. rewrite (nth_error_nth _ _ 0 En).
  destruct (length (fst c') =? sz / 2) eqn:E1; cbn [negb throw_if bind] in E; [|discriminate]. destruct (length (snd c') =? sz / 2) eqn:E2; cbn [negb throw_if bind] in E; [|discriminate].
  injection E as ->. split; apply Nat.eqb_eq; assumption.
Qed.
Lemma down_check_len sh levels lvl st c : down_check sh levels lvl st = Ok c ->
  length (fst c) = nth lvl (sSizes sh) 0 / 2 /\ length (snd c) = nth lvl (sSizes sh) 0 / 2 /\ length (fst st) = nth lvl (sSizes sh) 0 / 2.
Proof.
  unfold down_check. intros E. apply bind_inv in E. destruct E as (c' & _ & E). apply bind_inv in E. destruct E as (sz & Es & E).
  unfold get in Es. destruct (nth_error (sSizes sh) lvl) as [z|] eqn:En; [|discriminate]. injection Es as ->. rewrite (nth_error_nth _ _ 0 En).
  destruct (length (fst c') =? sz / 2) eqn:E1; cbn [negb throw_if bind] in E; [|discriminate]. destruct (length (snd c') =? sz / 2) eqn:E2; cbn [negb throw_if bind] in E; [|discriminate].
  destruct (length (fst st) =? sz / 2) eqn:E3; cbn [negb throw_if bind] in E; [|discriminate].
  injection E as ->. repeat split; apply Nat.eqb_eq; assumption.
Qed.
Lemma o3_flagged {A} (R : A -> A -> A -> Prop) b o0 o1 o a0 a1 a : (b = true -> O3 R o0 o1 o) -> (b = false -> R a0 a1 a) -> O3 R (flagged b o0 a0) (flagged b o1 a1) (flagged b o a).
Proof. intros H K. unfold flagged. destruct b; [apply H; reflexivity|apply o3_ok, K; reflexivity]. Qed.

Section K.
Variable k : nat.
Let RV := word_shares k.
Let RE : vent -> vent -> vent -> Prop := P3 RV bit_shares.
Let RS : @split (list bool) -> @split (list bool) -> @split (list bool) -> Prop := P3 (F3 RE) (F3 RE).
Let zero := repeat false k.
Variables f g : list bool -> list bool -> list bool.
Hypothesis FG : forall a b, length a = k -> length b = k -> g a b = f a b.

Lemma rv_len a b c : RV a b c -> length c = k.
Proof. intros (L1 & L2 & ->). rewrite map2_length, L1, L2. apply Nat.min_id. Qed.
Definition ents (l : list vent) : Prop := Forall (fun e => length (fst e) = k) l.
Definition vals (l : list (list bool)) : Prop := Forall (fun e => length e = k) l.
Lemma re_ents a b c : F3 RE a b c -> ents c.
Proof. induction 1 as [|x y z la lb lc [H _] F IH]; constructor; [exact (rv_len H)|exact IH]. Qed.
Lemma rv_vals a b c : F3 RV a b c -> vals c.
Proof. induction 1 as [|x y z la lb lc H F IH]; constructor; [exact (rv_len H)|exact IH]. Qed.

(* the lanes of the way up *)
Lemma up_row_3 a b c a' b' c' : RE a b c -> RE a' b' c' -> lane_shares [k; k; 1; 1] (up_row a a') (up_row b b') (up_row c c').
Proof.
  intros [(A1 & A2 & A3) B] [(A1' & A2' & A3') B']. unfold up_row. split; [cbn [map length]; congruence|]. split; [cbn [map length]; congruence|].
  cbn [map2]. rewrite A3, A3', B, B'. reflexivity.
Qed.
Lemma lane_app_3 s t a b c a' b' c' : lane_shares s a b c -> lane_shares t a' b' c' -> lane_shares (s ++ t) (a ++ a') (b ++ b') (c ++ c').
Proof.
  intros (A1 & A2 & A3) (B1 & B2 & B3). split; [rewrite map_app; congruence|]. split; [rewrite map_app; congruence|]. subst c c'.
  assert (L : length a = length b) by (rewrite <- (map_length (@length bool) a), A1, <- A2, map_length; reflexivity). clear -L.
  revert b L. induction a as [|x a IH]; intros [|y b] L; try discriminate; [reflexivity|]. cbn [app map2]. f_equal. apply IH. cbn [length] in L. lia.
Qed.
Lemma up_lanes_3 ty p0 p1 p s0 s1 s : RS p0 p1 p -> RS s0 s1 s -> F3 (lane_shares (up_ins k ty)) (up_lanes ty p0 s0) (up_lanes ty p1 s1) (up_lanes ty p s).
Proof.
  intros [A B] [C D]. destruct ty; cbn [up_lanes up_ins].
  - eapply f3_map2; [exact up_row_3|exact A|exact B].
  - eapply f3_map2; [exact up_row_3|exact C|exact D].
  - change [k; k; 1; 1; k; k; 1; 1] with ([k; k; 1; 1] ++ [k; k; 1; 1]). eapply f3_map2; [intros; eapply lane_app_3; eassumption| |]; (eapply f3_map2; [exact up_row_3|eassumption|eassumption]).
Qed.
Lemma lane_nth_3 sizes i w a b c : nth_error sizes i = Some w -> lane_shares sizes a b c -> RV (nth i a []) (nth i b []) (nth i c []) \/ w <> k.
Proof.
  intros Hw (A1 & A2 & A3). destruct (Nat.eq_dec w k) as [->|]; [left|auto].
  assert (La : length a = length sizes) by (rewrite <- A1, map_length; reflexivity). assert (Lb : length b = length sizes) by (rewrite <- A2, map_length; reflexivity).
  pose proof (nth_error_lt Hw) as Hi. subst c. split; [|split].
  - apply (f_equal (fun l => nth i l 0)) in A1. rewrite (@nth_map' _ _ (@length bool) a i []) in A1 by lia. rewrite (nth_error_nth _ _ 0 Hw) in A1. exact A1.
  - apply (f_equal (fun l => nth i l 0)) in A2. rewrite (@nth_map' _ _ (@length bool) b i []) in A2 by lia. rewrite (nth_error_nth _ _ 0 Hw) in A2. exact A2.
  - apply nth_error_nth. rewrite nth_error_map2. rewrite (nth_error_nth' a [] (n := i)) by lia. rewrite (nth_error_nth' b [] (n := i)) by lia. reflexivity.
Qed.
Lemma lane_word_3 sizes i a b c : nth_error sizes i = Some k -> lane_shares sizes a b c -> RV (nth i a []) (nth i b []) (nth i c []).
Proof. intros H K. destruct (lane_nth_3 H K); congruence. Qed.
Lemma lane_bit_3 sizes i a b c : nth_error sizes i = Some 1 -> lane_shares sizes a b c -> bit_shares (hd false (nth i a [])) (hd false (nth i b [])) (hd false (nth i c [])).
Proof.
  intros Hw (A1 & A2 & A3).
  assert (La : length a = length sizes) by (rewrite <- A1, map_length; reflexivity). assert (Lb : length b = length sizes) by (rewrite <- A2, map_length; reflexivity).
  pose proof (nth_error_lt Hw) as Hi. subst c.
  apply (f_equal (fun l => nth i l 0)) in A1. rewrite (@nth_map' _ _ (@length bool) a i []) in A1 by lia. rewrite (nth_error_nth _ _ 0 Hw) in A1.
  apply (f_equal (fun l => nth i l 0)) in A2. rewrite (@nth_map' _ _ (@length bool) b i []) in A2 by lia. rewrite (nth_error_nth _ _ 0 Hw) in A2.
  assert (E : nth i (map2 (map2 xorb) a b) [] = map2 xorb (nth i a []) (nth i b [])).
  { apply nth_error_nth. rewrite nth_error_map2. rewrite (nth_error_nth' a [] (n := i)) by lia. rewrite (nth_error_nth' b [] (n := i)) by lia. reflexivity. }
  rewrite E. destruct (nth i a []) as [|x [|]]; try discriminate. destruct (nth i b []) as [|y [|]]; try discriminate. reflexivity.
Qed.
Lemma nth_skip {A} (d : A) l : forall i n, nth i (skipn n l) d = nth (n + i) l d.
Proof. induction l as [|a l IH]; intros i [|n]; cbn [skipn Nat.add]; try reflexivity; [destruct i; reflexivity|]. rewrite IH. reflexivity. Qed.

(* what the outputs of the way up are on values *)
Lemma up_pre_vals lp : forall rp, ents lp -> ents rp -> map lane_ent (map (up_fun f Prefix) (map2 up_row lp rp)) = map2 (cUp (pre_chan g)) lp rp.
Proof.
  induction lp as [|[a x] lp IH]; intros [|[b y] rp] HA HB; cbn [map2 map]; try reflexivity. inversion_clear HA. inversion_clear HB. f_equal; [|apply IH; assumption].
  cbn [fst] in *. cbn. rewrite FG by assumption. reflexivity.
Qed.
Lemma up_suf_vals lp : forall rp, ents lp -> ents rp -> map lane_ent (map (up_fun f Suffix) (map2 up_row lp rp)) = map2 (cUp (suf_chan g)) lp rp.
Proof.
  induction lp as [|[a x] lp IH]; intros [|[b y] rp] HA HB; cbn [map2 map]; try reflexivity. inversion_clear HA. inversion_clear HB. f_equal; [|apply IH; assumption].
  cbn [fst] in *. cbn. rewrite FG by assumption. reflexivity.
Qed.
Lemma up_full_vals lp : forall rp ls rs, length rp = length lp -> length ls = length lp -> length rs = length lp -> ents lp -> ents rp -> ents ls -> ents rs ->
  map lane_ent (map (up_fun f Full) (map2 (@app _) (map2 up_row lp rp) (map2 up_row ls rs))) = map2 (cUp (pre_chan g)) lp rp /\
  map (fun y => lane_ent (skipn 2 y)) (map (up_fun f Full) (map2 (@app _) (map2 up_row lp rp) (map2 up_row ls rs))) = map2 (cUp (suf_chan g)) ls rs.
Proof.
  induction lp as [|[a x] lp IH]; intros [|[b y] rp] [|[c z] ls] [|[d w] rs] L1 L2 L3 HA HB HC HD; try discriminate; [split; reflexivity|]. cbn [map2 map].
  inversion_clear HA. inversion_clear HB. inversion_clear HC. inversion_clear HD. destruct (IH rp ls rs) as (I & J); auto; cbn [length] in *; try lia.
  rewrite I, J. cbn [fst] in *. split; (f_equal; []); cbn; rewrite FG by assumption; reflexivity.
Qed.

Variable ty : agg_type.
Variable sh : shape.
Definition RParty : side * side -> side * side -> side * side -> Prop := P3 (RSide k) (RSide k).
Definition plain_up lvl (st : side * side) : outcome (side * side) :=
  do a <- flagged (has_pre ty) (side_up zero (pre_chan g) sh lvl (fst st)) (fst st);
  do b <- flagged (has_suf ty) (side_up zero (suf_chan g) sh lvl (snd st)) (snd st); Ok (a, b).

Lemma up_step run lvl s c c' :
  run_ok (nth lvl (sSizes sh) 0 / 2) (up_ins k ty) (up_outs k ty) (up_fun f ty) run ->
  RParty (fst s) (snd s) c -> plain_up lvl c = Ok c' ->
  exists x0 x1 y0 y1 s', up_send ty sh lvl (fst s) = Ok x0 /\ up_send ty sh lvl (snd s) = Ok x1 /\ run x0 x1 = Ok (y0, y1) /\
    up_recv zero ty sh lvl (fst s) y0 = Ok (fst s') /\ up_recv zero ty sh lvl (snd s) y1 = Ok (snd s') /\ RParty (fst s') (snd s') c'.
Proof.
  intros HR [HP HS] E. unfold plain_up in E. apply bind_inv in E. destruct E as (a & Ea & E). apply bind_inv in E. destruct E as (b & Eb & E). injection E as <-.
  assert (CP : exists cp, flagged (has_pre ty) (up_check sh lvl (fst c)) ([], []) = Ok cp /\ (has_pre ty = true -> length (fst cp) = nth lvl (sSizes sh) 0 / 2 /\ length (snd cp) = nth lvl (sSizes sh) 0 / 2) /\
     flagged (has_pre ty) (up_store zero sh lvl (fst c) (map2 (cUp (pre_chan g)) (fst cp) (snd cp))) (fst c) = Ok a).
  { unfold flagged in *. destruct (has_pre ty); [|exists ([], []); repeat split; congruence]. unfold side_up in Ea. apply bind_inv in Ea. destruct Ea as (cp & E1 & E2).
    exists cp. split; [exact E1|]. split; [|exact E2]. intros _. eapply up_check_len; exact E1. }
  assert (CS : exists cs, flagged (has_suf ty) (up_check sh lvl (snd c)) ([], []) = Ok cs /\ (has_suf ty = true -> length (fst cs) = nth lvl (sSizes sh) 0 / 2 /\ length (snd cs) = nth lvl (sSizes sh) 0 / 2) /\
     flagged (has_suf ty) (up_store zero sh lvl (snd c) (map2 (cUp (suf_chan g)) (fst cs) (snd cs))) (snd c) = Ok b).
  { unfold flagged in *. destruct (has_suf ty); [|exists ([], []); repeat split; congruence]. unfold side_up in Eb. apply bind_inv in Eb. destruct Eb as (cp & E1 & E2).
    exists cp. split; [exact E1|]. split; [|exact E2]. intros _. eapply up_check_len; exact E1. }
  destruct CP as (cp & P1 & P2 & P3'). destruct CS as (cs & S1 & S2 & S3).
  assert (OP : O3 RS (flagged (has_pre ty) (up_check sh lvl (fst (fst s))) ([], [])) (flagged (has_pre ty) (up_check sh lvl (fst (snd s))) ([], [])) (flagged (has_pre ty) (up_check sh lvl (fst c)) ([], []))).
  { apply o3_flagged; [intros _; apply up_check_3, HP|intros _; exact (@rs_nil k)]. }
  assert (OS : O3 RS (flagged (has_suf ty) (up_check sh lvl (snd (fst s))) ([], [])) (flagged (has_suf ty) (up_check sh lvl (snd (snd s))) ([], [])) (flagged (has_suf ty) (up_check sh lvl (snd c)) ([], []))).
  { apply o3_flagged; [intros _; apply up_check_3, HS|intros _; exact (@rs_nil k)]. }
  destruct (OP _ P1) as (cp0 & cp1 & P01 & P11 & RP). destruct (OS _ S1) as (cs0 & cs1 & S01 & S11 & RSS).
  pose proof (up_lanes_3 ty RP RSS) as HL.
  assert (LN : length (up_lanes ty cp cs) = nth lvl (sSizes sh) 0 / 2).
  { clear - P2 S2. destruct ty; cbn [up_lanes has_pre has_suf] in *.
    - rewrite map2_length. destruct (P2 eq_refl) as [-> ->]. apply Nat.min_id.
    - rewrite map2_length. destruct (S2 eq_refl) as [-> ->]. apply Nat.min_id.
    - rewrite !map2_length. destruct (P2 eq_refl) as [-> ->]. destruct (S2 eq_refl) as [-> ->]. rewrite !Nat.min_id. reflexivity. }
  destruct (HR _ _ _ LN HL) as (y0 & y1 & ER & HY).
  assert (HE : (has_pre ty = true -> F3 RE (map lane_ent y0) (map lane_ent y1) (map2 (cUp (pre_chan g)) (fst cp) (snd cp))) /\
               (has_suf ty = true -> let h := fun y => lane_ent (if has_pre ty then skipn 2 y else y) in F3 RE (map h y0) (map h y1) (map2 (cUp (suf_chan g)) (fst cs) (snd cs)))).
  { destruct RP as [RP1 RP2]. destruct RSS as [RS1 RS2]. pose proof (re_ents RP1) as N1. pose proof (re_ents RP2) as N2. pose proof (re_ents RS1) as N3. pose proof (re_ents RS2) as N4.
    assert (K2 : forall sizes o, nth_error sizes o = Some k -> nth_error sizes (o + 1) = Some 1 -> forall x y z, lane_shares sizes x y z -> RE (lane_ent (skipn o x)) (lane_ent (skipn o y)) (lane_ent (skipn o z))).
    { intros sizes o H1 H2 x y z H. split; cbn [lane_ent fst snd]; rewrite !nth_skip; [|]; [rewrite Nat.add_0_r; exact (lane_word_3 H1 H)|exact (lane_bit_3 H2 H)]. }
    destruct ty; cbn [has_pre has_suf up_lanes up_outs] in *; (split; intros F; try discriminate F; cbv zeta).
    - rewrite <- up_pre_vals by assumption. eapply f3_map; [|exact HY]. exact (K2 [k; 1] 0 eq_refl eq_refl).
    - rewrite <- up_suf_vals by assumption. eapply f3_map; [|exact HY]. exact (K2 [k; 1] 0 eq_refl eq_refl).
    - destruct (P2 eq_refl) as [L1 L2]. destruct (S2 eq_refl) as [L3 L4]. destruct (@up_full_vals (fst cp) (snd cp) (fst cs) (snd cs)) as (V1 & V2); try assumption; try lia.
      rewrite <- V1. eapply f3_map; [|exact HY]. exact (K2 [k; 1; k; 1] 0 eq_refl eq_refl).
    - destruct (P2 eq_refl) as [L1 L2]. destruct (S2 eq_refl) as [L3 L4]. destruct (@up_full_vals (fst cp) (snd cp) (fst cs) (snd cs)) as (V1 & V2); try assumption; try lia.
      rewrite <- V2. eapply f3_map; [|exact HY]. exact (K2 [k; 1; k; 1] 2 eq_refl eq_refl). }
  destruct HE as [HE1 HE2].
  assert (Q1 : O3 (RSide k) (flagged (has_pre ty) (up_store zero sh lvl (fst (fst s)) (map lane_ent y0)) (fst (fst s))) (flagged (has_pre ty) (up_store zero sh lvl (fst (snd s)) (map lane_ent y1)) (fst (snd s)))
     (flagged (has_pre ty) (up_store zero sh lvl (fst c) (map2 (cUp (pre_chan g)) (fst cp) (snd cp))) (fst c))).
  { apply o3_flagged; [intros T; apply up_store_3; [exact HP|exact (HE1 T)]|intros _; exact HP]. }
  assert (Q2 : O3 (RSide k) (flagged (has_suf ty) (up_store zero sh lvl (snd (fst s)) (map (fun y => lane_ent (if has_pre ty then skipn 2 y else y)) y0)) (snd (fst s)))
     (flagged (has_suf ty) (up_store zero sh lvl (snd (snd s)) (map (fun y => lane_ent (if has_pre ty then skipn 2 y else y)) y1)) (snd (snd s)))
     (flagged (has_suf ty) (up_store zero sh lvl (snd c) (map2 (cUp (suf_chan g)) (fst cs) (snd cs))) (snd c))).
  { apply o3_flagged; [intros T; apply up_store_3; [exact HS|exact (HE2 T)]|intros _; exact HS]. }
  destruct (Q1 _ P3') as (a0 & a1 & A0 & A1 & RA). destruct (Q2 _ S3) as (b0 & b1 & B0 & B1 & RB).
  exists (up_lanes ty cp0 cs0), (up_lanes ty cp1 cs1), y0, y1, ((a0, b0), (a1, b1)). unfold up_send, up_recv. rewrite P01, P11, A0, A1. cbn [bind]. rewrite S01, S11, B0, B1. cbn [bind].
  split; [reflexivity|]. split; [reflexivity|]. split; [exact ER|]. split; [reflexivity|]. split; [reflexivity|]. split; assumption.
Qed.
Lemma two_up_ok runs s c c' : (forall lvl, lvl < length (sSizes sh) - 1 -> run_ok (nth lvl (sSizes sh) 0 / 2) (up_ins k ty) (up_outs k ty) (up_fun f ty) (runs lvl)) ->
  RParty (fst s) (snd s) c -> forN 0 (length (sSizes sh) - 1) plain_up c = Ok c' ->
  exists s', two_up zero ty sh runs s = Ok s' /\ RParty (fst s') (snd s') c'.
Proof.
  intros HR HS E. unfold two_up. eapply (@forN_sim _ _ (fun s c => RParty (fst s) (snd s) c)); [|exact HS|exact E].
  intros j u d d' Hj HU ED. destruct (@up_step (runs j) j u d d' (HR j ltac:(lia)) HU ED) as (x0 & x1 & y0 & y1 & s' & E0 & E1 & E2 & E3 & E4 & HF).
  exists s'. rewrite E0. cbn [bind]. rewrite E1. cbn [bind]. rewrite E2. cbn [bind fst snd]. rewrite E3. cbn [bind]. rewrite E4. cbn [bind]. destruct s'. auto.
Qed.
End K.
