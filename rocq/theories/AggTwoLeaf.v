(* The leaves on shares, and the whole tree. *)
From Verif Require Import Base GmwModel GmwSpec ShuffleModel ShuffleSpec AggModel AggCirModel AggCirSpec AggTwoModel AggTwoSpec AggTwoRel AggTwoProofs AggCirProofs AggTwoTree AggTwoDown AggSizeProofs AggLoadProofs AggTreeProofs AggProofs.

Section K.
Variable k : nat.
Let RV := word_shares k.
Let RE : vent -> vent -> vent -> Prop := P3 RV bit_shares.
Let RS : @split (list bool) -> @split (list bool) -> @split (list bool) -> Prop := P3 (F3 RE) (F3 RE).
Let zero := repeat false k.
Variables f g : list bool -> list bool -> list bool.
Hypothesis FG : forall a b, length a = k -> length b = k -> g a b = f a b.
Hypothesis FL : forall a b, length a = k -> length b = k -> length (f a b) = k.
Variables o o' : list bool * bool.

Lemma two_vals_3 a b c a' b' c' : RE a b c -> RE a' b' c' -> lane_shares [k; k] [fst a; fst a'] [fst b; fst b'] [fst c; fst c'].
Proof. intros [(A1 & A2 & A3) B] [(A1' & A2' & A3') B']. split; [cbn [map]; congruence|]. split; [cbn [map]; congruence|]. cbn [map2]. rewrite A3, A3'. reflexivity. Qed.
Lemma two_bits_3 (a b c a' b' c' : vent) : RE a b c -> RE a' b' c' -> lane_shares [1; 1] [[snd a]; [snd a']] [[snd b]; [snd b']] [[snd c]; [snd c']].
Proof. intros [_ B] [_ B']. split; [reflexivity|]. split; [reflexivity|]. cbn [map2]. rewrite B, B'. reflexivity. Qed.
Lemma two_news_3 a b c a' b' c' : RV a b c -> RV a' b' c' -> lane_shares [k; k] [a; a'] [b; b'] [c; c'].
Proof. intros (A1 & A2 & A3) (A1' & A2' & A3'). split; [cbn [map]; congruence|]. split; [cbn [map]; congruence|]. cbn [map2]. rewrite A3, A3'. reflexivity. Qed.
Lemma leaf_lanes_3 ty p0 p1 p s0 s1 s vp0 vp1 vp vs0 vs1 vs : RS p0 p1 p -> RS s0 s1 s -> P3 (F3 RV) (F3 RV) vp0 vp1 vp -> P3 (F3 RV) (F3 RV) vs0 vs1 vs ->
  F3 (lane_shares (leaf_ins k ty)) (leaf_lanes ty p0 s0 vp0 vs0) (leaf_lanes ty p1 s1 vp1 vs1) (leaf_lanes ty p s vp vs).
Proof.
  intros [A B] [C D] [P P'] [Q Q']. unfold leaf_lanes. cbv zeta.
  assert (V1 := f3_map2 two_vals_3 A B). assert (V2 := f3_map2 two_vals_3 C D). assert (B1 := f3_map2 two_bits_3 A B). assert (B2 := f3_map2 two_bits_3 C D).
  assert (N1 := f3_map2 two_news_3 P P'). assert (N2 := f3_map2 two_news_3 Q Q').
  assert (AP : forall s t a b c a' b' c', F3 (lane_shares s) a b c -> F3 (lane_shares t) a' b' c' -> F3 (lane_shares (s ++ t)) (map2 (@app (list bool)) a a') (map2 (@app (list bool)) b b') (map2 (@app (list bool)) c c')).
  { intros s' t a b c a' b' c' H K. eapply f3_map2; [intros; eapply lane_app_3; eassumption|exact H|exact K]. }
  destruct ty; cbn [leaf_ins].
  - exact (AP [k; k] ([k; k] ++ [1; 1]) _ _ _ _ _ _ V1 (AP [k; k] [1; 1] _ _ _ _ _ _ N1 B1)).
  - exact (AP [k; k] ([k; k] ++ [1; 1]) _ _ _ _ _ _ V2 (AP [k; k] [1; 1] _ _ _ _ _ _ N2 B2)).
  - exact (AP [k; k] (([k; k] ++ [1; 1]) ++ ([k; k] ++ [1; 1])) _ _ _ _ _ _ V1 (AP ([k; k] ++ [1; 1]) ([k; k] ++ [1; 1]) _ _ _ _ _ _ (AP [k; k] [1; 1] _ _ _ _ _ _ N1 B1) (AP [k; k] [1; 1] _ _ _ _ _ _ N2 B2))).
Qed.
Lemma leaf_pre_vals suf vs l : forall r v w, length r = length l -> length v = length l -> length w = length l -> ents k l -> ents k r -> vals k v -> vals k w ->
  lane_out 0 (map (leaf_fun f Prefix) (leaf_lanes Prefix (l, r) suf (v, w) vs)) = map2 (leaf_pre g) l v /\
  lane_out 1 (map (leaf_fun f Prefix) (leaf_lanes Prefix (l, r) suf (v, w) vs)) = map2 (leaf_pre g) r w.
Proof.
  unfold leaf_lanes, lane_out. cbv zeta. cbn [fst snd]. induction l as [|[a x] l IH]; intros [|[b y] r] [|c v] [|d w] L1 L2 L3 HA HB HC HD; try discriminate; [split; reflexivity|].
  inversion_clear HA. inversion_clear HB. inversion_clear HC. inversion_clear HD. destruct (IH r v w) as (I & J); auto; cbn [length] in *; try lia. cbn [map2 map]. rewrite I, J. cbn [fst snd] in *.
  split; f_equal; unfold leaf_pre; cbn; rewrite FG by assumption; reflexivity.
Qed.
Lemma leaf_suf_vals pre vp l : forall r v w, length r = length l -> length v = length l -> length w = length l -> ents k l -> ents k r -> vals k v -> vals k w ->
  lane_out 0 (map (leaf_fun f Suffix) (leaf_lanes Suffix pre (l, r) vp (v, w))) = map2 (leaf_suf g) l v /\
  lane_out 1 (map (leaf_fun f Suffix) (leaf_lanes Suffix pre (l, r) vp (v, w))) = map2 (leaf_suf g) r w.
Proof.
  unfold leaf_lanes, lane_out. cbv zeta. cbn [fst snd]. induction l as [|[a x] l IH]; intros [|[b y] r] [|c v] [|d w] L1 L2 L3 HA HB HC HD; try discriminate; [split; reflexivity|].
  inversion_clear HA. inversion_clear HB. inversion_clear HC. inversion_clear HD. destruct (IH r v w) as (I & J); auto; cbn [length] in *; try lia. cbn [map2 map]. rewrite I, J. cbn [fst snd] in *.
  split; f_equal; unfold leaf_suf; cbn; rewrite FG by assumption; reflexivity.
Qed.
Lemma full_eq e p x s : length (fst e) = k -> length p = k -> length s = k -> leaf_full g e p x s = leaf_full f e p x s.
Proof. intros A B C. unfold leaf_full. 
  assert (E1 : g p (fst e) = f p (fst e)) by (apply FG; assumption). assert (E2 : g (fst e) s = f (fst e) s) by (apply FG; assumption).
  assert (E3 : g (f p (fst e)) s = f (f p (fst e)) s) by (apply FG; auto). destruct (snd e), x; rewrite ?E1, ?E2, ?E3; reflexivity.
Qed.
Let lf := fun (a : vent * list bool) (b : vent * list bool) => leaf_full g (fst a) (snd a) (snd (fst b)) (snd b).
Lemma leaf_full_vals l : forall r v w l' r' v' w', length r = length l -> length v = length l -> length w = length l -> length l' = length l -> length r' = length l -> length v' = length l -> length w' = length l ->
  ents k l -> ents k r -> vals k v -> vals k w -> vals k v' -> vals k w' ->
  lane_out 0 (map (leaf_fun f Full) (leaf_lanes Full (l, r) (l', r') (v, w) (v', w'))) = map2 lf (combine l v) (combine l' v') /\
  lane_out 1 (map (leaf_fun f Full) (leaf_lanes Full (l, r) (l', r') (v, w) (v', w'))) = map2 lf (combine r w) (combine r' w').
Proof.
  unfold leaf_lanes, lane_out, lf. cbv zeta. cbn [fst snd]. induction l as [|[a x] l IH]; intros [|[b y] r] [|c v] [|d w] [|[a' x'] l'] [|[b' y'] r'] [|c' v'] [|d' w'] L1 L2 L3 L4 L5 L6 L7 HA HB HC HD HE HF; try discriminate; [split; reflexivity|].
  inversion_clear HA. inversion_clear HB. inversion_clear HC. inversion_clear HD. inversion_clear HE. inversion_clear HF.
  destruct (IH r v w l' r' v' w') as (I & J); auto; cbn [length] in *; try lia. cbn [map2 map combine]. rewrite I, J. cbn [fst snd] in *.
  split; f_equal; cbn [fst snd]; rewrite full_eq by assumption; reflexivity.
Qed.

Lemma chan_inv ch sh leaves nv : channel zero ch sh leaves = Ok nv -> exists lv u st, up_init zero sh leaves = Ok lv /\
  forN 0 (length (sSizes sh) - 1) (side_up zero ch sh) (lv, []) = Ok u /\
  forN 0 (length (sSizes sh) - 1) (fun i => side_down zero ch sh (fst u) (length (sSizes sh) - 1 - i - 1)) (map fst (snd u), ([], [])) = Ok st /\ nv = snd st.
Proof.
  unfold channel. rewrite upstream_eq. intros E. apply bind_inv in E. destruct E as (u & E1 & E2). apply bind_inv in E1. destruct E1 as (lv & E0 & E1).
  rewrite downstream_eq in E2. apply bind_inv in E2. destruct E2 as (st & E2 & E3). injection E3 as <-. exists lv, u, st. auto.
Qed.
Lemma lanes2_inv {A B C} n (h : A -> B -> C) l m r : lanes2 n h l m = Ok r -> length l = n /\ length m = n /\ r = map2 h l m.
Proof.
  unfold lanes2. destruct (length l =? n) eqn:E1; cbn [negb throw_if bind]; [|discriminate]. destruct (length m =? n) eqn:E2; cbn [negb throw_if bind]; [|discriminate].
  intros E. injection E as <-. split; [|split; [|reflexivity]]; apply Nat.eqb_eq; assumption.
Qed.

(* a successful run of the tree on values, both directions in step *)
Definition plain_run ty sh src ctrl res : Prop := exists a b la lb u d,
  flagged (has_pre ty) (load_pre zero (sN16 sh) src ctrl) ([], []) = Ok a /\ flagged (has_suf ty) (load_suf zero (sN16 sh) src ctrl) ([], []) = Ok b /\
  flagged (has_pre ty) (up_init zero sh a) [] = Ok la /\ flagged (has_suf ty) (up_init zero sh b) [] = Ok lb /\
  forN 0 (length (sSizes sh) - 1) (plain_up k g ty sh) ((la, []), (lb, [])) = Ok u /\
  forN 0 (length (sSizes sh) - 1) (fun i => plain_down k g ty sh (fst (fst u), fst (snd u)) (length (sSizes sh) - 1 - i - 1)) (down_start u) = Ok d /\
  let h := sN16 sh / 2 in
  (has_pre ty = true -> length (fst a) = h /\ length (snd a) = h /\ length (fst (snd (fst d))) = h /\ length (snd (snd (fst d))) = h) /\
  (has_suf ty = true -> length (fst b) = h /\ length (snd b) = h /\ length (fst (snd (snd d))) = h /\ length (snd (snd (snd d))) = h) /\
  exists l r, leaf_rows zero (sN sh) l r = Ok res /\
    (has_pre ty = true -> has_suf ty = false -> l = map2 (leaf_pre g) (fst a) (fst (snd (fst d))) /\ r = map2 (leaf_pre g) (snd a) (snd (snd (fst d)))) /\
    (has_pre ty = false -> has_suf ty = true -> l = map2 (leaf_suf g) (fst b) (fst (snd (snd d))) /\ r = map2 (leaf_suf g) (snd b) (snd (snd (snd d)))) /\
    (has_pre ty = true -> has_suf ty = true -> l = map2 lf (combine (fst a) (fst (snd (fst d)))) (combine (fst b) (fst (snd (snd d)))) /\
       r = map2 lf (combine (snd a) (snd (snd (fst d)))) (combine (snd b) (snd (snd (snd d))))).
Lemma plain_ok ty src ctrl res : 2 <= length src -> agg_apply ty g zero src ctrl = Ok res -> exists sh, tree_sizes (length src) = Ok sh /\ length src = length ctrl /\ plain_run ty sh src ctrl res.
Proof.
  intros H2. unfold agg_apply. intros E. apply bind_inv in E. destruct E as (sh & Es & E). exists sh. split; [exact Es|].
  destruct (length src =? length ctrl) eqn:EL; cbn [negb throw_if bind] in E; [|discriminate]. split; [apply Nat.eqb_eq; exact EL|]. destruct ty.
  - apply bind_inv in E. destruct E as (a & Ea & E). apply bind_inv in E. destruct E as (nv & En & E). destruct (chan_inv En) as (la & u & st & U1 & U2 & U3 & ->).
    apply bind_inv in E. destruct E as (l & El & E). apply bind_inv in E. destruct E as (r & Er & E). apply lanes2_inv in El. destruct El as (K1 & K2 & ->). apply lanes2_inv in Er. destruct Er as (K3 & K4 & ->).
    exists a, ([], []), la, [], (u, ([], [])), (st, ([], ([], []))). split; [exact Ea|]. split; [reflexivity|]. split; [exact U1|]. split; [reflexivity|].
    split; [exact (@forN_pair _ _ (side_up zero (pre_chan g) sh) (fun _ s => Ok s) _ _ _ _ _ _ U2 (@forN_id _ _ _ _))|]. split; [exact (@forN_pair _ _ (fun i => side_down zero (pre_chan g) sh (fst u) (length (sSizes sh) - 1 - i - 1)) (fun _ s => Ok s) _ _ _ _ _ _ U3 (@forN_id _ _ _ _))|].
    cbn [fst snd has_pre has_suf]. split; [auto|]. split; [discriminate|]. do 2 eexists. split; [exact E|]. split; [auto|]. split; discriminate.
  - apply bind_inv in E. destruct E as (a & Ea & E). apply bind_inv in E. destruct E as (nv & En & E). destruct (chan_inv En) as (la & u & st & U1 & U2 & U3 & ->).
    apply bind_inv in E. destruct E as (l & El & E). apply bind_inv in E. destruct E as (r & Er & E). apply lanes2_inv in El. destruct El as (K1 & K2 & ->). apply lanes2_inv in Er. destruct Er as (K3 & K4 & ->).
    exists ([], []), a, [], la, (([], []), u), (([], ([], [])), st). split; [reflexivity|]. split; [exact Ea|]. split; [reflexivity|]. split; [exact U1|].
    split; [exact (@forN_pair _ _ (fun _ s => Ok s) (side_up zero (suf_chan g) sh) _ _ _ _ _ _ (@forN_id _ _ _ _) U2)|]. split; [exact (@forN_pair _ _ (fun _ s => Ok s) (fun i => side_down zero (suf_chan g) sh (fst u) (length (sSizes sh) - 1 - i - 1)) _ _ _ _ _ _ (@forN_id _ _ _ _) U3)|].
    cbn [fst snd has_pre has_suf]. split; [discriminate|]. split; [auto|]. do 2 eexists. split; [exact E|]. split; [discriminate|]. split; [auto|discriminate].
  - apply bind_inv in E. destruct E as (a & Ea & E). apply bind_inv in E. destruct E as (b & Eb & E). apply bind_inv in E. destruct E as (nv & En & E). destruct (chan_inv En) as (la & u & st & U1 & U2 & U3 & ->).
    apply bind_inv in E. destruct E as (nv' & En' & E). destruct (chan_inv En') as (la' & u' & st' & U1' & U2' & U3' & ->). cbv zeta in E. apply bind_inv in E. destruct E as (t & ET & E).
    destruct ((length (fst (snd st)) =? sN16 sh / 2) && (length (snd (snd st)) =? sN16 sh / 2) && (length (fst (snd st')) =? sN16 sh / 2) && (length (snd (snd st')) =? sN16 sh / 2)) eqn:EB; cbn [negb throw_if] in ET; [|discriminate]. clear ET t.
    apply andb_true_iff in EB. destruct EB as [EB B4]. apply andb_true_iff in EB. destruct EB as [EB B3]. apply andb_true_iff in EB. destruct EB as [B1 B2]. apply Nat.eqb_eq in B1, B2, B3, B4.
    apply bind_inv in E. destruct E as (l & El & E). apply bind_inv in E. destruct E as (r & Er & E). apply lanes2_inv in El. destruct El as (K1 & K2 & ->). apply lanes2_inv in Er. destruct Er as (K3 & K4 & ->).
    rewrite combine_length in K1, K2, K3, K4.
    destruct (tree_sizes_ok H2) as [sh' [Es' HF]]. assert (sh' = sh) by congruence. subst sh'. apply Nat.eqb_eq in EL.
    destruct (facts_half HF) as [EN [Hle [h Eh]]]. rewrite Eh in Hle, Ea, Eb.
    rewrite (@load_pre_ok _ zero h src ctrl EL Hle) in Ea. rewrite (@load_suf_ok _ zero h src ctrl EL H2 Hle) in Eb.
    destruct (@evens_length _ (pre_leaves zero (2 * h) src ctrl) h) as [LA1 LA2]; [apply pre_leaves_length; assumption|].
    destruct (@evens_length _ (suf_leaves zero (2 * h) src ctrl) h) as [LB1 LB2]; [apply suf_leaves_length; lia|].
    assert (EH : sN16 sh / 2 = h) by (rewrite Eh, Nat.mul_comm; apply Nat.div_mul; lia).
    assert (LA : length (fst a) = h /\ length (snd a) = h) by (injection Ea as <-; cbn [fst snd]; auto).
    assert (LB : length (fst b) = h /\ length (snd b) = h) by (injection Eb as <-; cbn [fst snd]; auto).
    rewrite <- (@load_pre_ok _ zero h src ctrl EL Hle), <- Eh in Ea. rewrite <- (@load_suf_ok _ zero h src ctrl EL H2 Hle), <- Eh in Eb.
    rewrite EH in B1, B2, B3, B4.
    exists a, b, la, la', (u, u'), (st, st'). split; [exact Ea|]. split; [exact Eb|]. split; [exact U1|]. split; [exact U1'|].
    split; [exact (@forN_pair _ _ (side_up zero (pre_chan g) sh) (side_up zero (suf_chan g) sh) _ _ _ _ _ _ U2 U2')|]. split; [exact (@forN_pair _ _ (fun i => side_down zero (pre_chan g) sh (fst u) (length (sSizes sh) - 1 - i - 1)) (fun i => side_down zero (suf_chan g) sh (fst u') (length (sSizes sh) - 1 - i - 1)) _ _ _ _ _ _ U3 U3')|].
    cbn [fst snd has_pre has_suf]. cbv zeta. rewrite EH. split; [tauto|]. split; [tauto|]. do 2 eexists. split; [exact E|]. split; [discriminate|]. split; [discriminate|]. auto.
Qed.

Variable ty : agg_type.
Lemma leaf_check_ok sh (x : @split (list bool)) v h : sN16 sh / 2 = h -> length (fst x) = h -> length (snd x) = h -> length (fst v) = h -> length (snd v) = h -> leaf_check sh x v = Ok tt.
Proof. intros E A B C D. unfold leaf_check. rewrite E, A, B, C, D, Nat.eqb_refl. reflexivity. Qed.
(* the leaf run of the plain computation on shares *)
Definition plain_leaf (sh : shape) (a b : @split (list bool)) (d : dside * dside) (res : list (list bool)) : Prop :=
  let h := sN16 sh / 2 in
  (has_pre ty = true -> length (fst a) = h /\ length (snd a) = h /\ length (fst (snd (fst d))) = h /\ length (snd (snd (fst d))) = h) /\
  (has_suf ty = true -> length (fst b) = h /\ length (snd b) = h /\ length (fst (snd (snd d))) = h /\ length (snd (snd (snd d))) = h) /\
  exists l r, leaf_rows zero (sN sh) l r = Ok res /\
    (has_pre ty = true -> has_suf ty = false -> l = map2 (leaf_pre g) (fst a) (fst (snd (fst d))) /\ r = map2 (leaf_pre g) (snd a) (snd (snd (fst d)))) /\
    (has_pre ty = false -> has_suf ty = true -> l = map2 (leaf_suf g) (fst b) (fst (snd (snd d))) /\ r = map2 (leaf_suf g) (snd b) (snd (snd (snd d)))) /\
    (has_pre ty = true -> has_suf ty = true -> l = map2 lf (combine (fst a) (fst (snd (fst d)))) (combine (fst b) (fst (snd (snd d)))) /\
       r = map2 lf (combine (snd a) (snd (snd (fst d)))) (combine (snd b) (snd (snd (snd d))))).
Lemma leaf_step sh leaf a0 a1 a b0 b1 b t d res :
  run_ok (sN16 sh / 2) (leaf_ins k ty) (leaf_outs k) (leaf_fun f ty) leaf ->
  RS a0 a1 a -> RS b0 b1 b -> RDP k (fst t) (snd t) d -> plain_leaf sh a b d res ->
  exists x0 x1 y0 y1 o0 o1, leaf_send ty sh (a0, b0) (fst t) = Ok x0 /\ leaf_send ty sh (a1, b1) (snd t) = Ok x1 /\ leaf x0 x1 = Ok (y0, y1) /\
    leaf_rows zero (sN sh) (lane_out 0 y0) (lane_out 1 y0) = Ok o0 /\ leaf_rows zero (sN sh) (lane_out 0 y1) (lane_out 1 y1) = Ok o1 /\ F3 RV o0 o1 res.
Proof.
  intros HL RA RB HT (N1 & N2 & l & r & E7 & C1 & C2 & C3). destruct HT as [[T1 T2] [T3 T4]].
  pose proof (leaf_lanes_3 ty RA RB T2 T4) as HLL.
  assert (LN : length (leaf_lanes ty a b (snd (fst d)) (snd (snd d))) = sN16 sh / 2).
  { clear - N1 N2. unfold leaf_lanes. cbv zeta. destruct ty; cbn [has_pre has_suf] in *; rewrite !map2_length.
    - destruct (N1 eq_refl) as (-> & -> & -> & ->). rewrite !Nat.min_id. reflexivity.
    - destruct (N2 eq_refl) as (-> & -> & -> & ->). rewrite !Nat.min_id. reflexivity.
    - destruct (N1 eq_refl) as (-> & -> & -> & ->). destruct (N2 eq_refl) as (-> & -> & -> & ->). rewrite !Nat.min_id. reflexivity. }
  destruct (HL _ _ _ LN HLL) as (y0 & y1 & EY & HY).
  assert (HR : F3 RV (lane_out 0 y0) (lane_out 0 y1) l /\ F3 RV (lane_out 1 y0) (lane_out 1 y1) r).
  { assert (K2 : forall i, nth_error (leaf_outs k) i = Some k -> F3 RV (lane_out i y0) (lane_out i y1) (lane_out i (map (leaf_fun f ty) (leaf_lanes ty a b (snd (fst d)) (snd (snd d)))))).
    { intros i Hi. unfold lane_out. eapply f3_map; [|exact HY]. intros x y z H. exact (lane_word_3 FG Hi H). }
    pose proof (K2 0 eq_refl) as K0. pose proof (K2 1 eq_refl) as K1. clear K2.
    destruct RA as [RA1 RA2]. destruct RB as [RB1 RB2]. destruct T2 as [T21 T22]. destruct T4 as [T41 T42].
    pose proof (re_ents RA1). pose proof (re_ents RA2). pose proof (re_ents RB1). pose proof (re_ents RB2). pose proof (rv_vals T21). pose proof (rv_vals T22). pose proof (rv_vals T41). pose proof (rv_vals T42).
    clear HL HLL EY HY LN.
    destruct a as [al ar]. destruct b as [bl br]. destruct d as [[dp [dl dr]] [ds [el er]]]. cbn [fst snd] in *. destruct ty; cbn [has_pre has_suf] in *.
    - destruct (C1 eq_refl eq_refl) as [-> ->]. destruct (N1 eq_refl) as (L1 & L2 & L3 & L4).
      destruct (@leaf_pre_vals (bl, br) (el, er) al ar dl dr) as (V1 & V2); try assumption; try lia. rewrite V1 in K0. rewrite V2 in K1. auto.
    - destruct (C2 eq_refl eq_refl) as [-> ->]. destruct (N2 eq_refl) as (L1 & L2 & L3 & L4).
      destruct (@leaf_suf_vals (al, ar) (dl, dr) bl br el er) as (V1 & V2); try assumption; try lia. rewrite V1 in K0. rewrite V2 in K1. auto.
    - destruct (C3 eq_refl eq_refl) as [-> ->]. destruct (N1 eq_refl) as (L1 & L2 & L3 & L4). destruct (N2 eq_refl) as (L5 & L6 & L7 & L8).
      destruct (@leaf_full_vals al ar dl dr bl br el er) as (V1 & V2); try assumption; try lia. rewrite V1 in K0. rewrite V2 in K1. auto. }
  destruct HR as [HR1 HR2]. destruct (@leaf_rows_3 _ (sN sh) _ _ _ _ _ _ HR1 HR2 _ E7) as (o0 & o1 & EO0 & EO1 & HO).
  assert (CK : forall (x : @split (list bool) * @split (list bool)) (q : dside * dside),
     (has_pre ty = true -> length (fst (fst x)) = sN16 sh / 2 /\ length (snd (fst x)) = sN16 sh / 2 /\ length (fst (snd (fst q))) = sN16 sh / 2 /\ length (snd (snd (fst q))) = sN16 sh / 2) ->
     (has_suf ty = true -> length (fst (snd x)) = sN16 sh / 2 /\ length (snd (snd x)) = sN16 sh / 2 /\ length (fst (snd (snd q))) = sN16 sh / 2 /\ length (snd (snd (snd q))) = sN16 sh / 2) ->
     leaf_send ty sh x q = Ok (leaf_lanes ty (fst x) (snd x) (snd (fst q)) (snd (snd q)))).
  { intros x q M1 M2. unfold leaf_send, flagged. destruct (has_pre ty); [destruct (M1 eq_refl) as (Q1 & Q2 & Q3 & Q4); rewrite (@leaf_check_ok sh _ _ _ eq_refl Q1 Q2 Q3 Q4)|]; cbn [bind];
    (destruct (has_suf ty); [destruct (M2 eq_refl) as (Q5 & Q6 & Q7 & Q8); rewrite (@leaf_check_ok sh _ _ _ eq_refl Q5 Q6 Q7 Q8)|]); reflexivity. }
  exists (leaf_lanes ty a0 b0 (snd (fst (fst t))) (snd (snd (fst t)))), (leaf_lanes ty a1 b1 (snd (fst (snd t))) (snd (snd (snd t)))), y0, y1, o0, o1.
  destruct RA as [RA1 RA2]. destruct RB as [RB1 RB2]. destruct T2 as [T21 T22]. destruct T4 as [T41 T42].
  split; [apply (CK (a0, b0) (fst t)); cbn [fst snd]; rewrite ?(f3_len0 RA1), ?(f3_len0 RA2), ?(f3_len0 RB1), ?(f3_len0 RB2), ?(f3_len0 T21), ?(f3_len0 T22), ?(f3_len0 T41), ?(f3_len0 T42); assumption|].
  split; [apply (CK (a1, b1) (snd t)); cbn [fst snd]; rewrite ?(f3_len1 RA1), ?(f3_len1 RA2), ?(f3_len1 RB1), ?(f3_len1 RB2), ?(f3_len1 T21), ?(f3_len1 T22), ?(f3_len1 T41), ?(f3_len1 T42); assumption|].
  auto.
Qed.
Theorem two_ok src0 src1 src ctrl0 ctrl1 ctrl res sh ups downs leaf : 2 <= length src ->
  F3 RV src0 src1 src -> F3 bit_shares ctrl0 ctrl1 ctrl -> tree_sizes (length src) = Ok sh ->
  (forall lvl, lvl < length (sSizes sh) - 1 -> run_ok (nth lvl (sSizes sh) 0 / 2) (up_ins k ty) (up_outs k ty) (up_fun f ty) (ups lvl)) ->
  (forall lvl, lvl < length (sSizes sh) - 1 -> run_ok (nth lvl (sSizes sh) 0 / 2) (down_ins k ty) (down_outs k ty) (down_fun f o o' ty) (downs lvl)) ->
  run_ok (sN16 sh / 2) (leaf_ins k ty) (leaf_outs k) (leaf_fun f ty) leaf ->
  agg_apply ty g zero src ctrl = Ok res ->
  exists o0 o1, agg_two ty zero ups downs leaf src0 src1 ctrl0 ctrl1 = Ok (o0, o1) /\ F3 RV o0 o1 res.
Proof.
  intros H2 HS HC Es HU HD HL E. destruct (plain_ok H2 E) as (sh' & Es' & EL & a & b & la & lb & u & d & E1 & E2 & E3 & E4 & E5 & E6 & N1 & N2 & l & r & E7 & C1 & C2 & C3).
  assert (sh' = sh) by congruence. subst sh'. clear Es' E.
  pose proof (@o3_flagged _ RS (has_pre ty) _ _ _ ([], []) ([], []) ([], []) (fun _ => @load_pre_3 _ (sN16 sh) _ _ _ _ _ _ HS HC) (fun _ => @rs_nil k)) as O1.
  pose proof (@o3_flagged _ RS (has_suf ty) _ _ _ ([], []) ([], []) ([], []) (fun _ => @load_suf_3 _ (sN16 sh) _ _ _ _ _ _ HS HC) (fun _ => @rs_nil k)) as O2.
  destruct (O1 _ E1) as (a0 & a1 & A0 & A1 & RA). destruct (O2 _ E2) as (b0 & b1 & B0 & B1 & RB). clear O1 O2.
  pose proof (@o3_flagged _ (F3 RS) (has_pre ty) _ _ _ [] [] [] (fun _ => @up_init_3 _ sh _ _ _ RA) (fun _ => f3_nil RS)) as O1.
  pose proof (@o3_flagged _ (F3 RS) (has_suf ty) _ _ _ [] [] [] (fun _ => @up_init_3 _ sh _ _ _ RB) (fun _ => f3_nil RS)) as O2.
  destruct (O1 _ E3) as (la0 & la1 & LA0 & LA1 & RLA). destruct (O2 _ E4) as (lb0 & lb1 & LB0 & LB1 & RLB). clear O1 O2.
  destruct (@two_up_ok k f g FG ty sh ups (((la0, []), (lb0, [])), ((la1, []), (lb1, []))) ((la, []), (lb, [])) u HU) as (s & ES & HP); [|exact E5|].
  { split; split; cbn [fst snd]; try assumption; apply f3_nil. }
  destruct HP as [[P1 P2] [P3' P4]].
  set (lv := fun p : side * side => (fst (fst p), fst (snd p))).
  destruct (@two_down_ok k f g FG o o' ty sh downs (lv (fst s)) (lv (snd s)) (lv u) (down_start (fst s), down_start (snd s)) (down_start u) d HD) as (t & ET & HT); [| |exact E6|].
  { split; assumption. }
  { split; (split; [|split; apply f3_nil]); cbn [down_start fst snd]; (eapply f3_map; [|eassumption]; intros x y z [H _]; exact H). }
  destruct (@leaf_step sh leaf a0 a1 a b0 b1 b t d res HL RA RB HT (conj N1 (conj N2 (ex_intro _ l (ex_intro _ r (conj E7 (conj C1 (conj C2 C3)))))))) as (x0 & x1 & y0 & y1 & o0 & o1 & X0 & X1 & EY & EO0 & EO1 & HO).
  exists o0, o1. split; [|exact HO].
  unfold agg_two. rewrite (f3_len0 HS), Es. cbn [bind]. rewrite (f3_len1 HS), (f3_len0 HC), (f3_len1 HC), EL, Nat.eqb_refl. cbn [negb throw_if bind].
  unfold two_load, zero. rewrite A0. cbn [bind]. rewrite B0. cbn [bind]. rewrite LA0. cbn [bind]. rewrite LB0. cbn [bind]. rewrite A1. cbn [bind]. rewrite B1. cbn [bind]. rewrite LA1. cbn [bind]. rewrite LB1. cbn [bind fst snd].
  refine (eq_trans (f_equal (fun z => bind z _) ES) _). cbn [bind]. cbv zeta. refine (eq_trans (f_equal (fun z => bind z _) ET) _). cbn [bind fst snd].
  rewrite X0. cbn [bind]. rewrite X1. cbn [bind fst snd].
  rewrite EY. cbn [bind fst snd]. unfold zero in EO0, EO1. rewrite EO0. cbn [bind]. rewrite EO1. reflexivity.
Qed.

End K.
