(* The way down and the leaves on shares, and the whole tree. *)
From Verif Require Import Base GmwModel GmwSpec ShuffleModel ShuffleSpec AggModel AggCirModel AggCirSpec AggTwoModel AggTwoSpec AggTwoRel AggTwoProofs AggCirProofs AggTwoTree.

Section K.
Variable k : nat.
Let RV := word_shares k.
Let RE : vent -> vent -> vent -> Prop := P3 RV bit_shares.
Let RS : @split (list bool) -> @split (list bool) -> @split (list bool) -> Prop := P3 (F3 RE) (F3 RE).
Let zero := repeat false k.
Variables f g : list bool -> list bool -> list bool.
Hypothesis FG : forall a b, length a = k -> length b = k -> g a b = f a b.
Variables o o' : list bool * bool.

Lemma down_row_3 a b c a' b' c' : RE a b c -> RV a' b' c' -> lane_shares [k; 1; k] (down_row a a') (down_row b b') (down_row c c').
Proof.
  intros [(A1 & A2 & A3) B] (A1' & A2' & A3'). unfold down_row. split; [cbn [map length]; congruence|]. split; [cbn [map length]; congruence|].
  cbn [map2]. rewrite A3, A3', B. reflexivity.
Qed.
Lemma down_lanes_3 ty p0 p1 p s0 s1 s vp0 vp1 vp vs0 vs1 vs : RS p0 p1 p -> RS s0 s1 s -> F3 RV vp0 vp1 vp -> F3 RV vs0 vs1 vs ->
  F3 (lane_shares (down_ins k ty)) (down_lanes ty p0 s0 vp0 vs0) (down_lanes ty p1 s1 vp1 vs1) (down_lanes ty p s vp vs).
Proof.
  intros [A B] [C D] P S. destruct ty; cbn [down_lanes down_ins].
  - eapply f3_map2; [exact down_row_3|exact A|exact P].
  - eapply f3_map2; [exact down_row_3|exact D|exact S].
  - change [k; 1; k; k; 1; k] with ([k; 1; k] ++ [k; 1; k]). eapply f3_map2; [intros; eapply lane_app_3; eassumption| |]; (eapply f3_map2; [exact down_row_3|eassumption|eassumption]).
Qed.
Let dn ch (c : @split (list bool)) (v : list (list bool)) := map2 (fun lr v => cDown ch (fst lr) (snd lr) v) (combine (fst c) (snd c)) v.
Lemma down_pre_vals lp : forall rp v, length rp = length lp -> length v = length lp -> ents k lp -> vals k v ->
  lane_out 0 (map (down_fun f o o' Prefix) (map2 down_row lp v)) = map fst (dn (pre_chan g) (lp, rp) v) /\
  lane_out 1 (map (down_fun f o o' Prefix) (map2 down_row lp v)) = map snd (dn (pre_chan g) (lp, rp) v).
Proof.
  unfold dn, lane_out. cbn [fst snd]. induction lp as [|[a x] lp IH]; intros [|r rp] [|w v] L1 L2 HA HB; try discriminate; [split; reflexivity|].
  inversion_clear HA. inversion_clear HB. destruct (IH rp v) as (I & J); auto; cbn [length] in *; try lia. cbn [combine map2 map]. rewrite I, J. cbn [fst] in *.
  split; f_equal; cbn; try rewrite FG by assumption; reflexivity.
Qed.
Lemma down_suf_vals rp : forall lp v, length lp = length rp -> length v = length rp -> ents k rp -> vals k v ->
  lane_out 0 (map (down_fun f o o' Suffix) (map2 down_row rp v)) = map fst (dn (suf_chan g) (lp, rp) v) /\
  lane_out 1 (map (down_fun f o o' Suffix) (map2 down_row rp v)) = map snd (dn (suf_chan g) (lp, rp) v).
Proof.
  unfold dn, lane_out. cbn [fst snd]. induction rp as [|[a x] rp IH]; intros [|r lp] [|w v] L1 L2 HA HB; try discriminate; [split; reflexivity|].
  inversion_clear HA. inversion_clear HB. destruct (IH lp v) as (I & J); auto; cbn [length] in *; try lia. cbn [combine map2 map]. rewrite I, J. cbn [fst] in *.
  split; f_equal; cbn; try rewrite FG by assumption; reflexivity.
Qed.
Lemma down_full_vals lp : forall rp v ls rs u, length rp = length lp -> length v = length lp -> length ls = length lp -> length rs = length lp -> length u = length lp ->
  ents k lp -> vals k v -> ents k rs -> vals k u ->
  let ys := map (down_fun f o o' Full) (map2 (@app _) (map2 down_row lp v) (map2 down_row rs u)) in
  (lane_out 0 ys = map fst (dn (pre_chan g) (lp, rp) v) /\ lane_out 1 ys = map snd (dn (pre_chan g) (lp, rp) v)) /\
  lane_out 2 ys = map fst (dn (suf_chan g) (ls, rs) u) /\ lane_out 3 ys = map snd (dn (suf_chan g) (ls, rs) u).
Proof.
  unfold dn, lane_out. cbv zeta. cbn [fst snd]. induction lp as [|[a x] lp IH]; intros [|r rp] [|w v] [|l ls] [|[b y] rs] [|z u] L1 L2 L3 L4 L5 HA HB HC HD; try discriminate; [repeat split; reflexivity|].
  inversion_clear HA. inversion_clear HB. inversion_clear HC. inversion_clear HD. destruct (IH rp v ls rs u) as ((I & J) & I' & J'); auto; cbn [length] in *; try lia. cbn [combine map2 map]. rewrite I, J, I', J'. cbn [fst] in *.
  repeat split; f_equal; cbn; try rewrite FG by assumption; reflexivity.
Qed.

Variable ty : agg_type.
Variable sh : shape.
Definition RDP : dside * dside -> dside * dside -> dside * dside -> Prop := P3 (RD k) (RD k).
Definition RLv : list (@split (list bool)) * list (@split (list bool)) -> _ -> _ -> Prop := P3 (F3 RS) (F3 RS).
Definition plain_down (lv : list (@split (list bool)) * list (@split (list bool))) cLvl (st : dside * dside) : outcome (dside * dside) :=
  do a <- flagged (has_pre ty) (side_down zero (pre_chan g) sh (fst lv) cLvl (fst st)) (fst st);
  do b <- flagged (has_suf ty) (side_down zero (suf_chan g) sh (snd lv) cLvl (snd st)) (snd st); Ok (a, b).

Lemma down_step run lvl l0 l1 lv s c c' :
  run_ok (nth lvl (sSizes sh) 0 / 2) (down_ins k ty) (down_outs k ty) (down_fun f o o' ty) run ->
  RLv l0 l1 lv -> RDP (fst s) (snd s) c -> plain_down lv lvl c = Ok c' ->
  exists x0 x1 y0 y1 s', down_send ty sh l0 lvl (fst s) = Ok x0 /\ down_send ty sh l1 lvl (snd s) = Ok x1 /\ run x0 x1 = Ok (y0, y1) /\
    down_recv zero ty sh l0 lvl (fst s) y0 = Ok (fst s') /\ down_recv zero ty sh l1 lvl (snd s) y1 = Ok (snd s') /\ RDP (fst s') (snd s') c'.
Proof.
  intros HR [HL1 HL2] [HP HS] E. unfold plain_down in E. apply bind_inv in E. destruct E as (a & Ea & E). apply bind_inv in E. destruct E as (b & Eb & E). injection E as <-.
  set (n := nth lvl (sSizes sh) 0 / 2) in *.
  assert (CP : exists cp, flagged (has_pre ty) (down_check sh (fst lv) lvl (fst c)) ([], []) = Ok cp /\ (has_pre ty = true -> length (fst cp) = n /\ length (snd cp) = n /\ length (fst (fst c)) = n) /\
     flagged (has_pre ty) (down_store zero sh (fst lv) lvl (fst c) (map fst (dn (pre_chan g) cp (fst (fst c)))) (map snd (dn (pre_chan g) cp (fst (fst c))))) (fst c) = Ok a).
  { unfold flagged in *. destruct (has_pre ty); [|exists ([], []); repeat split; congruence]. unfold side_down in Ea. apply bind_inv in Ea. destruct Ea as (cp & E1 & E2).
    exists cp. split; [exact E1|]. split; [|exact E2]. intros _. eapply down_check_len; exact E1. }
  assert (CS : exists cs, flagged (has_suf ty) (down_check sh (snd lv) lvl (snd c)) ([], []) = Ok cs /\ (has_suf ty = true -> length (fst cs) = n /\ length (snd cs) = n /\ length (fst (snd c)) = n) /\
     flagged (has_suf ty) (down_store zero sh (snd lv) lvl (snd c) (map fst (dn (suf_chan g) cs (fst (snd c)))) (map snd (dn (suf_chan g) cs (fst (snd c))))) (snd c) = Ok b).
  { unfold flagged in *. destruct (has_suf ty); [|exists ([], []); repeat split; congruence]. unfold side_down in Eb. apply bind_inv in Eb. destruct Eb as (cp & E1 & E2).
    exists cp. split; [exact E1|]. split; [|exact E2]. intros _. eapply down_check_len; exact E1. }
  destruct CP as (cp & P1 & P2 & P3'). destruct CS as (cs & S1 & S2 & S3).
  assert (OP : O3 RS (flagged (has_pre ty) (down_check sh (fst l0) lvl (fst (fst s))) ([], [])) (flagged (has_pre ty) (down_check sh (fst l1) lvl (fst (snd s))) ([], [])) (flagged (has_pre ty) (down_check sh (fst lv) lvl (fst c)) ([], []))).
  { apply o3_flagged; [intros _; apply down_check_3; [exact HL1|exact HP]|intros _; exact (@rs_nil k)]. }
  assert (OS : O3 RS (flagged (has_suf ty) (down_check sh (snd l0) lvl (snd (fst s))) ([], [])) (flagged (has_suf ty) (down_check sh (snd l1) lvl (snd (snd s))) ([], [])) (flagged (has_suf ty) (down_check sh (snd lv) lvl (snd c)) ([], []))).
  { apply o3_flagged; [intros _; apply down_check_3; [exact HL2|exact HS]|intros _; exact (@rs_nil k)]. }
  destruct (OP _ P1) as (cp0 & cp1 & P01 & P11 & RP). destruct (OS _ S1) as (cs0 & cs1 & S01 & S11 & RSS).
  pose proof (proj1 HP) as VP. pose proof (proj1 HS) as VS.
  pose proof (down_lanes_3 ty RP RSS VP VS) as HL.
  assert (LN : length (down_lanes ty cp cs (fst (fst c)) (fst (snd c))) = n).
  { clear - P2 S2. destruct ty; cbn [down_lanes has_pre has_suf] in *.
    - rewrite map2_length. destruct (P2 eq_refl) as (-> & _ & ->). apply Nat.min_id.
    - rewrite map2_length. destruct (S2 eq_refl) as (_ & -> & ->). apply Nat.min_id.
    - rewrite !map2_length. destruct (P2 eq_refl) as (-> & _ & ->). destruct (S2 eq_refl) as (_ & -> & ->). rewrite !Nat.min_id. reflexivity. }
  destruct (HR _ _ _ LN HL) as (y0 & y1 & ER & HY).
  set (po := if has_pre ty then 2 else 0).
  assert (HE : (has_pre ty = true -> F3 RV (lane_out 0 y0) (lane_out 0 y1) (map fst (dn (pre_chan g) cp (fst (fst c)))) /\ F3 RV (lane_out 1 y0) (lane_out 1 y1) (map snd (dn (pre_chan g) cp (fst (fst c))))) /\
               (has_suf ty = true -> F3 RV (lane_out po y0) (lane_out po y1) (map fst (dn (suf_chan g) cs (fst (snd c)))) /\ F3 RV (lane_out (po + 1) y0) (lane_out (po + 1) y1) (map snd (dn (suf_chan g) cs (fst (snd c)))))).
  { destruct RP as [RP1 RP2]. destruct RSS as [RS1 RS2]. pose proof (re_ents RP1) as N1. pose proof (re_ents RS2) as N4. pose proof (rv_vals VP) as N5. pose proof (rv_vals VS) as N6.
    assert (K2 : forall i ys zs, nth_error (down_outs k ty) i = Some k -> lane_out i (map (down_fun f o o' ty) (down_lanes ty cp cs (fst (fst c)) (fst (snd c)))) = zs -> ys = zs -> F3 RV (lane_out i y0) (lane_out i y1) ys).
    { intros i ys zs Hi E1 E2. rewrite E2, <- E1. unfold lane_out. eapply f3_map; [|exact HY]. intros x y z H. exact (lane_word_3 FG Hi H). }
    clear HL HR P1 P3' S1 S3 OP OS. subst po. destruct cp as [lp rp]. destruct cs as [ls rs]. destruct ty; cbn [has_pre has_suf down_lanes down_outs fst snd Nat.add] in *; (split; intros F; try discriminate F).
    - destruct (P2 eq_refl) as (L1 & L2 & L3). destruct (@down_pre_vals lp rp (fst (fst c))) as (V1 & V2); try assumption; try lia.
      split; (eapply K2; [reflexivity|eassumption|reflexivity]).
    - destruct (S2 eq_refl) as (L1 & L2 & L3). destruct (@down_suf_vals rs ls (fst (snd c))) as (V1 & V2); try assumption; try lia.
      split; (eapply K2; [reflexivity|eassumption|reflexivity]).
    - destruct (P2 eq_refl) as (L1 & L2 & L3). destruct (S2 eq_refl) as (L4 & L5 & L6). destruct (@down_full_vals lp rp (fst (fst c)) ls rs (fst (snd c))) as ((V1 & V2) & V3 & V4); try assumption; try lia.
      split; (eapply K2; [reflexivity|eassumption|reflexivity]).
    - destruct (P2 eq_refl) as (L1 & L2 & L3). destruct (S2 eq_refl) as (L4 & L5 & L6). destruct (@down_full_vals lp rp (fst (fst c)) ls rs (fst (snd c))) as ((V1 & V2) & V3 & V4); try assumption; try lia.
      split; (eapply K2; [reflexivity|eassumption|reflexivity]). }
  destruct HE as [HE1 HE2].
  assert (Q1 : O3 (RD k) (flagged (has_pre ty) (down_store zero sh (fst l0) lvl (fst (fst s)) (lane_out 0 y0) (lane_out 1 y0)) (fst (fst s))) (flagged (has_pre ty) (down_store zero sh (fst l1) lvl (fst (snd s)) (lane_out 0 y1) (lane_out 1 y1)) (fst (snd s)))
     (flagged (has_pre ty) (down_store zero sh (fst lv) lvl (fst c) (map fst (dn (pre_chan g) cp (fst (fst c)))) (map snd (dn (pre_chan g) cp (fst (fst c))))) (fst c))).
  { apply o3_flagged; [intros T; destruct (HE1 T); apply down_store_3; assumption|intros _; exact HP]. }
  assert (Q2 : O3 (RD k) (flagged (has_suf ty) (down_store zero sh (snd l0) lvl (snd (fst s)) (lane_out po y0) (lane_out (po + 1) y0)) (snd (fst s))) (flagged (has_suf ty) (down_store zero sh (snd l1) lvl (snd (snd s)) (lane_out po y1) (lane_out (po + 1) y1)) (snd (snd s)))
     (flagged (has_suf ty) (down_store zero sh (snd lv) lvl (snd c) (map fst (dn (suf_chan g) cs (fst (snd c)))) (map snd (dn (suf_chan g) cs (fst (snd c))))) (snd c))).
  { apply o3_flagged; [intros T; destruct (HE2 T); apply down_store_3; assumption|intros _; exact HS]. }
  destruct (Q1 _ P3') as (a0 & a1 & A0 & A1 & RA). destruct (Q2 _ S3) as (b0 & b1 & B0 & B1 & RB).
  exists (down_lanes ty cp0 cs0 (fst (fst (fst s))) (fst (snd (fst s)))), (down_lanes ty cp1 cs1 (fst (fst (snd s))) (fst (snd (snd s)))), y0, y1, ((a0, b0), (a1, b1)).
  unfold down_send, down_recv. rewrite P01, P11, A0, A1. cbn [bind]. rewrite S01, S11. cbv zeta. fold po. rewrite B0, B1. cbn [bind].
  split; [reflexivity|]. split; [reflexivity|]. split; [exact ER|]. split; [reflexivity|]. split; [reflexivity|]. split; assumption.
Qed.
Lemma two_down_ok runs l0 l1 lv s c c' : (forall lvl, lvl < length (sSizes sh) - 1 -> run_ok (nth lvl (sSizes sh) 0 / 2) (down_ins k ty) (down_outs k ty) (down_fun f o o' ty) (runs lvl)) ->
  RLv l0 l1 lv -> RDP (fst s) (snd s) c -> forN 0 (length (sSizes sh) - 1) (fun i => plain_down lv (length (sSizes sh) - 1 - i - 1)) c = Ok c' ->
  exists s', two_down zero ty sh runs l0 l1 s = Ok s' /\ RDP (fst s') (snd s') c'.
Proof.
  intros HR HLv HS E. unfold two_down. cbv zeta. eapply (@forN_sim _ _ (fun s c => RDP (fst s) (snd s) c)); [|exact HS|exact E].
  intros j u d d' Hj HU ED. set (cl := length (sSizes sh) - 1 - j - 1) in *.
  destruct (@down_step (runs cl) cl l0 l1 lv u d d' (HR cl ltac:(lia)) HLv HU ED) as (x0 & x1 & y0 & y1 & s' & E0 & E1 & E2 & E3 & E4 & HF).
  exists s'. rewrite E0. cbn [bind]. rewrite E1. cbn [bind]. rewrite E2. cbn [bind fst snd]. rewrite E3. cbn [bind]. rewrite E4. cbn [bind]. destruct s'. auto.
Qed.
End K.
