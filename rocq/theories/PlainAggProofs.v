From Verif Require Import Base Words GmwModel ShuffleModel ShuffleSpec AggModel AggSpec PlainAggModel GmwProofs ShuffleSpanProofs AggSizeProofs AggLoadProofs AggTreeProofs AggProofs.

Ltac el := unfold ent in *; lia.

Section Chan.
Context {V : Type} (zero : V) (ch : @chan V).
Notation lf := (V * bool)%type.
Variable agg : list lf -> lf.
Variable G : list lf -> list lf -> V.
Hypothesis agg1 : forall x, agg [x] = x.
Hypothesis agg_app : forall p q, p <> [] -> q <> [] -> agg (p ++ q) = cUp ch (agg p) (agg q).
Hypothesis G_down : forall b p q a, p <> [] -> q <> [] ->
  cDown ch (agg p) (agg q) (G b a) = (G b (q ++ a), G (b ++ p) a).

(* ---------------- the inner loops ---------------- *)

Lemma up_loop (child parent : list lf) h : length child = 2 * h -> h <= length parent ->
  forN 0 h (fun i parent => do a <- get child (2 * i); do b <- get child (2 * i + 1); set parent i (cUp ch a b)) parent
  = Ok (map2 (cUp ch) (evens child) (odds child) ++ skipn h parent).
Proof.
  intros Hc Hp. destruct (evens_length Hc) as [LE LO].
  set (Y := map2 (cUp ch) (evens child) (odds child)).
  assert (LY : length Y = h) by (unfold Y; rewrite map2_length; el).
  set (inv := fun i (p : list lf) => length p = length parent /\
    (forall k, k < i -> nth_error p k = nth_error Y k) /\ (forall k, i <= k -> nth_error p k = nth_error parent k)).
  match goal with |- forN 0 h ?f parent = _ => destruct (@forN_inv _ inv f h 0 parent) as [p [Hrun [I1 [I2 I3]]]] end.
  - split; [reflexivity|]. split; [intros k Hk; el|intros k Hk; reflexivity].
  - intros i p Hi [I1 [I2 I3]].
    destruct (nth_error child (2 * i)) as [a|] eqn:Ea; [|apply nth_error_None in Ea; el].
    destruct (nth_error child (2 * i + 1)) as [b|] eqn:Eb; [|apply nth_error_None in Eb; el].
    unfold get. rewrite Ea, Eb. cbn [bind]. rewrite set_lt by el. eexists. split; [reflexivity|].
    split; [rewrite upd_length; exact I1|]. split; intros k Hk.
    + destruct (Nat.eq_dec k i) as [->|Ne].
      * rewrite nth_error_upd_eq by el. unfold Y, ent. rewrite nth_error_map2.
        rewrite (proj1 (evens_odds_nth _ _)), (proj2 (evens_odds_nth _ _)), Ea, Eb. reflexivity.
      * rewrite nth_error_upd_ne by el. apply I2. el.
    + rewrite nth_error_upd_ne by el. apply I3. el.
  - refine (eq_trans Hrun _). f_equal. apply nth_error_ext. intros k. rewrite Nat.add_0_l in I2, I3.
    destruct (Nat.ltb_spec k h) as [L|L].
    + rewrite nth_error_app1 by el. apply I2. exact L.
    + rewrite nth_error_app2 by el. rewrite LY, nth_error_skipn. replace (h + (k - h)) with k by el. apply I3. exact L.
Qed.

Lemma down_loop (U D : list lf) (P : list lf) (E : list V) h : length U = 2 * h -> length D = 2 * h -> length E = 2 * h -> h <= length P ->
  (forall i a b v, nth_error U (2 * i) = Some a -> nth_error U (2 * i + 1) = Some b -> nth_error P i = Some v ->
     exists e0 e1, nth_error E (2 * i) = Some e0 /\ nth_error E (2 * i + 1) = Some e1 /\ cDown ch a b (fst v) = (e0, e1)) ->
  forN 0 h (fun i dn =>
      do v <- get P i;
      do a <- get U (i * 2); do b <- get U (i * 2 + 1);
      let d := cDown ch a b (fst v) in
      do dn <- set dn (i * 2 + 1) (snd d, snd b);
      set dn (i * 2) (fst d, snd a)) D
  = Ok (combine E (map snd U)).
Proof.
  intros HU HD HE HP Hstep. set (Y := combine E (map snd U)).
  assert (LY : length Y = 2 * h) by (unfold Y; rewrite combine_length, map_length; el).
  set (inv := fun i (d : list lf) => length d = 2 * h /\ (forall k, k < 2 * i -> nth_error d k = nth_error Y k)).
  match goal with |- forN 0 h ?f D = _ => destruct (@forN_inv _ inv f h 0 D) as [d [Hrun [I1 I2]]] end.
  - split; [exact HD|]. intros k Hk. el.
  - intros i d Hi [I1 I2].
    destruct (nth_error U (2 * i)) as [a|] eqn:Ea; [|apply nth_error_None in Ea; el].
    destruct (nth_error U (2 * i + 1)) as [b|] eqn:Eb; [|apply nth_error_None in Eb; el].
    destruct (nth_error P i) as [v|] eqn:Ev; [|apply nth_error_None in Ev; el].
    destruct (Hstep i a b v Ea Eb Ev) as [e0 [e1 [He0 [He1 EQ]]]].
    unfold get. rewrite (Nat.mul_comm i 2), Ea, Eb, Ev. cbn [bind]. unfold ent in *. rewrite EQ. cbv zeta. cbn [fst snd].
    rewrite set_lt by el. cbn [bind]. rewrite set_lt by (rewrite upd_length; el).
    eexists. split; [reflexivity|]. split; [rewrite !upd_length; exact I1|]. intros k Hk.
    destruct (Nat.eq_dec k (2 * i)) as [->|N0].
    + rewrite nth_error_upd_eq by (rewrite upd_length; el). symmetry. apply combine_nth_error; [exact He0|]. rewrite nth_error_map, Ea. reflexivity.
    + rewrite nth_error_upd_ne by el. destruct (Nat.eq_dec k (2 * i + 1)) as [->|N1].
      * rewrite nth_error_upd_eq by el. symmetry. apply combine_nth_error; [exact He1|]. rewrite nth_error_map, Eb. reflexivity.
      * rewrite nth_error_upd_ne by el. apply I2. el.
  - refine (eq_trans Hrun _). f_equal. apply nth_error_ext. intros k. destruct (Nat.ltb_spec k (2 * h)) as [L|L].
    + apply I2. el.
    + rewrite !(proj2 (nth_error_None _ _)); [reflexivity|el|el].
Qed.

(* ---------------- one array of the tree ---------------- *)

Section One.
Variables (sh : shape) (X : list lf) (L0 top : nat).
Let P0 := singles (firstn L0 X).
Let rest := singles (skipn L0 X).
Let plv := plev P0 rest.
Let N := sN16 sh.

Hypothesis HX : length X = N.
Hypothesis HG0 : G [] [] = fst (agg X).
Hypothesis Htop : 1 <= top.
Hypothesis Hlen : length (sSizes sh) = top + 1.
Hypothesis Hsize : forall l, l <= top -> nth_error (sSizes sh) l = Some (length (plv l)).
Hypothesis Heven : forall l, l < top -> exists h, length (plv l) = 2 * h /\ 0 < h.
Hypothesis Hroot : length (plv top) = 1.
Hypothesis HL0 : L0 <= N.
Hypothesis HLR : L0 < N -> L0 = 2 * sR sh.

Lemma pt_P0_length : length P0 = L0.
Proof. unfold P0. rewrite singles_length, firstn_length. el. Qed.

Lemma pt_half : exists h, L0 = 2 * h /\ length (pairs P0) = h.
Proof.
  destruct (Heven (l := 0)) as [h [Hh _]]; [el|]. change (plv 0) with P0 in Hh.
  exists h. split; [rewrite pt_P0_length in Hh; exact Hh|]. apply pairs_length. exact Hh.
Qed.

Lemma pt_size0 : nth_error (sSizes sh) 0 = Some L0.
Proof. rewrite (Hsize (l := 0)) by el. change (plv 0) with P0. rewrite pt_P0_length. reflexivity. Qed.

Lemma pt_ne l : ne (plv l).
Proof.
  unfold plv. induction l as [|l IH]; [apply singles_ne|]. cbn [plev]. destruct l as [|l].
  - apply Forall_app. split; [apply pairs_ne, singles_ne|apply singles_ne].
  - apply pairs_ne, IH.
Qed.

Lemma pt_concat l : 1 <= l <= top -> concat (plv l) = X.
Proof.
  intros Hl. destruct l as [|l]; [el|]. induction l as [|l IH].
  - change (plv 1) with (pairs P0 ++ rest). rewrite concat_app. destruct pt_half as [h [Hh _]].
    rewrite (@pairs_concat V ch agg G agg_app G_down P0 h) by (rewrite pt_P0_length; exact Hh).
    unfold P0, rest. rewrite !singles_concat. apply firstn_skipn.
  - change (plv (S (S l))) with (pairs (plv (S l))). destruct (Heven (l := S l)) as [h [Hh _]]; [el|].
    rewrite (@pairs_concat V ch agg G agg_app G_down _ _ Hh). apply IH. el.
Qed.

Lemma pt_root : plv top = [X].
Proof.
  pose proof (@pt_concat top ltac:(el)) as HC. destruct (plv top) as [|p [|q Q]] eqn:E; cbn in Hroot; try el.
  cbn [concat] in HC. rewrite app_nil_r in HC. rewrite HC. reflexivity.
Qed.

(* where the leaves are *)
Definition pos (i : nat) : nat * nat := if i <? L0 then (0, i) else (1, i - sR sh).

Lemma pt_pos_ok i : pt_pos sh i = Ok (pos i).
Proof. unfold pt_pos, get. rewrite pt_size0. reflexivity. Qed.

Lemma pos_in i : i < N -> exists n, nth_error (sSizes sh) (fst (pos i)) = Some n /\ snd (pos i) < n /\ fst (pos i) <= 1.
Proof.
  intros Hi. unfold pos. destruct (Nat.ltb_spec i L0) as [L|L]; cbn [fst snd].
  - exists L0. split; [apply pt_size0|]. split; [exact L|el].
  - exists (length (plv 1)). split; [apply Hsize; el|]. split; [|el].
    destruct pt_half as [h [Hh Hp]]. change (plv 1) with (pairs P0 ++ rest). rewrite app_length, Hp.
    unfold rest. rewrite singles_length, skipn_length. unfold N in *. pose proof (HLR ltac:(el)). el.
Qed.

Lemma pos_inj i k : i < N -> k < N -> pos i = pos k -> i = k.
Proof.
  intros Hi Hk. unfold pos. destruct (Nat.ltb_spec i L0) as [L|L]; destruct (Nat.ltb_spec k L0) as [L'|L']; intros E; try discriminate E.
  - congruence.
  - pose proof (HLR ltac:(el)). assert (EE : i - sR sh = k - sR sh) by congruence. el.
Qed.

(* the arrays keep their sizes *)
Definition sized (lv : list (list lf)) : Prop :=
  length lv = top + 1 /\ forall l x, nth_error lv l = Some x -> nth_error (sSizes sh) l = Some (length x).

Definition at_pos (lv : list (list lf)) (k : nat) : option lf :=
  match nth_error lv (fst (pos k)) with Some x => nth_error x (snd (pos k)) | None => None end.

Lemma store_ok lv i e : sized lv -> i < N -> exists lv', pt_store sh lv i e = Ok lv' /\ sized lv' /\
  at_pos lv' i = Some e /\ forall k, k < N -> k <> i -> at_pos lv' k = at_pos lv k.
Proof.
  intros [S1 S2] Hi. destruct (pos_in Hi) as [n [Hn [Hw Hq]]].
  unfold pt_store, ent in *. rewrite pt_pos_ok. cbn [bind].
  destruct (Nat.leb_spec (length lv) (fst (pos i))) as [L|L]; [el|]. cbn [throw_if bind].
  destruct (nth_error lv (fst (pos i))) as [x|] eqn:Ex; [|apply nth_error_None in Ex; el].
  unfold get. rewrite Ex. cbn [bind]. pose proof (S2 _ _ Ex) as Hx. rewrite Hn in Hx. assert (En : n = length x) by congruence.
  destruct (Nat.leb_spec (length x) (snd (pos i))) as [L'|L']; [el|]. cbn [throw_if bind].
  rewrite set_lt by el. cbn [bind]. rewrite set_lt by el. eexists. split; [reflexivity|]. split; [split|split].
  - rewrite upd_length. exact S1.
  - intros l y Hy. destruct (Nat.eq_dec l (fst (pos i))) as [->|Ne].
    + rewrite nth_error_upd_eq in Hy by el. assert (Ey : upd x (snd (pos i)) e = y) by congruence. rewrite <- Ey, upd_length, <- En. exact Hn.
    + rewrite nth_error_upd_ne in Hy by el. apply S2. exact Hy.
  - unfold at_pos. rewrite nth_error_upd_eq by el. apply nth_error_upd_eq. el.
  - intros k Hk Ne. unfold at_pos. destruct (Nat.eq_dec (fst (pos k)) (fst (pos i))) as [E|E].
    + rewrite E, nth_error_upd_eq by el. rewrite Ex. apply nth_error_upd_ne. intros E2. apply Ne.
      apply pos_inj; try assumption. destruct (pos k), (pos i). cbn [fst snd] in *. congruence.
    + rewrite nth_error_upd_ne by el. reflexivity.
Qed.

Lemma load_ok bit (s : list V) : sN sh = length s -> sN sh <= N ->
  (forall i, i < sN sh -> exists v b, nth_error s i = Some v /\ bit i = Ok b /\ nth_error X i = Some (v, b)) ->
  (forall i, sN sh <= i < N -> nth_error X i = Some (zero, false)) ->
  exists lv, pt_load zero bit sh s = Ok lv /\ sized lv /\ forall k, k < N -> at_pos lv k = nth_error X k.
Proof.
  intros Hn HnN Hin Hpad. unfold pt_load, ent in *. cbv zeta.
  set (inv := fun i lv => sized lv /\ forall k, k < i -> k < N -> at_pos lv k = nth_error X k).
  match goal with |- context [forN 0 (sN sh) _ ?l] => set (lv0 := l) end.
  assert (I0 : inv 0 lv0).
  { split; [split|intros; el].
    - unfold lv0. rewrite map_length. exact Hlen.
    - intros l x Hx. unfold lv0 in Hx. rewrite nth_error_map in Hx. destruct (nth_error (sSizes sh) l) as [m|]; [|discriminate Hx].
      cbn [option_map] in Hx. apply Some_inj in Hx. rewrite <- Hx, repeat_length. reflexivity. }
  match goal with |- context [forN 0 (sN sh) ?f lv0] => destruct (@forN_inv _ inv f (sN sh) 0 lv0 I0) as [lv1 [E1 I1]] end.
  - intros i lv Hi [Hs Hk]. destruct (Hin i ltac:(el)) as [v [b [Ev [Eb EX]]]].
    unfold get at 1. rewrite Ev, Eb. cbn [bind]. destruct (@store_ok lv i (v, b) Hs ltac:(el)) as [lv' [E [Hs' [Ha Ho]]]].
    exists lv'. split; [exact E|]. split; [exact Hs'|]. intros k Hki HkN. destruct (Nat.eq_dec k i) as [->|Ne]; [rewrite Ha, EX; reflexivity|].
    rewrite Ho by assumption. apply Hk; el.
  - unfold ent in *. rewrite E1. cbn [bind]. rewrite Nat.add_0_l in I1.
    match goal with |- context [forN (sN sh) ?n ?f lv1] => destruct (@forN_inv _ inv f n (sN sh) lv1 I1) as [lv2 [E2 I2]] end.
    + intros i lv Hi [Hs Hk]. destruct (@store_ok lv i (zero, false) Hs ltac:(unfold N in *; el)) as [lv' [E [Hs' [Ha Ho]]]].
      exists lv'. split; [exact E|]. split; [exact Hs'|]. intros k Hki HkN. destruct (Nat.eq_dec k i) as [->|Ne].
      * rewrite Ha. symmetry. apply Hpad. unfold N in *. el.
      * rewrite Ho by assumption. apply Hk; el.
    + exists lv2. split; [exact E2|]. destruct I2 as [Hs Hk]. split; [exact Hs|]. intros k Hk'. apply Hk; unfold N in *; el.
Qed.

(* ---------------- upstream ---------------- *)

Definition ulev (l : nat) : list lf := map agg (plv l).

Lemma ulev_S l : 1 <= l -> ulev (S l) = map agg (pairs (plv l)).
Proof. intros H. destruct l; [el|]. reflexivity. Qed.

Lemma up_run lv : sized lv -> (forall k, k < N -> at_pos lv k = nth_error X k) ->
  exists up, pt_up ch lv = Ok up /\ length up = top + 1 /\ forall l, l <= top -> nth_error up l = Some (ulev l).
Proof.
  intros [S1 S2] Hat. destruct pt_half as [h0 [Hh0 Hpp]].
  unfold pt_up, ent in *. rewrite S1. replace (top + 1 - 1) with top by el.
  set (inv := fun j (u : list (list lf)) => sized u /\ (forall l, l < j -> nth_error u l = Some (ulev l)) /\
    (j = 1 -> exists x, nth_error u 1 = Some x /\ skipn h0 x = skipn L0 X)).
  assert (I1 : inv 1 lv).
  { split; [split; assumption|]. split.
    - intros l Hl. assert (l = 0) as -> by el. destruct (nth_error lv 0) as [x|] eqn:Ex; [|apply nth_error_None in Ex; el].
      f_equal. unfold ulev. change (plv 0) with P0. unfold P0. rewrite singles_agg by exact agg1.
      pose proof (S2 _ _ Ex) as Hx. rewrite pt_size0 in Hx. assert (Lx : length x = L0) by congruence.
      apply nth_error_ext. intros k. destruct (Nat.ltb_spec k L0) as [L|L].
      + rewrite nth_error_firstn, (proj2 (Nat.ltb_lt _ _) L). specialize (Hat k ltac:(el)). unfold at_pos, pos in Hat.
        rewrite (proj2 (Nat.ltb_lt _ _) L) in Hat. cbn [fst snd] in Hat. rewrite Ex in Hat. exact Hat.
      + rewrite !(proj2 (nth_error_None _ _)); [reflexivity|rewrite firstn_length; el|el].
    - intros _. destruct (nth_error lv 1) as [x|] eqn:Ex; [|apply nth_error_None in Ex; el].
      exists x. split; [reflexivity|]. pose proof (S2 _ _ Ex) as Hx. rewrite Hsize in Hx by el.
      assert (Lx : length x = h0 + (N - L0)).
      { assert (E : length (plv 1) = length x) by congruence. rewrite <- E. change (plv 1) with (pairs P0 ++ rest).
        rewrite app_length, Hpp. unfold rest. rewrite singles_length, skipn_length, HX. reflexivity. }
      apply nth_error_ext. intros k. rewrite !nth_error_skipn. destruct (Nat.ltb_spec (L0 + k) N) as [L|L].
      + specialize (Hat (L0 + k) L). unfold at_pos, pos in Hat. destruct (Nat.ltb_spec (L0 + k) L0) as [L'|L']; [el|].
        cbn [fst snd] in Hat. rewrite Ex in Hat. pose proof (HLR ltac:(el)). replace (L0 + k - sR sh) with (h0 + k) in Hat by el. exact Hat.
      + rewrite !(proj2 (nth_error_None _ _)); [reflexivity|el|el]. }
  match goal with |- context [forN 1 top ?f lv] => destruct (@forN_inv _ inv f top 1 lv I1) as [up [Hrun [[U1 U2] [U3 _]]]] end.
  - intros j u Hj [[T1 T2] [T3 T4]].
    destruct (Heven (l := j - 1)) as [h [Hh _]]; [el|].
    destruct (nth_error u j) as [par|] eqn:Ep; [|apply nth_error_None in Ep; el].
    unfold get at 1 2. unfold ent in *. rewrite (T3 (j - 1)) by el. rewrite Ep. cbn [bind].
    assert (LU : length (ulev (j - 1)) = 2 * h) by (unfold ulev; rewrite map_length; exact Hh).
    rewrite LU. replace (2 * h / 2) with h by (rewrite Nat.mul_comm, Nat.div_mul by discriminate; reflexivity).
    pose proof (T2 _ _ Ep) as Hx. rewrite Hsize in Hx by el. assert (Lp : length par = length (plv j)) by congruence.
    assert (Hnew : map agg (pairs (plv (j - 1))) ++ skipn h par = ulev j /\ h <= length par).
    { destruct j as [|j]; [el|]. replace (S j - 1) with j in * by el. destruct j as [|j].
      - destruct (T4 eq_refl) as [x [Ex Ek]]. assert (x = par) by congruence. subst x.
        change (plv 0) with P0 in *. change (plv 1) with (pairs P0 ++ rest) in Lp. rewrite app_length, Hpp in Lp.
        assert (h = h0) as -> by (rewrite pt_P0_length in Hh; el). split; [|el].
        unfold ulev. change (plv 1) with (pairs P0 ++ rest). rewrite map_app. f_equal.
        unfold rest. rewrite singles_agg by exact agg1. exact Ek.
      - rewrite ulev_S by el. change (plv (S (S j))) with (pairs (plv (S j))) in Lp. rewrite (pairs_length Hh) in Lp.
        split; [|el]. rewrite skipn_all2 by el. apply app_nil_r. }
    destruct Hnew as [Hnew Hlp].
    pose proof (@up_loop (ulev (j - 1)) par h LU Hlp) as HUL. unfold ent in HUL. rewrite HUL. cbn [bind]. rewrite (set_lt) by el.
    eexists. split; [reflexivity|].
    assert (EU : map2 (cUp ch) (evens (ulev (j - 1))) (odds (ulev (j - 1))) = map agg (pairs (plv (j - 1)))) by exact (@up_ok V ch agg G agg_app G_down _ _ Hh (pt_ne (j - 1))).
    unfold ent in *. rewrite EU, Hnew. split; [split|split].
    + rewrite upd_length. exact T1.
    + intros l y Hy. destruct (Nat.eq_dec l j) as [->|Ne].
      * rewrite nth_error_upd_eq in Hy by el. assert (Ey : ulev j = y) by congruence. rewrite <- Ey. unfold ulev. rewrite map_length. apply Hsize. el.
      * rewrite nth_error_upd_ne in Hy by el. apply T2. exact Hy.
    + intros l Hl. destruct (Nat.eq_dec l j) as [->|Ne]; [apply nth_error_upd_eq; el|].
      rewrite nth_error_upd_ne by el. apply T3. el.
    + intros E. el.
  - exists up. split; [exact Hrun|]. split; [exact U1|]. intros l Hl. apply U3. el.
Qed.

(* ---------------- downstream ---------------- *)

Definition dlev (l : nat) : list V := if l =? 0 then dvals G [] P0 (concat rest) else dvals G [] (plv l) [].
Definition dent (l : nat) : list lf := combine (dlev l) (map snd (ulev l)).

Lemma dlev_length l : length (dlev l) = length (plv l).
Proof. unfold dlev. destruct (Nat.eqb_spec l 0) as [->|_]; apply dvals_length. Qed.

Lemma dent_length l : length (dent l) = length (plv l).
Proof. unfold dent, ulev. rewrite combine_length, !map_length, dlev_length. el. Qed.

Lemma fst_dent l i v : nth_error (dent l) i = Some v -> nth_error (dlev l) i = Some (fst v).
Proof.
  intros H. unfold dent in H. assert (L : length (dlev l) = length (map snd (ulev l))) by (unfold ulev; rewrite dlev_length, !map_length; reflexivity).
  revert H L. generalize (dlev l) (map snd (ulev l)). clear. intros a. revert i. induction a as [|x a IH]; intros [|i] [|y b] H L; try discriminate H; try discriminate L.
  - cbn in *. apply Some_inj in H. rewrite <- H. reflexivity.
  - cbn in *. eapply IH; [exact H|]. lia.
Qed.

Lemma down_run up : length up = top + 1 -> (forall l, l <= top -> nth_error up l = Some (ulev l)) ->
  exists down, pt_down zero ch up = Ok down /\ forall l, l <= top -> nth_error down l = Some (dent l).
Proof.
  intros HU Hu. unfold pt_down, ent in *. rewrite HU. replace (top + 1 - 1) with top by el.
  unfold get at 1. unfold ent in *. rewrite (Hu top) by el. cbn [bind].
  assert (ER : ulev top = [agg X]) by (unfold ulev; rewrite pt_root; reflexivity). rewrite ER. cbn [length Nat.eqb negb].
  rewrite set_lt by (rewrite map_length; el). cbn [bind].
  set (dn0 := upd _ top [agg X]).
  set (inv := fun k (dn : list (list lf)) => length dn = top + 1 /\
    (forall l x, nth_error dn l = Some x -> l < top -> length x = length (plv l)) /\
    forall l, top - k <= l <= top -> nth_error dn l = Some (dent l)).
  assert (I0 : inv 0 dn0).
  { split; [unfold dn0; rewrite upd_length, map_length; exact HU|]. split.
    - intros l x Hx Hl. unfold dn0 in Hx. rewrite nth_error_upd_ne in Hx by el. rewrite nth_error_map, Hu in Hx by el.
      cbn [option_map] in Hx. apply Some_inj in Hx. rewrite <- Hx, repeat_length. apply map_length.
    - intros l Hl. assert (l = top) as -> by el. unfold dn0. rewrite nth_error_upd_eq by (rewrite map_length; el). f_equal.
      unfold dent, dlev. destruct (Nat.eqb_spec top 0) as [|_]; [el|]. rewrite ER, pt_root. cbn [dvals map combine concat app]. rewrite HG0. destruct (agg X); reflexivity. }
  match goal with |- context [forN 0 top ?f dn0] => destruct (@forN_inv _ inv f top 0 dn0 I0) as [dn [Hrun [D1 [D2 D3]]]] end.
  - intros k dn Hk [D1 [D2 D3]]. cbv zeta. set (j := top - k).
    destruct (nth_error dn (j - 1)) as [cd|] eqn:Ec; [|apply nth_error_None in Ec; el].
    pose proof (D2 _ _ Ec ltac:(unfold j; el)) as Lc.
    destruct (Heven (l := j - 1)) as [h [Hh _]]; [unfold j; el|].
    unfold get at 1 2 3. rewrite (D3 j) by (unfold j; el). rewrite Ec, (Hu (j - 1)) by (unfold j; el). cbn [bind].
    rewrite Lc, Hh. replace (2 * h / 2) with h by (rewrite Nat.mul_comm, Nat.div_mul by discriminate; reflexivity).
    assert (LU : length (ulev (j - 1)) = 2 * h) by (unfold ulev; rewrite map_length; exact Hh).
    match goal with |- context [forN 0 h _ ?d0] => set (D := d0) end.
    assert (LD : length D = 2 * h) by (unfold D; rewrite map2_length; el).
    assert (LE : length (dlev (j - 1)) = 2 * h) by (rewrite dlev_length; exact Hh).
    (* the values at the parents of the children *)
    assert (HP : h <= length (dent j) /\ forall i, i < h -> nth_error (dlev j) i = nth_error (dvals G [] (pairs (plv (j - 1))) (if j - 1 =? 0 then concat rest else [])) i).
    { rewrite dent_length. assert (Ej : exists j', j = S j') by (exists (j - 1); unfold j; el). destruct Ej as [j' Ej]. rewrite Ej in *.
      replace (S j' - 1) with j' in * by el. unfold dlev. cbn [Nat.eqb]. pose proof (pairs_length Hh) as Lp. destruct j' as [|j'].
      - change (plv 0) with P0 in *. change (plv 1) with (pairs P0 ++ rest). rewrite app_length, Lp. split; [el|].
        intros i Hi. cbn [Nat.eqb]. rewrite dvals_app, app_nil_r. apply nth_error_app1. rewrite dvals_length. el.
      - change (plv (S (S j'))) with (pairs (plv (S j'))). rewrite Lp. split; [el|]. intros i Hi. reflexivity. }
    destruct HP as [HP1 HP2].
    pose proof (@down_loop (ulev (j - 1)) D (dent j) (dlev (j - 1)) h LU LD LE HP1) as HDL. unfold ent in HDL. rewrite HDL.
    + cbn [bind]. rewrite set_lt by (unfold j; el). eexists. split; [reflexivity|]. fold (dent (j - 1)). split; [|split].
      * rewrite upd_length. exact D1.
      * intros l x Hx Hl. destruct (Nat.eq_dec l (j - 1)) as [->|Ne].
        -- rewrite nth_error_upd_eq in Hx by (unfold j; el). assert (E : dent (j - 1) = x) by congruence. rewrite <- E. apply dent_length.
        -- rewrite nth_error_upd_ne in Hx by el. apply (D2 _ _ Hx Hl).
      * intros l Hl. destruct (Nat.eq_dec l (j - 1)) as [->|Ne]; [apply nth_error_upd_eq; unfold j; el|].
        rewrite nth_error_upd_ne by el. apply D3. unfold j in *; el.
    + intros i a b v Ea Eb Ev. pose proof (nth_error_lt Eb) as Lb. rewrite LU in Lb.
      apply fst_dent in Ev. rewrite HP2 in Ev by el.
      pose proof (@down_ok V ch agg G agg_app G_down (plv (j - 1)) h [] (if j - 1 =? 0 then concat rest else []) Hh (pt_ne (j - 1))) as HD.
      assert (ED : dvals G [] (plv (j - 1)) (if j - 1 =? 0 then concat rest else []) = dlev (j - 1)).
      { unfold dlev. destruct (Nat.eqb_spec (j - 1) 0) as [E|E]; [rewrite E|]; reflexivity. }
      rewrite ED in HD. fold (ulev (j - 1)) in HD.
      destruct (nth_error (dlev (j - 1)) (2 * i)) as [e0|] eqn:E0; [|apply nth_error_None in E0; el].
      destruct (nth_error (dlev (j - 1)) (2 * i + 1)) as [e1|] eqn:E1; [|apply nth_error_None in E1; el].
      exists e0, e1. split; [reflexivity|]. split; [reflexivity|].
      apply (f_equal (fun l => nth_error l i)) in HD. rewrite nth_error_map2 in HD.
      rewrite (@combine_nth_error _ _ (evens (ulev (j - 1))) (odds (ulev (j - 1))) i a b) in HD
        by (rewrite ?(proj1 (evens_odds_nth _ _)), ?(proj2 (evens_odds_nth _ _)); assumption).
      rewrite (@combine_nth_error _ _ (evens (dlev (j - 1))) (odds (dlev (j - 1))) i e0 e1) in HD
        by (rewrite ?(proj1 (evens_odds_nth _ _)), ?(proj2 (evens_odds_nth _ _)); assumption).
      rewrite Ev in HD. cbn [fst snd] in HD. congruence.
  - exists dn. split; [exact Hrun|]. intros l Hl. apply D3. el.
Qed.

Lemma dent_at i x down : nth_error X i = Some x -> (forall l, l <= top -> nth_error down l = Some (dent l)) ->
  at_pos down i = Some (G (firstn i X) (skipn (i + 1) X), snd x).
Proof.
  intros Hx Hd. pose proof (nth_error_lt Hx) as Hi. rewrite HX in Hi.
  assert (HS : singles X = P0 ++ rest) by (unfold P0, rest, singles; rewrite <- map_app, firstn_skipn; reflexivity).
  pose proof (@dvals_singles V G X i [] [] ltac:(el)) as HV. rewrite HS, dvals_app, !app_nil_r in HV. cbn [app] in HV.
  unfold at_pos, pos. destruct (Nat.ltb_spec i L0) as [L|L]; cbn [fst snd].
  - rewrite Hd by el. unfold dent. apply combine_nth_error.
    + unfold dlev. cbn [Nat.eqb]. rewrite nth_error_app1 in HV by (rewrite dvals_length, pt_P0_length; exact L). exact HV.
    + unfold ulev. change (plv 0) with P0. unfold P0. rewrite singles_agg by exact agg1.
      rewrite nth_error_map, nth_error_firstn, (proj2 (Nat.ltb_lt _ _) L), Hx. reflexivity.
  - rewrite Hd by el. destruct pt_half as [h [Hh Hp]]. pose proof (HLR ltac:(el)) as HR.
    unfold dent. apply combine_nth_error.
    + unfold dlev. cbn [Nat.eqb]. change (plv 1) with (pairs P0 ++ rest). rewrite dvals_app.
      rewrite nth_error_app2 by (rewrite dvals_length; el). rewrite dvals_length, Hp.
      rewrite (@pairs_concat V ch agg G agg_app G_down P0 h) by (rewrite pt_P0_length; exact Hh).
      rewrite nth_error_app2 in HV by (rewrite dvals_length, pt_P0_length; exact L). rewrite dvals_length, pt_P0_length in HV.
      replace (i - sR sh - h) with (i - L0) by el. exact HV.
    + unfold ulev. change (plv 1) with (pairs P0 ++ rest). rewrite map_app, map_app.
      rewrite nth_error_app2 by (rewrite !map_length; el). rewrite !map_length, Hp.
      unfold rest. rewrite singles_agg by exact agg1. rewrite nth_error_map, nth_error_skipn.
      replace (L0 + (i - sR sh - h)) with i by el. rewrite Hx. reflexivity.
Qed.

End One.

(* load, up and down for one array *)
Definition pt_array bit sh s := 
  do u <- pt_load zero bit sh s; do u <- pt_up ch u; pt_down zero ch u.

Lemma array_ok n bit sh s X : size_facts n sh -> length X = sN16 sh -> G [] [] = fst (agg X) -> n = length s ->
  (forall i, i < n -> exists v b, nth_error s i = Some v /\ bit i = Ok b /\ nth_error X i = Some (v, b)) ->
  (forall i, n <= i < sN16 sh -> nth_error X i = Some (zero, false)) ->
  exists lv up down, pt_load zero bit sh s = Ok lv /\ pt_up ch lv = Ok up /\ pt_down zero ch up = Ok down /\
    forall i x, nth_error X i = Some x -> exists p l, pt_pos sh i = Ok p /\ nth_error down (fst p) = Some l /\
      nth_error l (snd p) = Some (G (firstn i X) (skipn (i + 1) X), snd x).
Proof.
  intros HF HX HG Hns Hin Hpad. destruct HF as [f [EN [EN16 [ER [Hf HF]]]]].
  assert (HH : exists L0 top, 1 <= top /\ length (sSizes sh) = top + 1 /\
    let plv := plev (singles (firstn L0 X)) (singles (skipn L0 X)) in
    (forall l, l <= top -> nth_error (sSizes sh) l = Some (length (plv l))) /\
    (forall l, l < top -> exists h, length (plv l) = 2 * h /\ 0 < h) /\
    length (plv top) = 1 /\ L0 <= sN16 sh /\ (L0 < sN16 sh -> L0 = 2 * sR sh)).
  { assert (EC : {sComplete sh = true} + {sComplete sh = false}) by (destruct (sComplete sh); [left|right]; reflexivity).
    assert (Hpow : forall k, 2 ^ S k = 2 * 2 ^ k) by (intros k; reflexivity).
    destruct EC as [EC|EC]; rewrite EC in HF.
    - destruct HF as [F1 [F2 [F3 F4]]]. exists (2 ^ f), f. split; [exact F1|]. split; [exact F3|]. cbv zeta.
      set (P0 := singles (firstn (2 ^ f) X)). set (rest := singles (skipn (2 ^ f) X)).
      assert (HP0 : length P0 = 2 ^ f) by (unfold P0; rewrite singles_length, firstn_length; el).
      assert (Hrest : rest = []) by (unfold rest; rewrite skipn_all2 by el; reflexivity).
      assert (HPP : length (pairs P0) = 2 ^ (f - 1)).
      { apply pairs_length. rewrite HP0, <- Hpow. f_equal. el. }
      assert (HL : forall l, l <= f -> length (plev P0 rest l) = 2 ^ (f - l)).
      { intros l Hl. destruct l as [|l]; [cbn [plev]; rewrite Nat.sub_0_r; exact HP0|].
        rewrite (@plev_pow V P0 rest (f - 1)); [f_equal; el| |el]. rewrite Hrest, app_nil_r. exact HPP. }
      split; [|split; [|split; [|split]]].
      + intros l Hl. rewrite F4, HL by exact Hl. reflexivity.
      + intros l Hl. rewrite HL by el. exists (2 ^ (f - l - 1)). split; [|apply Nat.neq_0_lt_0, Nat.pow_nonzero; discriminate].
        rewrite <- Hpow. f_equal. el.
      + rewrite HL by el. rewrite Nat.sub_diag. reflexivity.
      + el.
      + el.
    - destruct HF as [F1 [F2 [F3 [F4 [F5 F6]]]]]. exists (2 * sR sh), (f + 1). split; [el|]. split; [el|]. cbv zeta.
      set (P0 := singles (firstn (2 * sR sh) X)). set (rest := singles (skipn (2 * sR sh) X)).
      assert (HP0 : length P0 = 2 * sR sh) by (unfold P0; rewrite singles_length, firstn_length; el).
      assert (HPP : length (pairs P0) = sR sh) by (apply pairs_length; exact HP0).
      assert (HR : length rest = sN16 sh - 2 * sR sh) by (unfold rest; rewrite singles_length, skipn_length; el).
      assert (H1 : length (pairs P0 ++ rest) = 2 ^ f) by (rewrite app_length, HPP, HR; el).
      assert (HL : forall l, 1 <= l <= f + 1 -> length (plev P0 rest l) = 2 ^ (f + 1 - l)) by (apply plev_pow; exact H1).
      split; [|split; [|split; [|split]]].
      + intros l Hl. destruct l as [|l]; [rewrite F5; cbn [plev]; rewrite HP0; reflexivity|]. rewrite F6, HL by el. reflexivity.
      + intros l Hl. destruct l as [|l].
        * cbn [plev]. rewrite HP0. exists (sR sh). el.
        * rewrite HL by el. exists (2 ^ (f - S l)). split; [|apply Nat.neq_0_lt_0, Nat.pow_nonzero; discriminate].
          rewrite <- Hpow. f_equal. el.
      + rewrite HL by el. rewrite Nat.sub_diag. reflexivity.
      + el.
      + el. }
  destruct HH as [L0 [top [H1 [H2 [H3 [H4 [H5 [H6 H7]]]]]]]]. subst n.
  destruct (@load_ok sh X L0 top HX H1 H2 H3 H4 H5 H6 H7 bit s) as [lv [E1 [Hs Hat]]]; try assumption; try el.
  destruct (@up_run sh X L0 top HX H1 H2 H3 H4 H5 H6 H7 lv Hs Hat) as [up [E2 [HU Hu]]].
  destruct (@down_run sh X L0 top HX HG H1 H2 H3 H4 H5 H6 H7 up HU Hu) as [down [E3 Hd]].
  exists lv, up, down. split; [exact E1|]. split; [exact E2|]. split; [exact E3|].
  intros i x Hx. pose proof (@dent_at sh X L0 top HX H1 H2 H3 H4 H5 H6 H7 i x down Hx Hd) as HA. unfold at_pos, ent in *.
  exists (pos sh L0 i). destruct (nth_error down (fst (pos sh L0 i))) as [l|] eqn:El; [|discriminate HA].
  exists l. split; [apply (@pt_pos_ok sh X L0 top); assumption|]. split; [reflexivity|exact HA].
Qed.

End Chan.

Lemma map_seq_nth V (l : list V) (f : nat -> V) m : length l = m -> (forall k, k < m -> nth_error l k = Some (f k)) -> l = map f (seq 0 m).
Proof.
  intros Hl H. rewrite <- (@rows_ext V l m f); [rewrite firstn_all2 by lia; reflexivity|lia|exact H].
Qed.

Section Scan.
Context {V : Type} (zero : V) (op : V -> V -> V) (eqb : V -> V -> bool).
Hypothesis Hop : assoc_op op.
Hypothesis Heqb : forall x, eqb x x = true.
Notation lf := (V * bool)%type.

Lemma veqb_refl l : veqb eqb l l = true.
Proof. induction l as [|x l IH]; [reflexivity|]. cbn [veqb]. rewrite Heqb, IH. reflexivity. Qed.

Section Leaves.
Variables (sh : shape) (s : list V) (c : list bool) (dpre dsuf : list (list lf)) (r r' : V).
Let n := length s.
Let X := pre_leaves zero (sN16 sh) s c.
Let Y := suf_leaves zero (sN16 sh) s c.
Hypothesis Hn : sN sh = n.
Hypothesis Hn2 : 2 <= n.
Hypothesis HL : length s = length c.
Hypothesis H0 : nth_error c 0 = Some false.
Hypothesis Hpre : forall i x, nth_error X i = Some x -> exists p l, pt_pos sh i = Ok p /\ nth_error dpre (fst p) = Some l /\
  nth_error l (snd p) = Some (fold_left (pstep op) (firstn i X) r, snd x).
Hypothesis Hsuf : forall i x, nth_error Y i = Some x -> exists p l, pt_pos sh i = Ok p /\ nth_error dsuf (fst p) = Some l /\
  nth_error l (snd p) = Some (fold_right (sstep op) r' (skipn (i + 1) Y), snd x).

Let P i := agg_range op zero s (blk_start c i) (i + 1).
Let Q i := agg_range op zero s i (blk_end c i).
Let F i := agg_range op zero s (blk_start c i) (blk_end c i).

Definition lastbit (i : nat) : bool := if i + 1 <? length c then nth (i + 1) c false else false.

Lemma Y_at i x : nth_error s i = Some x -> nth_error Y i = Some (x, lastbit i).
Proof.
  intros Hx. apply suf_leaves_at; [exact HL|exact Hx|]. unfold lastbit.
  destruct (Nat.ltb_spec (i + 1) (length c)) as [L|L]; [|reflexivity]. apply nth_error_nth'. exact L.
Qed.

Lemma P_step i x ci : nth_error s i = Some x -> nth_error c i = Some ci ->
  P i = (if ci then op (fold_left (pstep op) (firstn i X) r) x else x) /\
  (0 < i -> P i = if ci then op (P (i - 1)) x else x).
Proof.
  intros Hx Hc. pose proof (nth_error_lt Hx) as Li. fold n in Li.
  pose proof (pre_leaves_at zero (sN16 sh) HL Hx Hc) as HX. fold X in HX.
  pose proof (proj1 (@prefix_rows V zero op Hop (sN16 sh) s c r HL H0 i Li)) as HP. fold X in HP.
  rewrite (firstn_S_last HX), fold_left_app in HP. cbn [fold_left] in HP. unfold pstep at 1 in HP. cbn [fst snd] in HP.
  split; [symmetry; exact HP|]. intros Hi.
  pose proof (proj1 (@prefix_rows V zero op Hop (sN16 sh) s c r HL H0 (i - 1) ltac:(el))) as HP1. fold X in HP1.
  replace (i - 1 + 1) with i in HP1 by el. rewrite HP1 in HP. unfold P at 1. rewrite <- HP. unfold P. replace (i - 1 + 1) with i by el. reflexivity.
Qed.

Lemma Q_step i x : nth_error s i = Some x ->
  Q i = (if lastbit i then op x (fold_right (sstep op) r' (skipn (i + 1) Y)) else x) /\
  (i + 1 < n -> Q i = if lastbit i then op x (Q (i + 1)) else x).
Proof.
  intros Hx. pose proof (nth_error_lt Hx) as Li. fold n in Li.
  pose proof (@suffix_rows V zero op Hop (sN16 sh) s c r' HL (n - i - 1) i ltac:(unfold n in *; el)) as HS. fold Y in HS.
  rewrite (skipn_head (Y_at Hx)) in HS. cbn [fold_right] in HS. unfold sstep at 1 in HS. cbn [fst snd] in HS.
  split; [symmetry; exact HS|]. intros Hi.
  pose proof (@suffix_rows V zero op Hop (sN16 sh) s c r' HL (n - (i + 1) - 1) (i + 1) ltac:(unfold n in *; el)) as HS1. fold Y in HS1.
  rewrite HS1 in HS. unfold Q at 1. rewrite <- HS. reflexivity.
Qed.

Lemma F_step i x : nth_error s i = Some x ->
  F i = if lastbit i then op (P i) (fold_right (sstep op) r' (skipn (i + 1) Y)) else P i.
Proof.
  intros Hx. pose proof (nth_error_lt Hx) as Li. fold n in Li.
  assert (HB : blk_start c i <= i) by (apply (@prefix_rows V zero op Hop (sN16 sh) s c r HL H0 i Li)).
  unfold lastbit, F, P. destruct (Nat.ltb_spec (i + 1) (length c)) as [L|L].
  - assert (Ec : nth_error c (i + 1) = Some (nth (i + 1) c false)) by (apply nth_error_nth'; exact L).
    rewrite (blk_end_next Ec). destruct (nth (i + 1) c false); [|reflexivity].
    pose proof (@suffix_rows V zero op Hop (sN16 sh) s c r' HL (n - (i + 1) - 1) (i + 1) ltac:(unfold n in *; el)) as HS1. fold Y in HS1.
    rewrite HS1. pose proof (@blk_end_bound c (i + 1) L) as B. symmetry. apply (@agg_range_app V zero op Hop); el.
  - rewrite blk_end_last by el. reflexivity.
Qed.

Lemma leaves_ok : pt_leaves op zero eqb sh s c dpre dsuf = Ok (map P (seq 0 n), map Q (seq 0 n), map F (seq 0 n)).
Proof.
  unfold pt_leaves. cbv zeta. rewrite Hn.
  set (inv := fun i (t : pt_res) =>
    (length (ptExpPre t) = n /\ length (ptExpSuf t) = n /\ length (ptPre t) = n /\ length (ptSuf t) = n /\ length (ptFull t) = n) /\
    (forall k, k < i -> nth_error (ptExpPre t) k = Some (P k) /\ nth_error (ptPre t) k = Some (P k) /\
       nth_error (ptSuf t) k = Some (Q k) /\ nth_error (ptFull t) k = Some (F k)) /\
    (forall k, n - i <= k < n -> nth_error (ptExpSuf t) k = Some (Q k))).
  match goal with |- context [forN 0 n ?f ?t0] => destruct (@forN_inv _ inv f n 0 t0) as [t [Hrun [[L1 [L2 [L3 [L4 L5]]]] [I1 I2]]]] end.
  - split; [cbn; rewrite repeat_length; repeat split; reflexivity|]. split; intros k Hk; el.
  - intros i t Hi [[L1 [L2 [L3 [L4 L5]]]] [I1 I2]].
    assert (Li : i < n) by el.
    destruct (nth_error s i) as [x|] eqn:Ex; [|apply nth_error_None in Ex; unfold n in *; el].
    destruct (nth_error c i) as [ci|] eqn:Ec; [|apply nth_error_None in Ec; unfold n in *; el].
    pose proof (pre_leaves_at zero (sN16 sh) HL Ex Ec) as HX. fold X in HX.
    destruct (Hpre HX) as [p [lp [Ep [Elp Ev]]]].
    destruct (Hsuf (Y_at Ex)) as [p' [ls [Ep' [Els Ew]]]].
    assert (p' = p) as -> by congruence. cbn [snd] in Ev, Ew.
    set (ii := n - 1 - i). assert (Lii : ii < n) by (unfold ii; el).
    destruct (nth_error s ii) as [xi|] eqn:Exi; [|apply nth_error_None in Exi; unfold n in *; el].
    destruct (P_step Ex Ec) as [HP1 HP2]. destruct (Q_step Ex) as [HQ1 _]. destruct (Q_step Exi) as [_ HQ2]. pose proof (F_step Ex) as HF.
    unfold pt_leaf. rewrite Ep. cbn [bind]. unfold get at 1 2 3 4. unfold ent in *. rewrite Elp, Els, Ec, Ex. cbn [bind].
    assert (E1 : (if ci then if i =? 0 then UB else do y <- get (ptExpPre t) (i - 1); Ok (op y x) else Ok x) = Ok (P i)).
    { destruct (Nat.eqb_spec i 0) as [E0|E0].
      - subst i. assert (ci = false) as -> by congruence. rewrite HP1. reflexivity.
      - rewrite HP2 by el. destruct ci; [|reflexivity]. unfold get. rewrite (proj1 (I1 (i - 1) ltac:(el))). reflexivity. }
    rewrite E1. cbn [bind]. rewrite set_lt by el. cbn [bind]. rewrite Hn. fold ii.
    assert (E2 : (if i =? 0 then Ok false else get c (ii + 1)) = Ok (lastbit ii)).
    { unfold lastbit. destruct (Nat.eqb_spec i 0) as [E0|E0].
      - destruct (Nat.ltb_spec (ii + 1) (length c)) as [L|L]; [unfold ii, n in *; el|reflexivity].
      - assert (L : ii + 1 < length c) by (unfold ii, n in *; el). rewrite (proj2 (Nat.ltb_lt _ _) L). unfold get.
        rewrite (nth_error_nth' c false L). reflexivity. }
    rewrite E2. cbn [bind]. unfold get at 1. rewrite Exi. cbn [bind].
    assert (E3 : (if lastbit ii then do y <- get (ptExpSuf t) (ii + 1); Ok (op xi y) else Ok xi) = Ok (Q ii)).
    { destruct (Nat.eq_dec i 0) as [E0|E0].
      - assert (EL : lastbit ii = false) by (unfold lastbit; destruct (Nat.ltb_spec (ii + 1) (length c)) as [L|L]; [unfold ii, n in *; el|reflexivity]).
        rewrite EL. destruct (Q_step Exi) as [HQ3 _]. rewrite EL in HQ3. rewrite HQ3. reflexivity.
      - rewrite HQ2 by (unfold ii; el). destruct (lastbit ii); [|reflexivity]. unfold get. rewrite (I2 (ii + 1)) by (unfold ii; el). reflexivity. }
    rewrite E3. cbn [bind]. rewrite set_lt by el. cbn [bind]. unfold get. rewrite Ev, Ew. cbn [bind fst snd].
    assert (E4 : (if ci then if ci then op (fold_left (pstep op) (firstn i X) r) x else x else x) = P i) by (rewrite HP1; destruct ci; reflexivity).
    rewrite E4, <- HF, <- HQ1, <- HP1. rewrite !set_lt by el. cbn [bind].
    eexists. split; [reflexivity|]. split; [|split].
    + cbn. rewrite !upd_length. repeat split; assumption.
    + intros k Hk. cbn. destruct (Nat.eq_dec k i) as [->|Ne].
      * rewrite !nth_error_upd_eq by el. repeat split.
      * rewrite !nth_error_upd_ne by el. apply I1. el.
    + intros k Hk. cbn. destruct (Nat.eq_dec k ii) as [->|Ne].
      * apply nth_error_upd_eq. el.
      * rewrite nth_error_upd_ne by el. apply I2. unfold ii in *. el.
  - rewrite Hrun. cbn [bind]. rewrite Nat.add_0_l in *.
    assert (EP : ptPre t = map P (seq 0 n)) by (apply map_seq_nth; [exact L3|intros k Hk; apply I1; exact Hk]).
    assert (EXP : ptExpPre t = map P (seq 0 n)) by (apply map_seq_nth; [exact L1|intros k Hk; apply I1; exact Hk]).
    assert (ES : ptSuf t = map Q (seq 0 n)) by (apply map_seq_nth; [exact L4|intros k Hk; apply I1; exact Hk]).
    assert (EXS : ptExpSuf t = map Q (seq 0 n)) by (apply map_seq_nth; [exact L2|intros k Hk; apply I2; el]).
    assert (EF : ptFull t = map F (seq 0 n)) by (apply map_seq_nth; [exact L5|intros k Hk; apply I1; exact Hk]).
    rewrite EP, EXP, ES, EXS, EF, !veqb_refl. reflexivity.
Qed.

End Leaves.

Lemma arrays_ok s c sh : 2 <= length s -> length s = length c -> size_facts (length s) sh ->
  let X := pre_leaves zero (sN16 sh) s (false :: tl c) in
  let Y := suf_leaves zero (sN16 sh) s c in
  exists r r' l1 u1 d1 l2 u2 d2,
    pt_load zero (pt_pre_bit c) sh s = Ok l1 /\ pt_up (pt_pre op) l1 = Ok u1 /\ pt_down zero (pt_pre op) u1 = Ok d1 /\
    pt_load zero (pt_suf_bit (sN sh) c) sh s = Ok l2 /\ pt_up (pt_suf op) l2 = Ok u2 /\ pt_down zero (pt_suf op) u2 = Ok d2 /\
    (forall i x, nth_error X i = Some x -> exists p l, pt_pos sh i = Ok p /\ nth_error d1 (fst p) = Some l /\
      nth_error l (snd p) = Some (fold_left (pstep op) (firstn i X) r, snd x)) /\
    (forall i x, nth_error Y i = Some x -> exists p l, pt_pos sh i = Ok p /\ nth_error d2 (fst p) = Some l /\
      nth_error l (snd p) = Some (fold_right (sstep op) r' (skipn (i + 1) Y), snd x)).
Proof using Hop.
  clear eqb Heqb. intros H2 HL HF X Y. destruct (facts_half HF) as [EN [Hle _]].
  assert (HL' : length s = length (false :: tl c)) by (destruct c; cbn in *; el).
  assert (HX : length X = sN16 sh) by (apply pre_leaves_length; assumption).
  assert (HY : length Y = sN16 sh) by (apply suf_leaves_length; try assumption; el).
  destruct (@array_ok V zero (pt_pre op) (pagg zero op) (fun b a => fold_left (pstep op) b (fst (pagg zero op X))))
    with (n := length s) (bit := pt_pre_bit c) (sh := sh) (s := s) (X := X) as [l1 [u1 [d1 [EL1 [EU1 [ED1 HD1]]]]]]; try assumption; try reflexivity.
  { apply pagg_one. }
  { intros p q Hp Hq. rewrite (@pagg_app V zero op Hop p q Hp Hq). cbn. f_equal. apply andb_comm. }
  { intros b p q a Hp Hq. apply (@p_down V zero op Hop _ b p q Hp Hq). }
  { intros i Hi. destruct (nth_error s i) as [x|] eqn:Ex; [|apply nth_error_None in Ex; el].
    destruct (nth_error (false :: tl c) i) as [ci|] eqn:Ec; [|apply nth_error_None in Ec; el].
    exists x, ci. split; [reflexivity|]. split; [|apply pre_leaves_at; assumption].
    unfold pt_pre_bit. destruct (Nat.eqb_spec i 0) as [->|Ne]; [cbn in Ec; congruence|]. unfold get.
    destruct i as [|i]; [el|]. cbn [nth_error] in Ec. rewrite tl_nth in Ec. replace (S i) with (i + 1) by el. rewrite Ec. reflexivity. }
  { intros i Hi. apply pre_leaves_pad; assumption. }
  destruct (@array_ok V zero (pt_suf op) (sagg zero op) (fun b a => fold_right (sstep op) (fst (sagg zero op Y)) a))
    with (n := length s) (bit := pt_suf_bit (sN sh) c) (sh := sh) (s := s) (X := Y) as [l2 [u2 [d2 [EL2 [EU2 [ED2 HD2]]]]]]; try assumption; try reflexivity.
  { apply sagg_one. }
  { intros p q Hp Hq. rewrite (@sagg_app V zero op Hop p q Hp Hq). cbn. f_equal. apply andb_comm. }
  { intros b p q a Hp Hq. rewrite fold_right_app, (@sstep_fold V zero op Hop q _ Hq). destruct q as [|y q]; [congruence|]. reflexivity. }
  { intros i Hi. destruct (nth_error s i) as [x|] eqn:Ex; [|apply nth_error_None in Ex; el].
    exists x, (if i + 1 <? length c then nth (i + 1) c false else false). split; [reflexivity|]. split.
    - unfold pt_suf_bit. rewrite EN. destruct (Nat.eqb_spec i (length s - 1)) as [E|E]; destruct (Nat.ltb_spec (i + 1) (length c)) as [L|L]; try el; [reflexivity|].
      unfold get. rewrite (nth_error_nth' c false L). reflexivity.
    - apply suf_leaves_at; [exact HL|exact Ex|]. destruct (Nat.ltb_spec (i + 1) (length c)) as [L|L]; [|reflexivity]. apply nth_error_nth'. exact L. }
  { intros i Hi. apply suf_leaves_pad; try assumption. el. }
  exists (fst (pagg zero op X)), (fst (sagg zero op Y)), l1, u1, d1, l2, u2, d2.
  repeat (split; [assumption|]). assumption.
Qed.

Lemma init_ok s c : 2 <= length s -> length s = length c -> nth_error c 0 = Some false ->
  pt_init op zero eqb s c = Ok (
    map (fun i => agg_range op zero s (blk_start c i) (i + 1)) (seq 0 (length s)),
    map (fun i => agg_range op zero s i (blk_end c i)) (seq 0 (length s)),
    map (fun i => agg_range op zero s (blk_start c i) (blk_end c i)) (seq 0 (length s))).
Proof.
  intros H2 HL H0. unfold pt_init.
  destruct (nth_error s 0) as [x0|] eqn:E0; [|apply nth_error_None in E0; el]. unfold get at 1. rewrite E0. cbn [bind].
  destruct (tree_sizes_ok H2) as [sh [-> HF]]. cbn [bind]. destruct (facts_half HF) as [EN [Hle _]].
  destruct (arrays_ok H2 HL HF) as [r [r' [l1 [u1 [d1 [l2 [u2 [d2 [EL1 [EU1 [ED1 [EL2 [EU2 [ED2 [HD1 HD2]]]]]]]]]]]]]]].
  assert (Ec : false :: tl c = c) by (destruct c; cbn in *; congruence). rewrite Ec in HD1.
  unfold ent in *. rewrite EL1, EL2. cbn [bind]. rewrite EU1, EU2. cbn [bind]. rewrite ED1, ED2. cbn [bind].
  apply (@leaves_ok sh s c d1 d2 r r'); assumption.
Qed.

(* the first control bit set: expPre[-1] is read *)
Lemma init_ub s c : 2 <= length s -> length s = length c -> nth_error c 0 = Some true ->
  pt_init op zero eqb s c = UB.
Proof using Hop.
  clear Heqb. intros H2 HL H0. unfold pt_init.
  destruct (nth_error s 0) as [x0|] eqn:E0; [|apply nth_error_None in E0; el]. unfold get at 1. rewrite E0. cbn [bind].
  destruct (tree_sizes_ok H2) as [sh [-> HF]]. cbn [bind]. destruct (facts_half HF) as [EN [Hle _]].
  destruct (arrays_ok H2 HL HF) as [r [r' [l1 [u1 [d1 [l2 [u2 [d2 [EL1 [EU1 [ED1 [EL2 [EU2 [ED2 [HD1 HD2]]]]]]]]]]]]]]].
  unfold ent in *. rewrite EL1, EL2. cbn [bind]. rewrite EU1, EU2. cbn [bind]. rewrite ED1, ED2. cbn [bind].
  unfold pt_leaves. cbv zeta. rewrite EN. destruct (length s) as [|m] eqn:En; [el|]. rewrite forN_S.
  assert (HL' : length s = length (false :: tl c)) by (destruct c; cbn in *; el).
  destruct (HD1 0 (x0, false)) as [p [lp [Ep [Elp _]]]]; [apply pre_leaves_at; [exact HL'|exact E0|reflexivity]|].
  destruct (nth_error (suf_leaves zero (sN16 sh) s c) 0) as [y|] eqn:Ey.
  2: { apply nth_error_None in Ey. rewrite suf_leaves_length in Ey; el. }
  destruct (HD2 0 y Ey) as [p' [ls [Ep' [Els _]]]]. assert (p' = p) as -> by congruence.
  unfold pt_leaf at 1. rewrite Ep. cbn [bind]. unfold get at 1 2 3 4, ent. rewrite Elp, Els, H0, E0. reflexivity.
Qed.

End Scan.
