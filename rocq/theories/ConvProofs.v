From Verif Require Import Base Words Mod3Model Mod3Proofs ConvModel ConvSpec.

(* ---------- four lists related elementwise ---------- *)
Inductive Forall4 {A B C D} (R : A -> B -> C -> D -> Prop) : list A -> list B -> list C -> list D -> Prop :=
| F4nil : Forall4 R [] [] [] []
| F4cons a b c d la lb lc ld : R a b c d -> Forall4 R la lb lc ld ->
    Forall4 R (a :: la) (b :: lb) (c :: lc) (d :: ld).

Lemma Forall4_app A B C D (R : A -> B -> C -> D -> Prop) a b c d a' b' c' d' :
  Forall4 R a b c d -> Forall4 R a' b' c' d' -> Forall4 R (a ++ a') (b ++ b') (c ++ c') (d ++ d').
Proof. induction 1; intros; simpl; [assumption|constructor; auto]. Qed.

Lemma Forall4_nth A B C D (R : A -> B -> C -> D -> Prop) a b c d :
  Forall4 R a b c d -> forall da db dc dd k, k < length a -> R (nth k a da) (nth k b db) (nth k c dc) (nth k d dd).
Proof.
  induction 1; intros; simpl in *; [lia|]. destruct k; [assumption|]. apply IHForall4; lia.
Qed.

Lemma Forall4_length A B C D (R : A -> B -> C -> D -> Prop) a b c d :
  Forall4 R a b c d -> length b = length a /\ length c = length a /\ length d = length a.
Proof. induction 1; simpl; lia. Qed.

Lemma Forall2_firstn A B (R : A -> B -> Prop) n : forall a b, Forall2 R a b -> Forall2 R (firstn n a) (firstn n b).
Proof.
  induction n; intros a b H; simpl; [constructor|]. inversion H; subst; constructor; auto.
Qed.

Lemma Forall2_len A B (R : A -> B -> Prop) a b : Forall2 R a b -> length a = length b.
Proof. induction 1; simpl; lia. Qed.

Lemma recv_n_ok M n (m : list M) r : length m = n -> recv_n n (m :: r) = Ok (m, r).
Proof. intros. unfold recv_n. rewrite (proj2 (Nat.eqb_eq _ _) H). reflexivity. Qed.

Lemma total_cons A (a : list A) l : total (a :: l) = length a + total l.
Proof. unfold total. cbn [concat]. apply app_length. Qed.

(* ---------- ConvertToF3 ---------- *)
Definition conv_good (xs xr : N) (ys yr : N * N) : Prop :=
  forall i, (i < 128)%N \/ N.testbit xr i = false ->
    tvalid (fst ys) (snd ys) i /\ tvalid (fst yr) (snd yr) i /\
    ((i < 128)%N -> (trit (fst ys) (snd ys) i + trit (fst yr) (snd yr) i) mod 3 =
      b2n (xorb (N.testbit xs i) (N.testbit xr i))).

Lemma wnot_bit x i : (i < 128)%N -> N.testbit (wnot 128 x) i = negb (N.testbit x i).
Proof.
  intros H. unfold wnot. rewrite N.lxor_spec, N.ones_spec_low by assumption.
  destruct (N.testbit x i); reflexivity.
Qed.

Lemma conv1 s r xs xr : trit_ot s r ->
  let o := conv_send1 s xs (conv_cor r xr) in
  conv_good xs xr (snd o) (conv_recv1 r xr (snd (fst o)) (fst (fst o))).
Proof.
  intros H o i Hi. specialize (H i). subst o.
  assert (Hw : (i < 128)%N -> N.testbit (wnot 128 xs) i = negb (N.testbit xs i)) by (apply wnot_bit).
  unfold conv_send1, conv_recv1, conv_cor, mod3Sub, mod3Add, mod3Add1, tvalid, trit, andnot in *.
  cbn [fst snd]. bits_rw.
  destruct H as (Hv0 & Hv1 & Hm & Hl). rewrite Hm, Hl. clear Hm Hl.
  revert Hv0 Hv1 Hw. generalize (N.testbit (wnot 128 xs) i). intros w Hv0 Hv1 Hw.
  destruct (N.ltb_spec i 128) as [Hl|Hl].
  - rewrite (Hw Hl). revert Hv0 Hv1. clear.
    destruct (N.testbit (trC r) i), (N.testbit xs i), (N.testbit xr i),
      (N.testbit (tsM0 s) i), (N.testbit (tsL0 s) i), (N.testbit (tsM1 s) i), (N.testbit (tsL1 s) i);
      simpl; intros; try discriminate; auto.
  - destruct Hi as [Hi|Hi]; [lia|]. rewrite Hi.
    enough (forall A B C : Prop, A -> B -> A /\ B /\ ((i < 128)%N -> C)) as K; [apply K|intros; repeat split; auto; lia].
    all: revert Hv0 Hv1; clear Hw; destruct w.
    all: destruct (N.testbit (trC r) i), (N.testbit xs i),
      (N.testbit (tsM0 s) i), (N.testbit (tsL0 s) i), (N.testbit (tsM1 s) i), (N.testbit (tsL1 s) i);
      simpl; intros; try discriminate; auto.
Qed.

Lemma conv_chunk : forall s r, Forall2 trit_ot s r -> forall xs xr,
  length xs = length s -> length xr = length s ->
  let o := map2 (fun tx c => conv_send1 (fst tx) (snd tx) c) (combine s xs) (map2 conv_cor r xr) in
  let d0 := map (fun o => snd (fst o)) o in
  let d1 := map (fun o => fst (fst o)) o in
  Forall4 conv_good xs xr (map snd o)
    (map2 (fun tx d => conv_recv1 (fst tx) (snd tx) (fst d) (snd d)) (combine r xr) (combine d0 d1)).
Proof.
  induction 1 as [|s r ls lr Hsr H IH]; intros [|x xs] [|x' xr] Hs Hr; simpl in Hs, Hr; try lia; simpl.
  - constructor.
  - constructor; [apply (@conv1 s r x x' Hsr)|]. apply IH; lia.
Qed.

Lemma firstn_skipn_app_eq A (a b : list A) m : length a = m -> firstn m (a ++ b) = a /\ skipn m (a ++ b) = b.
Proof.
  intros <-. split; [rewrite firstn_app, Nat.sub_diag, firstn_all; simpl; apply app_nil_r|].
  rewrite skipn_app, Nat.sub_diag, skipn_all. reflexivity.
Qed.

Lemma conv_all : forall ss rs, segs_rel trit_ot ss rs -> forall xs xr,
  length xs = length xr -> length xr <= total rs ->
  exists cor dl ys yr,
    conv_recv_cor rs xr = Ok cor /\ conv_send ss xs cor = Ok (dl, ys) /\
    conv_recv_out rs xr dl = Ok yr /\ Forall4 conv_good xs xr ys yr.
Proof.
  induction 1 as [|s r ss rs Hsr H IH]; intros xs xr Hl Ht.
  - unfold total in Ht; simpl in Ht. destruct xr; simpl in *; [|lia]. destruct xs; simpl in *; [|lia].
    exists [], [], [], []. repeat split; constructor.
  - destruct xr as [|x0 xr0].
    { destruct xs; simpl in *; [|lia]. exists [], [], [], []. repeat split; constructor. }
    destruct xs as [|x0' xs0]; [simpl in Hl; lia|].
    set (xr := x0 :: xr0) in *. set (xs := x0' :: xs0) in *.
    assert (Hls := Forall2_len Hsr).
    set (m := Nat.min (length xr) (length r)) in *.
    destruct (IH (skipn m xs) (skipn m xr)) as (cor & dl & ys & yr & E1 & E2 & E3 & E4).
    { rewrite !skipn_length. lia. }
    { rewrite skipn_length. rewrite total_cons in Ht. lia. }
    set (c := map2 conv_cor (firstn m r) (firstn m xr)).
    assert (Hc : length c = m) by (unfold c; rewrite map2_length, !firstn_length; lia).
    set (o := map2 (fun tx c => conv_send1 (fst tx) (snd tx) c) (combine (firstn m s) (firstn m xs)) c).
    assert (Ho : length o = m) by (unfold o; rewrite map2_length, combine_length, !firstn_length; lia).
    set (d0 := map (fun o => snd (fst o)) o). set (d1 := map (fun o => fst (fst o)) o).
    exists (c :: cor), ((d0 ++ d1) :: dl), (map snd o ++ ys),
      (map2 (fun tx d => conv_recv1 (fst tx) (snd tx) (fst d) (snd d)) (combine (firstn m r) (firstn m xr)) (combine d0 d1) ++ yr).
    split; [|split; [|split]].
    + unfold xr at 1. cbn [conv_recv_cor]. fold xr m. rewrite E1. reflexivity.
    + unfold xs at 1. cbn [conv_send]. fold xs.
      replace (Nat.min (length xs) (length s)) with m by lia.
      rewrite (@recv_n_ok _ m c cor Hc). cbn [bind fst snd]. rewrite E2. reflexivity.
    + unfold xr at 1. cbn [conv_recv_out]. fold xr m.
      rewrite (@recv_n_ok _ (2 * m) (d0 ++ d1) dl).
      2:{ unfold d0, d1. rewrite app_length, !map_length. lia. }
      cbn [bind fst snd]. rewrite E3. cbn [bind].
      destruct (@firstn_skipn_app_eq _ d0 d1 m) as [F1 F2]; [unfold d0; rewrite map_length; assumption|].
      rewrite F1, F2. reflexivity.
    + assert (G : Forall4 conv_good (firstn m xs) (firstn m xr) (map snd o) _)
        by (apply (@conv_chunk (firstn m s) (firstn m r));
            [apply Forall2_firstn; assumption| |]; rewrite !firstn_length; lia).
      assert (G' := Forall4_app G E4). rewrite !firstn_skipn in G'. exact G'.
Qed.

(* without enough positions both sides throw *)
Lemma conv_short : forall rs xr, total rs < length xr -> conv_recv_cor rs xr = Throw.
Proof.
  unfold total. induction rs as [|r rs IH]; intros [|x xr] H; simpl in H; try lia; [reflexivity|].
  cbn [conv_recv_cor]. rewrite IH; [reflexivity|]. rewrite app_length in H. rewrite skipn_length. simpl length. lia.
Qed.

(* ---------- mod2OtF4 ---------- *)
Definition mod2_good (v u : N * N) (a b : N) : Prop :=
  forall i, (i < 128)%N -> tvalid (snd v) (fst v) i -> tvalid (snd u) (fst u) i ->
    xorb (N.testbit a i) (N.testbit b i) =
      Nat.odd ((trit (snd v) (fst v) i + trit (snd u) (fst u) i) mod 3).

Lemma f4_1 s r v u : f4_ot s r ->
  let d := f4_derand r (fst u) (snd u) in
  let o := f4_send1 s (fst v) (snd v) (fst d) (snd d) in
  mod2_good v u (snd o) (f4_recv1 r (fst u) (snd u) (fst (fst o)) (snd (fst o))).
Proof.
  intros H d o i Hi. subst o d. specialize (H i). unfold f4_send1, f4_swap, f4_recv1, f4_derand, tvalid, trit.
  cbn [fst snd]. bits_rw. rewrite wnot_bit by assumption. bits_rw. rewrite H.
  destruct v as [v0 v1], u as [u0 u1]. cbn [fst snd].
  destruct (N.testbit v0 i), (N.testbit v1 i), (N.testbit u0 i), (N.testbit u1 i);
    simpl; intros; try discriminate;
  destruct (N.testbit (frL r) i), (N.testbit (frM r) i), (N.testbit (fs0 s) i), (N.testbit (fs1 s) i),
    (N.testbit (fs2 s) i), (N.testbit (fs3 s) i); reflexivity.
Qed.

Lemma pairs2_inter2 l : pairs2 (inter2 l) = l.
Proof. induction l as [|[a b] l IH]; simpl; [reflexivity|]. rewrite IH. reflexivity. Qed.
Lemma inter2_length l : length (inter2 l) = 2 * length l.
Proof. induction l as [|[a b] l IH]; simpl; [reflexivity|]. rewrite IH. lia. Qed.

Lemma f4_chunk : forall s r, Forall2 f4_ot s r -> forall v u,
  length v = length s -> length u = length s ->
  let d := map2 (fun o u => f4_derand o (fst u) (snd u)) r u in
  let o := map2 (fun ov d => f4_send1 (fst ov) (fst (snd ov)) (snd (snd ov)) (fst d) (snd d))
             (combine s v) d in
  Forall4 mod2_good v u (map snd o)
    (map2 (fun ou t => f4_recv1 (fst ou) (fst (snd ou)) (snd (snd ou)) (fst t) (snd t))
       (combine r u) (map fst o)).
Proof.
  induction 1 as [|s r ls lr Hsr H IH]; intros [|x xs] [|x' xr] Hs Hr; simpl in Hs, Hr; try lia; simpl.
  - constructor.
  - constructor; [apply (@f4_1 s r x x' Hsr)|]. apply IH; lia.
Qed.

Lemma f4_all : forall ss rs, segs_rel f4_ot ss rs -> forall v u,
  length v = length u -> length u <= total rs ->
  exists cor dl a b,
    f4_recv_derand rs u = Ok cor /\ f4_send ss v cor = Ok (dl, a) /\
    f4_recv_out rs u dl = Ok b /\ Forall4 mod2_good v u a b.
Proof.
  induction 1 as [|s r ss rs Hsr H IH]; intros xs xr Hl Ht.
  - unfold total in Ht; simpl in Ht. destruct xr; simpl in *; [|lia]. destruct xs; simpl in *; [|lia].
    exists [], [], [], []. repeat split; constructor.
  - destruct xr as [|x0 xr0].
    { destruct xs; simpl in *; [|lia]. exists [], [], [], []. repeat split; constructor. }
    destruct xs as [|x0' xs0]; [simpl in Hl; lia|].
    set (xr := x0 :: xr0) in *. set (xs := x0' :: xs0) in *.
    assert (Hls := Forall2_len Hsr).
    set (m := Nat.min (length r) (length xr)) in *.
    destruct (IH (skipn m xs) (skipn m xr)) as (cor & dl & ys & yr & E1 & E2 & E3 & E4).
    { rewrite !skipn_length. lia. }
    { rewrite skipn_length. rewrite total_cons in Ht. lia. }
    destruct (Nat.eqb_spec m 0) as [Hm0|Hm0].
    { exists cor, dl, ys, yr. rewrite Hm0 in *. cbn [skipn] in *.
      split; [|split; [|split]].
      - unfold xr at 1. cbn [f4_recv_derand]. fold xr m. rewrite Hm0. exact E1.
      - unfold xs at 1. cbn [f4_send]. fold xs. replace (Nat.min (length s) (length xs)) with m by lia. rewrite Hm0. exact E2.
      - unfold xr at 1. cbn [f4_recv_out]. fold xr m. rewrite Hm0. exact E3.
      - exact E4. }
    apply Nat.eqb_neq in Hm0.
    set (c := map2 (fun o u => f4_derand o (fst u) (snd u)) (firstn m r) (firstn m xr)).
    assert (Hc : length c = m) by (unfold c; rewrite map2_length, !firstn_length; lia).
    set (o := map2 (fun ov d => f4_send1 (fst ov) (fst (snd ov)) (snd (snd ov)) (fst d) (snd d))
                (combine (firstn m s) (firstn m xs)) c).
    assert (Ho : length o = m) by (unfold o; rewrite map2_length, combine_length, !firstn_length; lia).
    exists (inter2 c :: cor), (inter2 (map fst o) :: dl), (map snd o ++ ys),
      (map2 (fun ou t => f4_recv1 (fst ou) (fst (snd ou)) (snd (snd ou)) (fst t) (snd t))
         (combine (firstn m r) (firstn m xr)) (map fst o) ++ yr).
    split; [|split; [|split]].
    + unfold xr at 1. cbn [f4_recv_derand]. fold xr m. rewrite Hm0, E1. reflexivity.
    + unfold xs at 1. cbn [f4_send]. fold xs.
      replace (Nat.min (length s) (length xs)) with m by lia. rewrite Hm0.
      rewrite (@recv_n_ok _ (2 * m) (inter2 c) cor) by (rewrite inter2_length; lia).
      cbn [bind fst snd]. rewrite E2, pairs2_inter2. reflexivity.
    + unfold xr at 1. cbn [f4_recv_out]. fold xr m. rewrite Hm0.
      rewrite (@recv_n_ok _ (2 * m) (inter2 (map fst o)) dl) by (rewrite inter2_length, map_length; lia).
      cbn [bind fst snd]. rewrite E3, pairs2_inter2. reflexivity.
    + assert (G : Forall4 mod2_good (firstn m xs) (firstn m xr) (map snd o) _)
        by (apply (@f4_chunk (firstn m s) (firstn m r));
            [apply Forall2_firstn; assumption| |]; rewrite !firstn_length; lia).
      assert (G' := Forall4_app G E4). rewrite !firstn_skipn in G'. exact G'.
Qed.

(* ---------- mod2Ole ---------- *)
Lemma ole_1 s r v u : bin_ole (fst s) (fst r) -> bin_ole (snd s) (snd r) ->
  let d := ole_derand r (fst u) (snd u) in
  let o := ole_send1 s (fst v) (snd v) (fst d) (snd d) in
  mod2_good v u (snd o) (ole_recv1 r (fst u) (snd u) (fst (fst o)) (snd (fst o))).
Proof.
  intros H0 H1 d o i Hi. subst o d. specialize (H0 i). specialize (H1 i).
  unfold ole_send1, ole_recv1, ole_derand, tvalid, trit.
  cbn [fst snd]. bits_rw. rewrite N.ones_spec_low by assumption.
  destruct v as [v0 v1], u as [u0 u1], s as [[a0 y0] [a1 y1]], r as [[b0 z0] [b1 z1]]. cbn [fst snd] in *.
  revert H0 H1.
  destruct (N.testbit v0 i), (N.testbit v1 i), (N.testbit u0 i), (N.testbit u1 i);
    simpl; intros E0 E1 Ev Eu; try discriminate; clear Ev Eu; revert E0 E1;
  destruct (N.testbit a0 i), (N.testbit a1 i), (N.testbit b0 i), (N.testbit b1 i),
    (N.testbit y0 i), (N.testbit y1 i), (N.testbit z0 i), (N.testbit z1 i); simpl; intros; first [reflexivity|congruence].
Qed.

Definition pair_ole (s r : ole * ole) : Prop := bin_ole (fst s) (fst r) /\ bin_ole (snd s) (snd r).

Lemma pairs_of_rel : forall s r, Forall2 bin_ole s r -> Forall2 pair_ole (pairs_of s) (pairs_of r).
Proof.
  fix IH 3. intros s r H. destruct H as [|a b s r Hab H]; [constructor|].
  destruct H as [|a' b' s r Hab' H]; [constructor|]. cbn [pairs_of]. constructor; [split; assumption|].
  apply IH; assumption.
Qed.

Lemma pairs_of_length A : forall n (l : list A), length l <= n -> length (pairs_of l) = length l / 2.
Proof.
  induction n; intros [|a [|b l]] H; simpl length in H; try lia; try reflexivity.
  cbn [pairs_of length]. rewrite (IHn l) by lia.
  replace (S (S (length l))) with (length l + 1 * 2) by lia. rewrite Nat.div_add by lia. lia.
Qed.

Lemma pairs2_pairs_of l : pairs2 l = pairs_of l.
Proof. revert l. fix IH 1. intros [|a [|b l]]; [reflexivity..|]. cbn. rewrite IH. reflexivity. Qed.

Lemma pairs2_inter2_app l r : length (pairs2 (inter2 l ++ r)) = length l + length (pairs2 r) /\
  firstn (length l) (pairs2 (inter2 l ++ r)) = l.
Proof.
  induction l as [|[a b] l [IH1 IH2]]; [split; reflexivity|]. cbn. rewrite IH1, IH2. split; reflexivity.
Qed.

Lemma ole_chunk : forall s r, Forall2 pair_ole s r -> forall v u,
  length v = length s -> length u = length s ->
  let d := map2 (fun o u => ole_derand o (fst u) (snd u)) r u in
  let o := map2 (fun ov d => ole_send1 (fst ov) (fst (snd ov)) (snd (snd ov)) (fst d) (snd d))
             (combine s v) d in
  Forall4 mod2_good v u (map snd o)
    (map2 (fun ou t => ole_recv1 (fst ou) (fst (snd ou)) (snd (snd ou)) (fst t) (snd t))
       (combine r u) (map fst o)).
Proof.
  induction 1 as [|s r ls lr Hsr H IH]; intros [|x xs] [|x' xr] Hs Hr; simpl in Hs, Hr; try lia; simpl.
  - constructor.
  - constructor; [apply (@ole_1 s r x x' (proj1 Hsr) (proj2 Hsr))|]. apply IH; lia.
Qed.

Lemma map2_firstn A B C (f : A -> B -> C) : forall n l k, length k = n -> map2 f l k = map2 f (firstn n l) k.
Proof.
  induction n; intros [|a l] [|b k] H; simpl in H; try lia; try reflexivity. cbn. rewrite (IHn l k) by lia. reflexivity.
Qed.

Lemma even_half n : Nat.even n = true -> 2 * (n / 2) = n.
Proof.
  intros H. apply Nat.even_spec in H. destruct H as [k ->]. rewrite (Nat.mul_comm 2 k), Nat.div_mul by lia. lia.
Qed.

(* the totals match exactly, every segment even *)
Lemma ole_all : forall ss rs, segs_rel bin_ole ss rs ->
  Forall (fun s => Nat.even (length s) = true) rs -> forall v u,
  length v = length u -> 2 * length u = total rs ->
  exists cor dl a b,
    ole_recv_derand rs u = Ok cor /\ ole_send ss v cor = Ok (dl, a) /\
    ole_recv_out rs u dl = Ok b /\ Forall4 mod2_good v u a b.
Proof.
  induction 1 as [|s r ss rs Hsr H IH]; intros Hev xs xr Hl Ht.
  - unfold total in Ht; simpl in Ht. destruct xr; simpl in *; [|lia]. destruct xs; simpl in *; [|lia].
    exists [], [], [], []. repeat split; constructor.
  - destruct xr as [|x0 xr0].
    { destruct xs; simpl in *; [|lia]. exists [], [], [], []. repeat split; constructor. }
    destruct xs as [|x0' xs0]; [simpl in Hl; lia|].
    set (xr := x0 :: xr0) in *. set (xs := x0' :: xs0) in *.
    assert (Hls := Forall2_len Hsr). inversion Hev as [|? ? He Hev']; subst.
    assert (He2 := even_half He).
    set (m := length r / 2) in *.
    assert (Htt : length xr * 2 = length r + total rs).
    { rewrite total_cons in Ht. lia. }
    destruct (IH Hev' (skipn m xs) (skipn m xr)) as (cor & dl & ys & yr & E1 & E2 & E3 & E4).
    { rewrite !skipn_length. lia. }
    { rewrite skipn_length. lia. }
    assert (Hst : ole_step (length r) (length xr) = Ok m).
    { unfold ole_step. fold m. replace (Nat.min (length xr) m) with m by lia.
      rewrite (proj2 (Nat.eqb_eq _ _) He2). cbn [negb]. rewrite andb_false_r. reflexivity. }
    assert (Hst' : ole_step (length s) (length xs) = Ok m) by (rewrite Hls, Hl; exact Hst).
    assert (Hps : length (pairs_of s) = m) by (rewrite (@pairs_of_length _ (length s)), Hls by lia; reflexivity).
    assert (Hpr : length (pairs_of r) = m) by (rewrite (@pairs_of_length _ (length r)) by lia; reflexivity).
    set (c := map2 (fun o u => ole_derand o (fst u) (snd u)) (pairs_of r) (firstn m xr)).
    assert (Hc : length c = m) by (unfold c; rewrite map2_length, firstn_length; lia).
    set (o := map2 (fun ov d => ole_send1 (fst ov) (fst (snd ov)) (snd (snd ov)) (fst d) (snd d))
                (combine (firstn m (pairs_of s)) (firstn m xs)) c).
    assert (Ho : length o = m) by (unfold o; rewrite map2_length, combine_length, !firstn_length; lia).
    exists (inter2 c :: cor), (inter2 (map fst o) :: dl), (map snd o ++ ys),
      (map2 (fun ou t => ole_recv1 (fst ou) (fst (snd ou)) (snd (snd ou)) (fst t) (snd t))
         (combine (firstn m (pairs_of r)) (firstn m xr)) (map fst o) ++ yr).
    split; [|split; [|split]].
    + unfold xr at 1. cbn [ole_recv_derand]. fold xr. rewrite Hst. cbn [bind]. rewrite E1. cbn [bind].
      replace (length r - 2 * m) with 0 by lia. cbn [repeat]. rewrite app_nil_r. reflexivity.
    + unfold xs at 1. cbn [ole_send]. fold xs.
      rewrite (@recv_n_ok _ (length s) (inter2 c) cor) by (rewrite inter2_length; lia).
      cbn [bind fst snd]. rewrite Hst'. cbn [bind]. rewrite E2, pairs2_inter2. cbn [bind fst snd].
      rewrite (firstn_all2 (n := m) c) by lia. fold o.
      rewrite (proj2 (Nat.eqb_eq (2 * m) (length s))) by lia. reflexivity.
    + unfold xr at 1. cbn [ole_recv_out]. fold xr.
      rewrite (@recv_n_ok _ (length r) (inter2 (map fst o)) dl) by (rewrite inter2_length, map_length; lia).
      cbn [bind fst snd]. rewrite Hst. cbn [bind]. rewrite E3, pairs2_inter2. cbn [bind].
      rewrite (firstn_all2 (n := m) (map fst o)) by (rewrite map_length; lia). reflexivity.
    + assert (Fs : firstn m (pairs_of s) = pairs_of s) by (apply firstn_all2; lia).
      assert (Fr : firstn m (pairs_of r) = pairs_of r) by (apply firstn_all2; lia).
      assert (G : Forall4 mod2_good (firstn m xs) (firstn m xr) (map snd o)
        (map2 (fun ou t => ole_recv1 (fst ou) (fst (snd ou)) (snd (snd ou)) (fst t) (snd t))
         (combine (firstn m (pairs_of r)) (firstn m xr)) (map fst o))).
      { unfold o, c. rewrite Fs, Fr.
        apply ole_chunk; [apply pairs_of_rel; assumption| |]; rewrite firstn_length; lia. }
      assert (G' := Forall4_app G E4). rewrite !firstn_skipn in G'. exact G'.
Qed.

(* an odd segment before the last element: both loops spin *)
Lemma ole_odd_hang t segs u : Nat.even (length t) = false -> length t / 2 < length u ->
  ole_recv_derand (t :: segs) u = Hang.
Proof.
  intros He Hu. destruct u as [|x u0]; [simpl in Hu; lia|]. cbn [ole_recv_derand].
  unfold ole_step. replace (Nat.min (length (x :: u0)) (length t / 2)) with (length t / 2) by lia.
  rewrite (proj2 (Nat.ltb_lt _ _) Hu).
  destruct (Nat.eqb_spec (2 * (length t / 2)) (length t)) as [E|E]; [|reflexivity].
  exfalso. rewrite <- E, Nat.even_mul in He. discriminate.
Qed.

(* a last segment that is not used up is never answered: the receiver waits *)
Lemma ole_leftover s r v u cor dl a : segs_rel bin_ole [s] [r] -> length v = length u -> 0 < length u ->
  2 * length u < length r ->
  ole_recv_derand [r] u = Ok cor -> ole_send [s] v cor = Ok (dl, a) -> ole_recv_out [r] u dl = Hang.
Proof.
  intros H Hl Hu Hlt E1 E2.
  assert (Hls : length s = length r) by (inversion H; subst; eapply Forall2_len; eassumption).
  destruct u as [|x u0]; [simpl in Hu; lia|]. destruct v as [|y v0]; [simpl in Hl; lia|].
  cbn [ole_recv_out]. cbn [ole_send] in E2.
  destruct (recv_n (length s) cor) as [[dm dr]| | |]; try discriminate. cbn [bind fst snd] in E2.
  unfold ole_step in E2.
  assert (Hd : length (x :: u0) <= length r / 2) by (apply Nat.div_le_lower_bound; lia).
  rewrite Hls in E2. replace (Nat.min (length (y :: v0)) (length r / 2)) with (length (x :: u0)) in E2 by lia.
  rewrite Hl in E2. rewrite (proj2 (Nat.ltb_ge _ _) (le_n _)) in E2. cbn [andb bind] in E2.
  rewrite skipn_all2 in E2 by lia. cbn [ole_send bind fst snd] in E2.
  destruct (Nat.eqb_spec (2 * length (x :: u0)) (length r)); [lia|].
  injection E2 as <- _. reflexivity.
Qed.

(* ---------- the statement with positions, and sample correlations ---------- *)
Lemma conv_total ss rs xs xr : segs_rel trit_ot ss rs ->
  length xs = length xr -> length xr <= total rs ->
  exists cor dl ys yr,
    conv_recv_cor rs xr = Ok cor /\ conv_send ss xs cor = Ok (dl, ys) /\ conv_recv_out rs xr dl = Ok yr /\
    length ys = length xs /\ length yr = length xs /\
    forall k i, k < length xs -> (i < 128)%N ->
      let ys1 := fst (nth k ys (0, 0)%N) in let ys0 := snd (nth k ys (0, 0)%N) in
      let yr1 := fst (nth k yr (0, 0)%N) in let yr0 := snd (nth k yr (0, 0)%N) in
      tvalid ys1 ys0 i /\ tvalid yr1 yr0 i /\
      (trit ys1 ys0 i + trit yr1 yr0 i) mod 3 = b2n (xorb (N.testbit (nth k xs 0%N) i) (N.testbit (nth k xr 0%N) i)).
Proof.
  intros H Hl Ht. destruct (conv_all H (xs := xs) (xr := xr) Hl Ht) as (cor & dl & ys & yr & E1 & E2 & E3 & HF).
  exists cor, dl, ys, yr. destruct (Forall4_length HF) as (_ & L1 & L2).
  split; [exact E1|]. split; [exact E2|]. split; [exact E3|]. split; [exact L1|]. split; [exact L2|].
  intros k i Hk Hi. destruct (Forall4_nth HF 0%N 0%N (0, 0)%N (0, 0)%N Hk i (or_introl Hi)) as (V1 & V2 & V3).
  split; [exact V1|]. split; [exact V2|exact (V3 Hi)].
Qed.

Lemma mod2_shares_of v u a b : Forall4 mod2_good v u a b -> mod2_shares v u a b.
Proof.
  intros HF. destruct (Forall4_length HF) as (L0 & L1 & L2). split; [lia|]. split; [lia|].
  intros k i Hk Hi. cbn zeta. intros V1 V2. assert (Hk' : k < length v) by lia.
  exact (Forall4_nth HF (0, 0)%N (0, 0)%N 0%N 0%N Hk' i Hi V1 V2).
Qed.

Lemma f4_total ss rs v u : segs_rel f4_ot ss rs -> length v = length u -> length u <= total rs ->
  exists cor dl a b,
    f4_recv_derand rs u = Ok cor /\ f4_send ss v cor = Ok (dl, a) /\ f4_recv_out rs u dl = Ok b /\ mod2_shares v u a b.
Proof.
  intros H Hl Ht. destruct (f4_all H (v := v) (u := u) Hl Ht) as (cor & dl & a & b & E1 & E2 & E3 & HF).
  exists cor, dl, a, b. repeat (split; [assumption|]). apply mod2_shares_of, HF.
Qed.

Lemma ole_total ss rs v u : segs_rel bin_ole ss rs -> (forall s, In s rs -> Nat.even (length s) = true) ->
  length v = length u -> 2 * length u = total rs ->
  exists cor dl a b,
    ole_recv_derand rs u = Ok cor /\ ole_send ss v cor = Ok (dl, a) /\ ole_recv_out rs u dl = Ok b /\ mod2_shares v u a b.
Proof.
  intros H He Hl Ht. apply Forall_forall in He.
  destruct (ole_all H He (v := v) (u := u) Hl Ht) as (cor & dl & a & b & E1 & E2 & E3 & HF).
  exists cor, dl, a, b. repeat (split; [assumption|]). apply mod2_shares_of, HF.
Qed.

(* the receiver's half of a correlation, from the sender's half and any choice *)
Definition mk_trit_r (s : trit_s) (c : N) : trit_r :=
  let sel a b := N.lxor (N.land c b) (N.ldiff a c) in TritR c (sel (tsL0 s) (tsL1 s)) (sel (tsM0 s) (tsM1 s)).
Lemma mk_trit_ok s c : N.land (tsM0 s) (tsL0 s) = 0%N -> N.land (tsM1 s) (tsL1 s) = 0%N -> trit_ot s (mk_trit_r s c).
Proof.
  intros H0 H1 i. unfold tvalid. rewrite <- !N.land_spec, H0, H1, N.bits_0. split; [reflexivity|]. split; [reflexivity|].
  unfold mk_trit_r; cbn [trC trL trM]. bits_rw.
  destruct (N.testbit c i); cbn [andb negb]; rewrite ?andb_true_r, ?andb_false_r, ?xorb_false_r, ?xorb_false_l; auto.
Qed.
Definition mk_f4_r (s : f4_s) (m l : N) : f4_r :=
  let sel c a b := N.lxor (N.land c b) (N.ldiff a c) in F4R l m (sel m (sel l (fs0 s) (fs1 s)) (sel l (fs2 s) (fs3 s))).
Lemma mk_f4_ok s m l : f4_ot s (mk_f4_r s m l).
Proof.
  intros i. unfold mk_f4_r; cbn [frL frM frO]. bits_rw.
  destruct (N.testbit m i), (N.testbit l i); cbn [andb negb]; rewrite ?andb_true_r, ?andb_false_r, ?xorb_false_r, ?xorb_false_l; auto.
Qed.
Definition mk_ole (a : ole) (m : N) : ole := (N.lxor (fst a) (N.land (snd a) m), m).
Lemma mk_ole_ok a m : bin_ole a (mk_ole a m).
Proof.
  intros i. unfold mk_ole; cbn [fst snd]. bits_rw. rewrite <- xorb_assoc, xorb_nilpotent, xorb_false_l. reflexivity.
Qed.
