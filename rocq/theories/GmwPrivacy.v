(* Privacy of the GMW rounds: what a party sees does not depend on the other party's wires. *)
From Verif Require Import Base ConvModel ConvProofs PermCorProofs CompPermProofs GmwModel GmwSpec GmwProofs.

(* ---------------- blocks ---------------- *)

Definition wd (x : N) : Prop := (x < 2 ^ 128)%N.

Lemma wd_bits x : wd x <-> forall k, (128 <= k)%N -> N.testbit x k = false.
Proof.
  unfold wd. split.
  - intros H k Hk. destruct (N.eq_dec x 0) as [->|Hx]; [apply N.bits_0|].
    apply N.bits_above_log2. apply N.log2_lt_pow2 in H; lia.
  - intros H. destruct (N.eq_dec x 0) as [->|Hx]; [reflexivity|].
    apply N.log2_lt_pow2; [lia|]. destruct (N.lt_ge_cases (N.log2 x) 128) as [L|L]; auto.
    pose proof (N.bit_log2 x Hx) as B. rewrite (H _ L) in B. discriminate.
Qed.
Lemma wd_lxor x y : wd x -> wd y -> wd (N.lxor x y).
Proof. rewrite !wd_bits. intros Hx Hy k Hk. rewrite N.lxor_spec, Hx, Hy; auto. Qed.
Lemma wd_land x y : wd x -> wd y -> wd (N.land x y).
Proof. rewrite !wd_bits. intros Hx Hy k Hk. rewrite N.land_spec, Hx; auto. Qed.
Lemma wd_ones : wd all_one.
Proof. apply wd_bits. intros k Hk. apply N.ones_spec_high. exact Hk. Qed.
Lemma wd_0 : wd 0.
Proof. apply wd_bits. intros. apply N.bits_0. Qed.
Lemma wd_imask b : wd (imask b).
Proof. destruct b; [apply wd_ones|apply wd_0]. Qed.

Lemma Forall_map2 A B C (P : A -> Prop) (Q : B -> Prop) (R : C -> Prop) f :
  (forall a b, P a -> Q b -> R (f a b)) -> forall l m, Forall P l -> Forall Q m -> Forall R (map2 f l m).
Proof.
  intros H. induction l as [|a l IH]; intros [|b m] Hl Hm; try constructor.
  - inversion Hl; inversion Hm; subst. auto.
  - inversion Hl; inversion Hm; subst. apply IH; auto.
Qed.
Lemma Forall_firstn' A (P : A -> Prop) n l : Forall P l -> Forall P (firstn n l).
Proof. intros H. rewrite <- (firstn_skipn n l) in H. apply Forall_app in H. tauto. Qed.
Lemma Forall_skipn' A (P : A -> Prop) n l : Forall P l -> Forall P (skipn n l).
Proof. intros H. rewrite <- (firstn_skipn n l) in H. apply Forall_app in H. tauto. Qed.
Lemma Forall_map_i A B (P : B -> Prop) (f : A -> B) l : Forall (fun a => P (f a)) l -> Forall P (map f l).
Proof. induction 1; constructor; auto. Qed.

Definition memw (mem : list (list N)) : Prop := Forall (Forall wd) mem.
Lemma memw_row mem i : memw mem -> Forall wd (row mem i).
Proof.
  intros H. destruct (Nat.lt_ge_cases i (length mem)) as [L|L].
  - unfold memw in H. rewrite Forall_forall in H. apply H, nth_In. auto.
  - rewrite nth_overflow by auto. constructor.
Qed.
Definition wq (q : quad) : Prop := Forall wd (qA q) /\ Forall wd (qB q) /\ Forall wd (qC q) /\ Forall wd (qD q).

Lemma send_u_w t a x : Forall wd a -> Forall wd x -> Forall wd (send_u t a x).
Proof. apply Forall_map2. intros. destruct (invertA t); auto using wd_lxor, wd_ones. Qed.
Lemma send_w_w t a x : Forall wd a -> Forall wd x -> Forall wd (send_w t a x).
Proof. apply Forall_map2. intros. destruct (invertB t); auto using wd_lxor, wd_ones. Qed.
Lemma recv_u_w c d u : Forall wd c -> Forall wd d -> Forall wd u -> Forall wd (recv_u c d u).
Proof.
  intros. unfold recv_u. eapply Forall_map2; [|eapply Forall_map2|]; eauto using wd_lxor, wd_land.
Qed.
Lemma recv_w_w t x b w : Forall wd x -> Forall wd b -> Forall wd w -> Forall wd (recv_w t x b w).
Proof.
  intros Hx Hb Hw. unfold recv_w. apply (@Forall_map2 _ _ _ wd wd wd); auto using wd_lxor.
  apply (@Forall_map2 _ _ _ wd wd wd); auto.
  intros. destruct (invertA t); auto using wd_lxor, wd_land, wd_ones.
Qed.
Lemma mult_send_w role t a c x y : Forall wd a -> Forall wd c -> Forall wd x -> Forall wd y ->
  Forall wd (mult_send role t a c x y).
Proof. intros. unfold mult_send. destruct role; apply Forall_app; auto using send_u_w, send_w_w. Qed.
Lemma mult_recv_w role w t b c d x y m : Forall wd b -> Forall wd c -> Forall wd d -> Forall wd x -> Forall wd y ->
  Forall wd m -> Forall wd (mult_recv role w t b c d x y m).
Proof.
  intros Hb Hc Hd Hx Hy Hm. unfold mult_recv.
  pose proof (Forall_firstn' w Hm) as F1. pose proof (Forall_skipn' w Hm) as F2.
  destruct role.
  - repeat (apply (@Forall_map2 _ _ _ wd wd wd); auto using wd_lxor, wd_land, recv_u_w, recv_w_w).
  - apply Forall_map_i. apply (Forall_impl _ (P := wd)); [intros; auto using wd_lxor, wd_imask|].
    repeat (apply (@Forall_map2 _ _ _ wd wd wd); auto using wd_lxor, wd_land, recv_u_w, recv_w_w, wd_imask).
Qed.

Lemma lin_step_w role mem g : memw mem -> memw (lin_step role mem g).
Proof.
  intros H. unfold lin_step. destruct (nonlinear (gType g)); auto.
  apply Forall_upd; auto.
  pose proof (memw_row (gIn0 g) H) as H0. pose proof (memw_row (gIn1 g) H) as H1.
  assert (HX : Forall wd (map2 N.lxor (row mem (gIn0 g)) (row mem (gIn1 g))))
    by (apply (@Forall_map2 _ _ _ wd wd wd); auto using wd_lxor).
  unfold lin_out.
  destruct (gType g); auto; destruct role; auto;
    apply Forall_map_i; apply (Forall_impl _ (P := wd)); auto; intros; auto using wd_lxor, wd_ones.
Qed.
Lemma lin_run_w role gs : forall mem, memw mem -> memw (lin_run role gs mem).
Proof. unfold lin_run. induction gs as [|g gs IH]; intros mem H; simpl; auto. apply IH, lin_step_w; auto. Qed.

Lemma slice_w l j w : Forall wd l -> Forall wd (slice l j w).
Proof. intros H. unfold slice. apply Forall_firstn', Forall_skipn'. auto. Qed.

Lemma msgs_of_w role w q gs : wq q -> forall mem j, memw mem -> Forall (Forall wd) (msgs_of role w q gs mem j).
Proof.
  intros (A & B & C & D). induction gs as [|g gs IH]; intros mem j H; cbn [msgs_of]; [constructor|].
  destruct (nonlinear (gType g)).
  - constructor; auto. apply mult_send_w; auto using slice_w, memw_row.
  - apply IH, lin_step_w; auto.
Qed.
Lemma nl_run_w role w q gs : wq q -> forall mem j ms, memw mem -> Forall (Forall wd) ms -> memw (nl_run role w q gs mem j ms).
Proof.
  intros (A & B & C & D). induction gs as [|g gs IH]; intros mem j ms H Hm; cbn [nl_run]; auto.
  destruct (nonlinear (gType g)); auto. apply IH.
  - apply Forall_upd; auto. apply mult_recv_w; auto using slice_w, memw_row.
    destruct Hm; simpl; auto.
  - destruct Hm; simpl; auto.
Qed.

(* ---------------- correlated triples of the two parties ---------------- *)

Definition tw (p : triple) : Prop := wd (fst p) /\ wd (snd p).
(* p the triple of the party whose view is studied, q of the other *)
Definition olew (p q : triple) : Prop := ole_pos p q /\ tw p /\ tw q.
Definition qrelw (qa qh : quad) : Prop := qrel qa qh /\ wq qa /\ wq qh.

Lemma qrel_sym p q : qrel p q -> qrel q p.
Proof. intros H j. destruct (H j). auto. Qed.
Lemma ole_sym p q : ole_pos p q -> ole_pos q p.
Proof. unfold ole_pos. rewrite N.land_comm, N.lxor_comm. auto. Qed.
Lemma olew_ole l m : Forall2 olew l m -> Forall2 ole_pos l m.
Proof. induction 1 as [|p q l m [H _] HF IH]; constructor; auto. Qed.
Lemma Forall2_flip A B (R : A -> B -> Prop) (Q : B -> A -> Prop) : (forall a b, R a b -> Q b a) ->
  forall l m, Forall2 R l m -> Forall2 Q m l.
Proof. intros H. induction 1; constructor; auto. Qed.
Lemma olew_tw_l l m : Forall2 olew l m -> Forall tw l.
Proof. induction 1 as [|p q l m (_ & H & _) HF IH]; constructor; auto. Qed.
Lemma olew_tw_r l m : Forall2 olew l m -> Forall tw m.
Proof. induction 1 as [|p q l m (_ & _ & H) HF IH]; constructor; auto. Qed.

Lemma tw_fst l : Forall tw l -> Forall wd (map fst l).
Proof. induction 1 as [|p l [H _]]; constructor; auto. Qed.
Lemma tw_snd l : Forall tw l -> Forall wd (map snd l).
Proof. induction 1 as [|p l [_ H]]; constructor; auto. Qed.
Lemma load_part_w role m cur : Forall tw cur -> wq (load_part role m cur).
Proof.
  intros H. unfold load_part, wq. destruct role; cbn [qA qB qC qD];
    repeat split; try apply tw_fst; try apply tw_snd; auto using Forall_firstn', Forall_skipn'.
Qed.
Lemma qapp_w p q : wq p -> wq q -> wq (qapp p q).
Proof. intros (A & B & C & D) (A' & B' & C' & D'). unfold wq, qapp; cbn [qA qB qC qD]. rewrite !Forall_app. auto 10. Qed.

Lemma min_half need (c : list triple) : 2 * load_min need c <= length c.
Proof. unfold load_min. pose proof (Nat.div_mod (length c) 2). lia. Qed.

Lemma load_len role : forall segs need cur q c s, load role need cur segs = Ok (q, c, s) -> qlen need q.
Proof.
  induction segs as [|x segs IH]; intros need cur q c s; cbn [load];
    destruct (Nat.eqb_spec need (load_min need cur)) as [E|E].
  1,3: intros H; injection H as <- <- <-; rewrite E at 1; apply load_part_len, min_half.
  - destruct (_ =? 0); discriminate.
  - destruct (_ =? 0); [|discriminate].
    destruct (load role (need - load_min need cur) x segs) as [[[q' c'] s']| | |] eqn:EL; try discriminate.
    cbn [bind]. intros H; injection H as <- <- <-.
    destruct (IH _ _ _ _ _ EL) as (A & B & C & D).
    destruct (@load_part_len role _ _ (min_half need cur)) as (A' & B' & C' & D').
    assert (load_min need cur <= need) by (unfold load_min; lia).
    unfold qlen, qapp; cbn [qA qB qC qD]. rewrite !app_length. lia.
Qed.

Lemma load_part_rel_b b m ca ch : Forall2 olew ca ch -> qrel (load_part (negb b) m ca) (load_part b m ch).
Proof.
  intros H. destruct b; cbn [negb].
  - apply load_part_rel, olew_ole, H.
  - apply qrel_sym, load_part_rel. eapply Forall2_flip; [|exact H]. intros p q [E _]. apply ole_sym, E.
Qed.

(* the other party's loading succeeds alike and gives the paired halves *)
Lemma load_rel_b b : forall sa sh, Forall2 (Forall2 olew) sa sh -> forall need ca ch qa ca' sa',
  Forall2 olew ca ch -> load (negb b) need ca sa = Ok (qa, ca', sa') ->
  exists qh ch' sh', load b need ch sh = Ok (qh, ch', sh') /\ qrelw qa qh /\
    Forall2 olew ca' ch' /\ Forall2 (Forall2 olew) sa' sh'.
Proof.
  induction 1 as [|x y sa sh Hxy HF IH]; intros need ca ch qa ca' sa' Hc; cbn [load].
  all: assert (Hl : length ca = length ch) by (eapply Forall2_len; eauto).
  all: assert (Hm : load_min need ca = load_min need ch) by (unfold load_min; rewrite Hl; reflexivity).
  all: rewrite <- Hm; rewrite !skipn_length, <- Hl.
  all: pose proof (olew_tw_l Hc) as Ta; pose proof (olew_tw_r Hc) as Th.
  all: destruct (need =? load_min need ca).
  1,3: intros E; injection E as <- <- <-; do 3 eexists; split; [reflexivity|];
       split; [split; [apply load_part_rel_b; auto|split; apply load_part_w; auto]|];
       split; [apply Forall2_skipn; auto|constructor; auto].
  - destruct (_ =? 0); discriminate.
  - destruct (_ =? 0); [|discriminate]. intros E.
    destruct (load (negb b) (need - load_min need ca) x sa) as [[[q cc] ss]| | |] eqn:E1; try discriminate.
    cbn [bind] in E. injection E as <- <- <-.
    destruct (IH _ _ _ _ _ _ Hxy E1) as (q1 & c1' & s1' & E2 & (R & W1 & W2) & Hc' & Hs').
    rewrite E2. cbn [bind]. do 3 eexists. split; [reflexivity|]. split; auto.
    split; [|split; apply qapp_w; auto using load_part_w].
    pose proof (min_half need ca) as Hmm.
    apply (@qapp_rel (load_min need ca)); auto.
    + apply load_part_len. lia.
    + apply load_part_len. lia.
    + apply load_part_rel_b. auto.
Qed.

(* ---------------- loading is a bijection ---------------- *)

Lemma nth_wd l j : Forall wd l -> wd (nth j l 0%N).
Proof.
  intros H. destruct (Nat.lt_ge_cases j (length l)) as [L|L].
  - rewrite Forall_forall in H. apply H, nth_In; auto.
  - rewrite nth_overflow by auto. apply wd_0.
Qed.

Lemma olew_nth (l : list triple) : forall M A, Forall tw l -> Forall wd M -> Forall wd A ->
  length M = length l -> length A = length l ->
  (forall j, N.land (nth j (map fst l) 0%N) (nth j M 0%N) = N.lxor (nth j (map snd l) 0%N) (nth j A 0%N)) ->
  Forall2 olew l (combine M A).
Proof.
  induction l as [|p l IH]; intros [|m M] [|a A] Hl HM HA L1 L2 H; try discriminate; simpl; constructor.
  - inversion Hl; inversion HM; inversion HA; subst. split; [exact (H 0)|]. split; auto. split; auto.
  - inversion Hl; inversion HM; inversion HA; subst. apply IH; auto. intros j. exact (H (S j)).
Qed.

Lemma combine_map_fst A B : forall (l : list A) (m : list B), length l = length m -> map fst (combine l m) = l.
Proof. induction l as [|a l IH]; intros [|b m] H; simpl in *; try discriminate; auto. rewrite IH; auto. Qed.
Lemma combine_map_snd A B : forall (l : list A) (m : list B), length l = length m -> map snd (combine l m) = m.
Proof. induction l as [|a l IH]; intros [|b m] H; simpl in *; try discriminate; auto. rewrite IH; auto. Qed.

Lemma split3 A (l : list A) m : l = firstn m l ++ firstn m (skipn m l) ++ skipn (2 * m) l.
Proof.
  rewrite <- (firstn_skipn m l) at 1. f_equal. rewrite <- (firstn_skipn m (skipn m l)) at 1. f_equal.
  replace (2 * m) with (m + m) by lia. apply skipn_add.
Qed.

Lemma load_part_inv b m ca qh rest : 2 * m <= length ca -> Forall tw ca -> qlen m qh -> wq qh ->
  qrel (load_part (negb b) m ca) qh -> Forall2 olew (skipn (2 * m) ca) rest ->
  exists ch, Forall2 olew ca ch /\ load_part b m ch = qh /\ skipn (2 * m) ch = rest.
Proof.
  intros Hm Ht (LA & LB & LC & LD) (WA & WB & WC & WD) HR Hrest.
  assert (L0 : length (firstn m ca) = m) by (rewrite firstn_length; lia).
  assert (L1 : length (firstn m (skipn m ca)) = m) by (rewrite firstn_length, skipn_length; lia).
  pose proof (Forall_firstn' m Ht) as T0. pose proof (Forall_firstn' m (Forall_skipn' m Ht)) as T1.
  set (h0 := if b then combine (qA qh) (qB qh) else combine (qC qh) (qD qh)).
  set (h1 := if b then combine (qC qh) (qD qh) else combine (qA qh) (qB qh)).
  assert (H0 : length h0 = m) by (subst h0; destruct b; rewrite combine_length; lia).
  assert (H1 : length h1 = m) by (subst h1; destruct b; rewrite combine_length; lia).
  exists (h0 ++ h1 ++ rest).
  assert (E2 : skipn (2 * m) (h0 ++ h1 ++ rest) = rest).
  { rewrite app_assoc. apply skipn_app_len. rewrite app_length. lia. }
  split; [|split; auto].
  - rewrite (split3 ca m). apply Forall2_app; [|apply Forall2_app; auto].
    + subst h0. destruct b; apply olew_nth; auto; try lia; intros j; destruct (HR j) as [R1 R2];
        unfold load_part in R1, R2; cbn [negb qA qB qC qD] in R1, R2.
      * rewrite N.land_comm, N.lxor_comm. exact R2.
      * exact R1.
    + subst h1. destruct b; apply olew_nth; auto; try lia; intros j; destruct (HR j) as [R1 R2];
        unfold load_part in R1, R2; cbn [negb qA qB qC qD] in R1, R2.
      * exact R1.
      * rewrite N.land_comm, N.lxor_comm. exact R2.
  - unfold load_part. rewrite (firstn_app_len _ H0), (skipn_app_len _ H0), (firstn_app_len _ H1).
    subst h0 h1. destruct b; rewrite !combine_map_fst, !combine_map_snd by lia; destruct qh; reflexivity.
Qed.

Lemma nth_firstn_lt A (l : list A) n i d : i < n -> nth i (firstn n l) d = nth i l d.
Proof. revert n i. induction l as [|a l IH]; intros [|n] [|i] H; simpl; auto; try lia. apply IH. lia. Qed.
Lemma nth_skipn_add A (l : list A) n i d : nth i (skipn n l) d = nth (n + i) l d.
Proof. revert n. induction l as [|a l IH]; intros [|n]; simpl; auto. destruct i; auto. Qed.

Lemma qsplit_rel m p q qh : qlen m p -> qrel (qapp p q) qh ->
  qrel p (Quad (firstn m (qA qh)) (firstn m (qB qh)) (firstn m (qC qh)) (firstn m (qD qh))) /\
  qrel q (Quad (skipn m (qA qh)) (skipn m (qB qh)) (skipn m (qC qh)) (skipn m (qD qh))).
Proof.
  intros (A & B & C & D) H. split; intros j; cbn [qA qB qC qD].
  - destruct (Nat.lt_ge_cases j m) as [L|L].
    + rewrite !nth_firstn_lt by auto. destruct (H j) as [H1 H2]. unfold qapp in H1, H2. cbn [qA qB qC qD] in H1, H2.
      rewrite !app_nth1 in H1, H2 by lia. auto.
    + rewrite !(nth_overflow _ _ (n := j)) by (rewrite ?firstn_length; lia). auto.
  - destruct (H (m + j)) as [H1 H2]. unfold qapp in H1, H2. cbn [qA qB qC qD] in H1, H2.
    rewrite !app_nth2 in H1, H2 by lia.
    rewrite A, B, C, D in *. replace (m + j - m) with j in * by lia.
    rewrite !nth_skipn_add. auto.
Qed.

(* any paired continuation comes from correlated triples *)
Lemma load_inv b : forall sa need ca qa ca' sa', Forall tw ca -> Forall (Forall tw) sa ->
  load (negb b) need ca sa = Ok (qa, ca', sa') ->
  forall qh ch' sh', qlen need qh -> wq qh -> qrel qa qh ->
  Forall2 olew ca' ch' -> Forall2 (Forall2 olew) sa' sh' ->
  exists ch sh, Forall2 olew ca ch /\ Forall2 (Forall2 olew) sa sh /\ load b need ch sh = Ok (qh, ch', sh').
Proof.
  induction sa as [|x sa IH]; intros need ca qa ca' sa' Ta Ts; cbn [load];
    destruct (Nat.eqb_spec need (load_min need ca)) as [E|E].
  1,3: intros H; injection H as <- <- <-; intros qh ch' sh' Q W R Hc Hs; rewrite E in Q;
    destruct (@load_part_inv b _ ca qh ch' (min_half need ca) Ta Q W R Hc) as (ch & H1 & H2 & H3);
    exists ch, sh'; split; [exact H1|]; split; [exact Hs|];
    assert (Em : load_min need ch = load_min need ca) by (unfold load_min; rewrite (Forall2_len H1); reflexivity);
    assert (EE : need =? load_min need ch = true) by (apply Nat.eqb_eq; rewrite Em; exact E);
    destruct sh'; cbn [load]; rewrite EE, Em, H2, H3; reflexivity.
  - destruct (_ =? 0); discriminate.
  - destruct (Nat.eqb_spec (length (skipn (2 * load_min need ca) ca)) 0) as [EZ|]; [|discriminate].
    destruct (load (negb b) (need - load_min need ca) x sa) as [[[q c'] s']| | |] eqn:EL; try discriminate.
    cbn [bind]. intros H; injection H as <- <- <-. intros qh ch' sh' Q W R Hc Hs.
    set (m := load_min need ca) in *.
    pose proof (@load_part_len (negb b) _ _ (min_half need ca)) as QP. fold m in QP.
    assert (Hmn : m <= need) by (unfold m, load_min; lia).
    destruct (qsplit_rel QP R) as [R1 R2].
    destruct Q as (LA & LB & LC & LD). destruct W as (WA & WB & WC & WD).
    pose proof (Forall_inv Ts) as Tx. pose proof (Forall_inv_tail Ts) as Ts'. cbv beta in Tx.
    destruct (IH _ _ _ _ _ Tx Ts' EL (Quad (skipn m (qA qh)) (skipn m (qB qh)) (skipn m (qC qh)) (skipn m (qD qh))) ch' sh')
      as (cx & sx & X1 & X2 & X3); auto.
    { unfold qlen; cbn [qA qB qC qD]. rewrite !skipn_length. lia. }
    { unfold wq; cbn [qA qB qC qD]. auto using Forall_skipn'. }
    apply length_zero_iff_nil in EZ.
    destruct (@load_part_inv b m ca (Quad (firstn m (qA qh)) (firstn m (qB qh)) (firstn m (qC qh)) (firstn m (qD qh))) [])
      as (ch & H1 & H2 & H3); auto.
    { apply min_half. }
    { unfold qlen; cbn [qA qB qC qD]. rewrite !firstn_length. lia. }
    { unfold wq; cbn [qA qB qC qD]. auto using Forall_firstn'. }
    { rewrite EZ. constructor. }
    exists ch, (cx :: sx). split; [exact H1|]. split; [constructor; auto|].
    assert (Em : load_min need ch = m) by (unfold m, load_min; rewrite (Forall2_len H1); reflexivity).
    cbn [load]. rewrite Em, H2, H3, X3. destruct (Nat.eqb_spec need m); [contradiction|].
    cbn [bind length Nat.eqb]. unfold qapp; cbn [qA qB qC qD]. rewrite !firstn_skipn. destruct qh; reflexivity.
Qed.

Lemma map_fst_snd_inj A B (l m : list (A * B)) : map fst l = map fst m -> map snd l = map snd m -> l = m.
Proof. intros H1 H2. rewrite <- (combine_fst_snd l), <- (combine_fst_snd m). congruence. Qed.

Lemma load_part_inj b m c1 c2 : load_part b m c1 = load_part b m c2 -> skipn (2 * m) c1 = skipn (2 * m) c2 -> c1 = c2.
Proof.
  intros H Hs. rewrite (split3 c1 m), (split3 c2 m), Hs.
  unfold load_part in H. destruct b; injection H as H1 H2 H3 H4;
    rewrite (map_fst_snd_inj H1 H2), (map_fst_snd_inj H3 H4); reflexivity.
Qed.

Lemma app_inj_len A : forall (a b c d : list A), length a = length c -> a ++ b = c ++ d -> a = c /\ b = d.
Proof.
  induction a as [|x a IH]; intros b [|y c] d L H; simpl in *; try discriminate; auto.
  injection H as -> H. destruct (IH b c d) as [-> ->]; auto.
Qed.
Lemma qapp_inj m p q p' q' : qlen m p -> qlen m p' -> qapp p q = qapp p' q' -> p = p' /\ q = q'.
Proof.
  intros (A & B & C & D) (A' & B' & C' & D') H. unfold qapp in H. injection H as H1 H2 H3 H4.
  apply app_inj_len in H1; [|congruence]. apply app_inj_len in H2; [|congruence].
  apply app_inj_len in H3; [|congruence]. apply app_inj_len in H4; [|congruence].
  destruct p, q, p', q'; simpl in *. intuition congruence.
Qed.

Lemma load_inj b : forall s1 s2 need c1 c2 q c s, length c1 = length c2 ->
  map (@length triple) s1 = map (@length triple) s2 ->
  load b need c1 s1 = Ok (q, c, s) -> load b need c2 s2 = Ok (q, c, s) -> c1 = c2 /\ s1 = s2.
Proof.
  induction s1 as [|x s1 IH]; intros [|y s2] need c1 c2 q c s Hl Hs; try discriminate; cbn [load];
    assert (Em : load_min need c2 = load_min need c1) by (unfold load_min; rewrite Hl; reflexivity);
    rewrite Em; destruct (Nat.eqb_spec need (load_min need c1)) as [E|E].
  1,3: intros H1 H2; injection H1 as H11 H12 H13; injection H2 as H21 H22 H23;
    clear E Em IH || clear E Em; split; [apply (@load_part_inj b (load_min need c1)); [exact (eq_trans H11 (eq_sym H21))|exact (eq_trans H12 (eq_sym H22))]|exact (eq_trans H13 (eq_sym H23))].
  - destruct (_ =? 0); discriminate.
  - cbn [map] in Hs. injection Hs as Hx Hs.
    destruct (Nat.eqb_spec (length (skipn (2 * load_min need c1) c1)) 0) as [Z1|]; [|discriminate].
    destruct (Nat.eqb_spec (length (skipn (2 * load_min need c1) c2)) 0) as [Z2|]; [|discriminate].
    destruct (load b (need - load_min need c1) x s1) as [[[q1 c1'] s1']| | |] eqn:E1; try discriminate.
    destruct (load b (need - load_min need c1) y s2) as [[[q2 c2'] s2']| | |] eqn:E2; try discriminate.
    cbn [bind]. intros H1 H2. injection H1 as H11 H12 H13. injection H2 as H21 H22 H23. subst.
    assert (Q1 : qlen (load_min need c1) (load_part b (load_min need c1) c1)) by apply load_part_len, min_half.
    assert (Q2 : qlen (load_min need c1) (load_part b (load_min need c1) c2)).
    { apply load_part_len. rewrite <- Hl. apply min_half. }
    assert (HQ : qapp (load_part b (load_min need c1) c1) q1 = qapp (load_part b (load_min need c1) c2) q2) by congruence.
    destruct (qapp_inj Q1 Q2 HQ) as [HP ->].
    destruct (IH s2 (need - load_min need c1) x y q2 c s Hx Hs) as [-> ->]; auto.
    split; auto. apply (@load_part_inj b (load_min need c1)); auto.
    apply length_zero_iff_nil in Z1. apply length_zero_iff_nil in Z2. congruence.
Qed.

(* ---------------- the messages are padded by the multipliers ---------------- *)

Fixpoint msgl (role : bool) (w : nat) (gs : list gate) (mem : list (list N)) (A C : list N) : list (list N) :=
  match gs with
  | [] => []
  | g :: gs' =>
    if nonlinear (gType g) then
      mult_send role (gType g) (firstn w A) (firstn w C) (row mem (gIn0 g)) (row mem (gIn1 g)) ::
      msgl role w gs' mem (skipn w A) (skipn w C)
    else msgl role w gs' (lin_step role mem g) A C
  end.
Lemma msgs_msgl role w q : forall gs mem j,
  msgs_of role w q gs mem j = msgl role w gs mem (skipn j (qA q)) (skipn j (qC q)).
Proof.
  induction gs as [|g gs IH]; intros mem j; cbn [msgs_of msgl]; auto.
  destruct (nonlinear (gType g)); rewrite IH; auto. rewrite !skipn_add. reflexivity.
Qed.

Definition offA (role : bool) (t : gate_type) (x : list N) : list N :=
  map (fun x => N.lxor x (imask (if role then false else invertA t))) x.
Definition offC (role : bool) (t : gate_type) (y : list N) : list N :=
  map (fun y => N.lxor y (imask (if role then false else invertB t))) y.

Lemma map2_map_r A B C D (f : A -> B -> C) (g : D -> B) : forall l m, map2 f l (map g m) = map2 (fun a d => f a (g d)) l m.
Proof. induction l as [|a l IH]; intros [|d m]; simpl; auto. rewrite IH; auto. Qed.
Lemma map2_ext A B C (f g : A -> B -> C) : (forall a b, f a b = g a b) -> forall l m, map2 f l m = map2 g l m.
Proof. intros H. induction l as [|a l IH]; intros [|b m]; simpl; auto. rewrite IH, H; auto. Qed.

Lemma mult_send_pad role t a c x y : mult_send role t a c x y =
  if role then map2 N.lxor c (offC role t y) ++ map2 N.lxor a (offA role t x)
  else map2 N.lxor a (offA role t x) ++ map2 N.lxor c (offC role t y).
Proof.
  unfold mult_send, send_u, send_w, offA, offC. rewrite !map2_map_r.
  destruct role; cbn [invertA invertB]; f_equal; apply map2_ext; intros u v.
  1,2: unfold imask; rewrite N.lxor_0_r; reflexivity.
  - destruct (invertA t); unfold imask; rewrite ?N.lxor_0_r, ?N.lxor_assoc; reflexivity.
  - destruct (invertB t); unfold imask; rewrite ?N.lxor_0_r; reflexivity.
Qed.
Lemma offA_len role t x : length (offA role t x) = length x. Proof. apply map_length. Qed.
Lemma offC_len role t x : length (offC role t x) = length x. Proof. apply map_length. Qed.
Lemma offA_w role t x : Forall wd x -> Forall wd (offA role t x).
Proof. intros H. apply Forall_map_i. apply (Forall_impl _ (P := wd)); auto. intros; auto using wd_lxor, wd_imask. Qed.
Lemma offC_w role t x : Forall wd x -> Forall wd (offC role t x).
Proof. intros H. apply Forall_map_i. apply (Forall_impl _ (P := wd)); auto. intros; auto using wd_lxor, wd_imask. Qed.

Definition repad (a o o' : list N) : list N := map2 N.lxor (map2 N.lxor a o) o'.
Lemma repad_ok : forall a o o', length a = length o -> length o = length o' ->
  map2 N.lxor (repad a o o') o' = map2 N.lxor a o.
Proof.
  unfold repad. induction a as [|x a IH]; intros [|y o] [|z o'] H1 H2; simpl in *; try discriminate; auto.
  rewrite IH by lia. rewrite (N.lxor_assoc _ z z), N.lxor_nilpotent, N.lxor_0_r. reflexivity.
Qed.
Lemma pad_inj : forall a a' o, length a = length o -> length a' = length o ->
  map2 N.lxor a o = map2 N.lxor a' o -> a = a'.
Proof.
  induction a as [|x a IH]; intros [|x' a'] [|y o] H1 H2 H; simpl in *; try discriminate; auto.
  injection H as H H0. f_equal; [|apply (IH a' o); auto; lia].
  apply (f_equal (fun z => N.lxor z y)) in H.
  rewrite !N.lxor_assoc, !N.lxor_nilpotent, !N.lxor_0_r in H. exact H.
Qed.

Lemma lin_step_mem role wires w mem g : mem_ok wires w mem -> gIn0 g < wires -> gIn1 g < wires ->
  mem_ok wires w (lin_step role mem g).
Proof.
  intros HM H0 H1. unfold lin_step. destruct (nonlinear (gType g)); auto.
  apply mem_upd; auto. apply lin_out_len; eapply mem_row; eauto.
Qed.

Lemma pad_exists role wires w : forall gs mem mem' A C, mem_ok wires w mem -> mem_ok wires w mem' ->
  memw mem -> memw mem' -> gates_ok wires gs -> Forall wd A -> Forall wd C ->
  length A = w * count_nonlinear gs -> length C = w * count_nonlinear gs ->
  exists A' C', length A' = length A /\ length C' = length C /\ Forall wd A' /\ Forall wd C' /\
    msgl role w gs mem' A' C' = msgl role w gs mem A C.
Proof.
  induction gs as [|g gs IH]; intros mem mem' A C HM HM' MW MW' Hg WA WC LA LC.
  - exists A, C. auto.
  - destruct (Hg g (or_introl eq_refl)) as (G0 & G1 & G2 & G3).
    assert (Hgs : gates_ok wires gs) by (intros h Hh; apply Hg; right; auto).
    rewrite count_cons in LA, LC. cbn [msgl]. destruct (nonlinear (gType g)) eqn:E.
    + destruct (IH mem mem' (skipn w A) (skipn w C)) as (A' & C' & L1 & L2 & W1 & W2 & EM);
        auto using Forall_skipn'; [rewrite skipn_length; lia|rewrite skipn_length; lia|].
      rewrite skipn_length in L1, L2.
      pose proof (mem_row HM G0) as R0. pose proof (mem_row HM G1) as R1.
      pose proof (mem_row HM' G0) as R0'. pose proof (mem_row HM' G1) as R1'.
      assert (FA : length (firstn w A) = w) by (rewrite firstn_length; lia).
      assert (FC : length (firstn w C) = w) by (rewrite firstn_length; lia).
      set (a' := repad (firstn w A) (offA role (gType g) (row mem (gIn0 g))) (offA role (gType g) (row mem' (gIn0 g)))).
      set (c' := repad (firstn w C) (offC role (gType g) (row mem (gIn1 g))) (offC role (gType g) (row mem' (gIn1 g)))).
      assert (La : length a' = w) by (subst a'; unfold repad; rewrite !map2_length, !offA_len; lia).
      assert (Lc : length c' = w) by (subst c'; unfold repad; rewrite !map2_length, !offC_len; lia).
      exists (a' ++ A'), (c' ++ C'). rewrite !app_length.
      split; [lia|]. split; [lia|].
      split; [apply Forall_app; split; auto; subst a'; unfold repad;
        repeat (apply (@Forall_map2 _ _ _ wd wd wd); auto using wd_lxor, offA_w, memw_row, Forall_firstn')|].
      split; [apply Forall_app; split; auto; subst c'; unfold repad;
        repeat (apply (@Forall_map2 _ _ _ wd wd wd); auto using wd_lxor, offC_w, memw_row, Forall_firstn')|].
      rewrite (firstn_app_len _ La), (firstn_app_len _ Lc), (skipn_app_len _ La), (skipn_app_len _ Lc).
      rewrite EM. f_equal. rewrite !mult_send_pad. subst a' c'.
      rewrite !repad_ok by (rewrite ?offA_len, ?offC_len; lia). reflexivity.
    + apply IH; auto using lin_step_mem, lin_step_w.
Qed.

Lemma msgl_inj role wires w : forall gs mem A C A' C', mem_ok wires w mem -> gates_ok wires gs ->
  length A = w * count_nonlinear gs -> length C = w * count_nonlinear gs ->
  length A' = w * count_nonlinear gs -> length C' = w * count_nonlinear gs ->
  msgl role w gs mem A C = msgl role w gs mem A' C' -> A = A' /\ C = C'.
Proof.
  induction gs as [|g gs IH]; intros mem A C A' C' HM Hg LA LC LA' LC'.
  - unfold count_nonlinear in *. simpl in *. rewrite Nat.mul_0_r in *.
    apply length_zero_iff_nil in LA, LC, LA', LC'. subst. auto.
  - destruct (Hg g (or_introl eq_refl)) as (G0 & G1 & G2 & G3).
    assert (Hgs : gates_ok wires gs) by (intros h Hh; apply Hg; right; auto).
    rewrite count_cons in LA, LC, LA', LC'. cbn [msgl]. destruct (nonlinear (gType g)) eqn:E.
    + intros H. injection H as H1 H2.
      apply IH in H2; auto; try (rewrite skipn_length; lia). destruct H2 as [H2 H3].
      pose proof (mem_row HM G0) as R0. pose proof (mem_row HM G1) as R1.
      assert (F : forall l : list N, length l = w * (1 + count_nonlinear gs) -> length (firstn w l) = w)
        by (intros l Hl; rewrite firstn_length; lia).
      rewrite !mult_send_pad in H1.
      assert (HH : map2 N.lxor (firstn w A) (offA role (gType g) (row mem (gIn0 g))) =
                   map2 N.lxor (firstn w A') (offA role (gType g) (row mem (gIn0 g))) /\
                   map2 N.lxor (firstn w C) (offC role (gType g) (row mem (gIn1 g))) =
                   map2 N.lxor (firstn w C') (offC role (gType g) (row mem (gIn1 g)))).
      { destruct role; apply app_inj_len in H1; try tauto;
          rewrite !map2_length, ?offA_len, ?offC_len, !F by auto; reflexivity. }
      destruct HH as [HA HC].
      apply pad_inj in HA; [|rewrite offA_len, F by auto; lia|rewrite offA_len, F by auto; lia].
      apply pad_inj in HC; [|rewrite offC_len, F by auto; lia|rewrite offC_len, F by auto; lia].
      split.
      * rewrite <- (firstn_skipn w A), <- (firstn_skipn w A'). congruence.
      * rewrite <- (firstn_skipn w C), <- (firstn_skipn w C'). congruence.
    + apply IH; auto using lin_step_mem.
Qed.

(* ---------------- one round ---------------- *)

Lemma concat_lens_inj A : forall (l m : list (list A)), map (@length A) l = map (@length A) m -> concat l = concat m -> l = m.
Proof.
  induction l as [|x l IH]; intros [|y m] H E; simpl in *; try discriminate; auto.
  injection H as H1 H2. apply app_inj_len in E; auto. destruct E as [-> E]. f_equal. auto.
Qed.

Definition after (role : bool) (w : nat) (q : quad) (gs : list gate) (mem : list (list N)) (ms : list (list N)) :=
  nl_run role w q gs (lin_run role gs mem) 0 ms.

Lemma nl_run_mem role wires w n q : qlen n q -> forall gs mem j ms, mem_ok wires w mem -> gates_ok wires gs ->
  j + w * count_nonlinear gs <= n -> length ms = count_nonlinear gs -> Forall (fun m => length m = 2 * w) ms ->
  mem_ok wires w (nl_run role w q gs mem j ms).
Proof.
  intros Hq. induction gs as [|g gs IH]; intros mem j ms HM Hg Hn Lm Fm; cbn [nl_run]; auto.
  destruct (Hg g (or_introl eq_refl)) as (G0 & G1 & G2 & G3).
  assert (Hgs : gates_ok wires gs) by (intros h Hh; apply Hg; right; auto).
  rewrite count_cons in *. destruct (nonlinear (gType g)) eqn:E; [|apply IH; auto].
  destruct ms as [|m ms]; [discriminate|]. cbn [hd tl]. inversion Fm; subst.
  assert (Hj : j + w <= length (qA q)) by (destruct Hq as (-> & _); clear - Hn; nia).
  assert (Hj' : j + w <= n) by (destruct Hq as (<- & _); auto).
  destruct (qslice Hq Hj') as (QA & QB & QC & QD).
  apply IH; auto.
  - apply mem_upd; auto. apply mult_recv_len; auto; eapply mem_row; eauto.
  - clear - Hn. nia.
Qed.

Lemma round2_eq wires w lv mem0 mem1 c0 c1 s0 s1 q0 q1 c0' c1' s0' s1' : 0 < w -> level_ok wires lv ->
  mem_ok wires w mem0 -> mem_ok wires w mem1 ->
  load false (w * snd lv) c0 s0 = Ok (q0, c0', s0') -> load true (w * snd lv) c1 s1 = Ok (q1, c1', s1') ->
  let m0 := after false w q0 (fst lv) mem0 (msgs_of true w q1 (fst lv) mem1 0) in
  let m1 := after true w q1 (fst lv) mem1 (msgs_of false w q0 (fst lv) mem0 0) in
  exists t0 t1,
    round2 w lv (mem0, c0, s0) (mem1, c1, s1) = Ok ((m0, c0', s0'), (m1, c1', s1'), (t0, t1)) /\
    mem_ok wires w m0 /\ mem_ok wires w m1 /\
    concat t0 = concat (msgs_of false w q0 (fst lv) mem0 0) /\
    concat t1 = concat (msgs_of true w q1 (fst lv) mem1 0) /\
    map (@length N) t0 = chunks (maxmsg w) (w * snd lv * 2) /\
    map (@length N) t1 = chunks (maxmsg w) (w * snd lv * 2).
Proof.
  intros Hw (Hlev & Hcnt & Hg) M0 M1 E0 E1. fold (gates_ok wires (fst lv)) in Hg.
  pose proof (@load_len _ _ _ _ _ _ _ E0) as Q0. pose proof (@load_len _ _ _ _ _ _ _ E1) as Q1.
  cbv zeta. unfold round2, round_send. rewrite E0, E1. cbn [bind].
  assert (HN : 0 + w * count_nonlinear (fst lv) <= w * snd lv) by (rewrite Hcnt; lia).
  assert (HB : buf_inv w (count_nonlinear (fst lv)) 0 (w * snd lv * 2) []) by (left; repeat split; rewrite Hcnt; lia).
  destruct (@send_gates_ok false wires w _ q0 Hw Q0 _ mem0 0 0 [] (w * snd lv * 2) [] M0 Hg HN HB) as (t0 & S0 & T0 & L0).
  destruct (@send_gates_ok true wires w _ q1 Hw Q1 _ mem1 0 0 [] (w * snd lv * 2) [] M1 Hg HN HB) as (t1 & S1 & T1 & L1).
  rewrite S0, S1. cbn [bind sRem sCap sMem sMsgs Nat.eqb andb app].
  unfold round_recv.
  destruct (@msgs_of_len false wires w _ q0 Q0 (fst lv) mem0 0 M0 Hg HN) as [ML0 MF0].
  destruct (@msgs_of_len true wires w _ q1 Q1 (fst lv) mem1 0 M1 Hg HN) as [ML1 MF1].
  cbn [Nat.eqb app] in T0, T1, L0, L1.
  assert (R0 : w * snd lv * 2 = length (concat t1)) by (rewrite T1, (concat_len_const MF1), ML1, Hcnt; lia).
  assert (R1 : w * snd lv * 2 = length (concat t0)) by (rewrite T0, (concat_len_const MF0), ML0, Hcnt; lia).
  rewrite (@recv_gates_ok false wires w _ q0 Hw Q0 (fst lv) _ 0 [] _ t1 (msgs_of true w q1 (fst lv) mem1 0));
    auto using lin_run_mem; [|exists 0; simpl; lia].
  cbn [bind rRem rMsgs rMem Nat.eqb].
  rewrite (@recv_gates_ok true wires w _ q1 Hw Q1 (fst lv) _ 0 [] _ t0 (msgs_of false w q0 (fst lv) mem0 0));
    auto using lin_run_mem; [|exists 0; simpl; lia].
  cbn [bind rRem rMsgs rMem Nat.eqb].
  exists t0, t1. split; [reflexivity|].
  split; [eapply nl_run_mem; eauto using lin_run_mem|].
  split; [eapply nl_run_mem; eauto using lin_run_mem|]. auto.
Qed.

(* the party with role b keeps its secret (h), the other one (a) looks *)
Definition duo {X} (b : bool) (a h : X) : X * X := if b then (a, h) else (h, a).
Definition round_b (b : bool) w lv (a h : pst) := let p := duo b a h in round2 w lv (fst p) (snd p).
Definition rounds_b (b : bool) w lvs (a h : pst) := let p := duo b a h in rounds2 w lvs (fst p) (snd p).

Lemma round_b_eq b wires w lv mema memh ca ch sa sh qa qh ca' ch' sa' sh' : 0 < w -> level_ok wires lv ->
  mem_ok wires w mema -> mem_ok wires w memh ->
  load (negb b) (w * snd lv) ca sa = Ok (qa, ca', sa') -> load b (w * snd lv) ch sh = Ok (qh, ch', sh') ->
  let ma := after (negb b) w qa (fst lv) mema (msgs_of b w qh (fst lv) memh 0) in
  let mh := after b w qh (fst lv) memh (msgs_of (negb b) w qa (fst lv) mema 0) in
  exists ta th,
    round_b b w lv (mema, ca, sa) (memh, ch, sh) = Ok (duo b (ma, ca', sa') (mh, ch', sh'), duo b ta th) /\
    mem_ok wires w ma /\ mem_ok wires w mh /\
    concat ta = concat (msgs_of (negb b) w qa (fst lv) mema 0) /\
    concat th = concat (msgs_of b w qh (fst lv) memh 0) /\
    map (@length N) ta = chunks (maxmsg w) (w * snd lv * 2) /\
    map (@length N) th = chunks (maxmsg w) (w * snd lv * 2).
Proof.
  intros Hw HL Ma Mh Ea Eh. unfold round_b, duo. destruct b; cbn [negb fst snd] in *.
  - destruct (@round2_eq wires w lv mema memh ca ch sa sh qa qh ca' ch' sa' sh' Hw HL Ma Mh Ea Eh) as (t0 & t1 & H).
    exists t0, t1. exact H.
  - destruct (@round2_eq wires w lv memh mema ch ca sh sa qh qa ch' ca' sh' sa' Hw HL Mh Ma Eh Ea)
      as (t0 & t1 & H1 & H2 & H3 & H4 & H5 & H6 & H7).
    exists t1, t0. auto 10.
Qed.

Lemma rounds_b_cons b w lv lvs a h a1 h1 t : round_b b w lv a h = Ok (duo b a1 h1, t) ->
  rounds_b b w (lv :: lvs) a h = do rs <- rounds_b b w lvs a1 h1; Ok (fst rs, t :: snd rs).
Proof.
  unfold round_b, rounds_b, duo. destruct b; cbn [fst snd rounds2]; intros ->; cbn [bind].
  all: destruct (rounds2 w lvs _ _) as [[[p q] tr]| | |]; reflexivity.
Qed.

(* the messages of the party with role b *)
Definition view (b : bool) (tr : list (list (list N) * list (list N))) : list (list (list N)) :=
  map (fun t => if b then snd t else fst t) tr.

Lemma ole_even (sa sh : list (list triple)) : Forall2 (Forall2 olew) sa sh -> even_segs sa -> even_segs sh.
Proof. induction 1 as [|x y sa sh H HF IH]; intros E; inversion E; subst; constructor; [rewrite <- (Forall2_len H); auto|apply IH; auto]. Qed.

Lemma qBD (l m : list N) : length l = length m -> (forall j, nth j l 0%N = nth j m 0%N) -> l = m.
Proof.
  revert m. induction l as [|x l IH]; intros [|y m] L H; try discriminate; auto.
  f_equal; [exact (H 0)|]. apply IH; [simpl in L; lia|]. intros j. exact (H (S j)).
Qed.
Lemma lxor_solve a b c : a = N.lxor b c -> c = N.lxor a b.
Proof. intros ->. rewrite (N.lxor_comm b c), N.lxor_assoc, N.lxor_nilpotent, N.lxor_0_r. reflexivity. Qed.

(* the addends follow from the multipliers *)
Lemma quad_unique n qa q q' : qlen n q -> qlen n q' -> qrel qa q -> qrel qa q' ->
  qA q = qA q' -> qC q = qC q' -> q = q'.
Proof.
  intros (A & B & C & D) (A' & B' & C' & D') R R' HA HC.
  assert (HB : qB q = qB q').
  { apply qBD; [congruence|]. intros j. destruct (R j) as [_ R2]. destruct (R' j) as [_ R2'].
    rewrite N.lxor_comm in R2, R2'. apply lxor_solve in R2. apply lxor_solve in R2'. rewrite R2, R2', HA. reflexivity. }
  assert (HD : qD q = qD q').
  { apply qBD; [congruence|]. intros j. destruct (R j) as [R2 _]. destruct (R' j) as [R2' _].
    apply lxor_solve in R2. apply lxor_solve in R2'. rewrite R2, R2', HC. reflexivity. }
  destruct q, q'; simpl in *. congruence.
Qed.

Lemma quad_complete n qa A C : qlen n qa -> wq qa -> length A = n -> length C = n -> Forall wd A -> Forall wd C ->
  exists q, qlen n q /\ wq q /\ qrel qa q /\ qA q = A /\ qC q = C.
Proof.
  intros (LA & LB & LC & LD) (WA & WB & WC & WD) HA HC FA FC.
  exists (Quad A (map2 N.lxor (map2 N.land A (qC qa)) (qD qa)) C (map2 N.lxor (map2 N.land (qA qa) C) (qB qa))).
  split; [unfold qlen; cbn [qA qB qC qD]; rewrite !map2_length; lia|].
  split.
  { unfold wq; cbn [qA qB qC qD]. split; auto. split; [|split; auto];
      repeat (apply (@Forall_map2 _ _ _ wd wd wd); auto using wd_lxor, wd_land). }
  split; [|auto]. intros j; cbn [qA qB qC qD].
  destruct (Nat.lt_ge_cases j n) as [L|L].
  - rewrite !(@nth_map2 _ _ _ _ _ _ _ 0%N 0%N) by (rewrite ?map2_length; lia). split.
    + rewrite N.lxor_comm, N.lxor_assoc, N.lxor_nilpotent, N.lxor_0_r. reflexivity.
    + rewrite N.lxor_assoc, N.lxor_nilpotent, N.lxor_0_r. reflexivity.
  - rewrite !(nth_overflow _ _ (n := j)) by (rewrite ?map2_length; lia). auto.
Qed.

Lemma even_len_flip (c d : list triple) : Forall2 olew c d -> length d = length c.
Proof. intros H. symmetry. eapply Forall2_len; eauto. Qed.

(* for every secret there are triples giving the same view *)
Lemma rounds_b_exists b wires w : 0 < w -> forall lvs mema memh memh' ca ch sa sh,
  Forall (level_ok wires) lvs -> mem_ok wires w mema -> mem_ok wires w memh -> mem_ok wires w memh' ->
  memw mema -> memw memh -> memw memh' ->
  Forall2 olew ca ch -> Forall2 (Forall2 olew) sa sh -> Nat.even (length ca) = true -> even_segs sa ->
  demand w lvs <= length ca + length (concat sa) ->
  exists ch' sh' pa ph ph' tr, Forall2 olew ca ch' /\ Forall2 (Forall2 olew) sa sh' /\
    rounds_b b w lvs (mema, ca, sa) (memh, ch, sh) = Ok (duo b pa ph, tr) /\
    rounds_b b w lvs (mema, ca, sa) (memh', ch', sh') = Ok (duo b pa ph', tr).
Proof.
  intros Hw. induction lvs as [|lv lvs IH]; intros mema memh memh' ca ch sa sh HL Ma Mh Mh' Wa Wh Wh' HC HS He Hes Hd.
  - exists ch, sh. do 4 eexists. split; [exact HC|]. split; [exact HS|].
    unfold rounds_b, duo. destruct b; cbn [fst snd rounds2]; split; reflexivity.
  - inversion HL as [|? ? H1 H2]; subst. rewrite demand_cons in Hd.
    destruct (H1) as (Hlev & Hcnt & Hg). fold (gates_ok wires (fst lv)) in Hg.
    destruct (@load_ok (negb b) sa (w * snd lv) ca He Hes) as (qa & ca1 & sa1 & Ea & Qa & He' & Hes' & Hlen & _).
    { rewrite Hcnt. lia. }
    destruct (@load_rel_b b _ _ HS _ _ _ _ _ _ HC Ea) as (qh & ch1 & sh1 & Eh & (QR & WQa & WQh) & HC1 & HS1).
    pose proof (@load_len _ _ _ _ _ _ _ Eh) as Qh.
    destruct (@pad_exists b wires w (fst lv) memh memh' (qA qh) (qC qh)) as (A' & C' & LA & LC & FA & FC & EM); auto;
      try apply WQh; try (rewrite <- Hcnt; apply Qh).
    destruct (@quad_complete (w * snd lv) qa A' C') as (qh' & Qh' & WQh' & QR' & EA & EC); auto.
    { rewrite LA. apply Qh. } { rewrite LC. apply Qh. }
    assert (EMM : msgs_of b w qh' (fst lv) memh' 0 = msgs_of b w qh (fst lv) memh 0).
    { rewrite !msgs_msgl. cbn [skipn]. rewrite EA, EC. exact EM. }
    destruct (@round_b_eq b wires w lv mema memh ca ch sa sh qa qh ca1 ch1 sa1 sh1 Hw H1 Ma Mh Ea Eh)
      as (ta & th & ER & Ma1 & Mh1 & CTa & CTh & LTa & LTh).
    assert (Hmsg : Forall (Forall wd) (msgs_of b w qh (fst lv) memh 0)) by (apply msgs_of_w; auto).
    assert (Hmsga : Forall (Forall wd) (msgs_of (negb b) w qa (fst lv) mema 0)) by (apply msgs_of_w; auto).
    (* the remaining rounds, from the states both runs are in after this round *)
    assert (Mh1' : mem_ok wires w (after b w qh' (fst lv) memh' (msgs_of (negb b) w qa (fst lv) mema 0))).
    { destruct (@msgs_of_len (negb b) wires w _ qa Qa (fst lv) mema 0 Ma Hg) as [ML MF]; [rewrite Hcnt; lia|].
      eapply nl_run_mem; eauto using lin_run_mem. rewrite Hcnt. lia. }
    destruct (IH (after (negb b) w qa (fst lv) mema (msgs_of b w qh (fst lv) memh 0))
                 (after b w qh (fst lv) memh (msgs_of (negb b) w qa (fst lv) mema 0))
                 (after b w qh' (fst lv) memh' (msgs_of (negb b) w qa (fst lv) mema 0)) ca1 ch1 sa1 sh1)
      as (ch1' & sh1' & pa & ph & ph' & tr & HC1' & HS1' & E1 & E2); auto.
    { apply nl_run_w; auto using lin_run_w. }
    { apply nl_run_w; auto using lin_run_w. }
    { apply nl_run_w; auto using lin_run_w. }
    { rewrite Hcnt in Hlen. lia. }
    destruct (@load_inv b sa (w * snd lv) ca qa ca1 sa1) with (qh := qh') (ch' := ch1') (sh' := sh1')
      as (ch' & sh' & HC' & HS' & Eh'); auto.
    { eapply olew_tw_l; eauto. }
    { clear - HS. induction HS; constructor; auto. eapply olew_tw_l; eauto. }
    destruct (@round_b_eq b wires w lv mema memh' ca ch' sa sh' qa qh' ca1 ch1' sa1 sh1' Hw H1 Ma Mh' Ea Eh')
      as (ta' & th' & ER' & _ & _ & CTa' & CTh' & LTa' & LTh').
    rewrite EMM in ER', CTh'.
    assert (ta' = ta) by (apply concat_lens_inj; congruence).
    assert (th' = th) by (apply concat_lens_inj; congruence). subst ta' th'.
    exists ch', sh', pa, ph, ph', (duo b ta th :: tr). split; [exact HC'|]. split; [exact HS'|].
    rewrite (rounds_b_cons lvs ER), (rounds_b_cons lvs ER'), E1, E2. split; reflexivity.
Qed.

Lemma nil_cur (ca ch : list triple) : Forall2 olew ca ch -> length ca = 0 -> ch = [].
Proof. intros H L. apply length_zero_iff_nil. rewrite <- (Forall2_len H). exact L. Qed.
Lemma nil_segs (sa sh sh' : list (list triple)) : Forall2 (Forall2 olew) sa sh -> Forall2 (Forall2 olew) sa sh' ->
  length (concat sa) = 0 -> sh = sh'.
Proof.
  intros H. revert sh'. induction H as [|x y sa sh H HF IH]; intros sh' H' L; inversion H'; subst; auto.
  simpl in L. rewrite app_length in L. f_equal; [|apply IH; auto; lia].
  rewrite (nil_cur H), (nil_cur H2) by lia. reflexivity.
Qed.
Lemma seg_lens (sa sh : list (list triple)) : Forall2 (Forall2 olew) sa sh -> map (@length triple) sh = map (@length triple) sa.
Proof. induction 1 as [|x y sa sh H HF IH]; simpl; auto. rewrite IH, (Forall2_len H). reflexivity. Qed.

Lemma len_concat_inj (a b : list (list N)) n : Forall (fun m => length m = n) a -> Forall (fun m => length m = n) b ->
  length a = length b -> concat a = concat b -> a = b.
Proof.
  intros Ha Hb L E. apply concat_lens_inj; auto. clear E. revert b Hb L.
  induction Ha as [|x a Hx Ha IH]; intros [|y b] Hb L; try discriminate; auto.
  inversion Hb; subst. simpl in *. f_equal; [congruence|]. apply IH; auto.
Qed.

(* the view determines the triples: when all are used, they are unique *)
Lemma rounds_b_unique b wires w : 0 < w -> forall lvs mema memh ca ch ch' sa sh sh' r r' tr tr',
  Forall (level_ok wires) lvs -> mem_ok wires w mema -> mem_ok wires w memh ->
  Forall2 olew ca ch -> Forall2 (Forall2 olew) sa sh -> Forall2 olew ca ch' -> Forall2 (Forall2 olew) sa sh' ->
  Nat.even (length ca) = true -> even_segs sa ->
  demand w lvs = length ca + length (concat sa) ->
  rounds_b b w lvs (mema, ca, sa) (memh, ch, sh) = Ok (r, tr) ->
  rounds_b b w lvs (mema, ca, sa) (memh, ch', sh') = Ok (r', tr') ->
  view b tr = view b tr' -> ch = ch' /\ sh = sh'.
Proof.
  intros Hw. induction lvs as [|lv lvs IH]; intros mema memh ca ch ch' sa sh sh' r r' tr tr' HL Ma Mh HC HS HC' HS' He Hes Hd E E' HV.
  - simpl in Hd. rewrite (nil_cur HC), (nil_cur HC') by lia. split; auto. eapply nil_segs; eauto. lia.
  - inversion HL as [|? ? H1 H2]; subst. rewrite demand_cons in Hd.
    destruct (H1) as (Hlev & Hcnt & Hg). fold (gates_ok wires (fst lv)) in Hg.
    destruct (@load_ok (negb b) sa (w * snd lv) ca He Hes) as (qa & ca1 & sa1 & Ea & Qa & He' & Hes' & Hlen & _).
    { rewrite Hcnt. lia. }
    destruct (@load_rel_b b _ _ HS _ _ _ _ _ _ HC Ea) as (qh & ch1 & sh1 & Eh & (QR & WQa & WQh) & HC1 & HS1).
    destruct (@load_rel_b b _ _ HS' _ _ _ _ _ _ HC' Ea) as (qh' & ch1' & sh1' & Eh' & (QR' & _ & WQh') & HC1' & HS1').
    pose proof (@load_len _ _ _ _ _ _ _ Eh) as Qh. pose proof (@load_len _ _ _ _ _ _ _ Eh') as Qh'.
    destruct (@round_b_eq b wires w lv mema memh ca ch sa sh qa qh ca1 ch1 sa1 sh1 Hw H1 Ma Mh Ea Eh)
      as (ta & th & ER & Ma1 & Mh1 & CTa & CTh & LTa & LTh).
    destruct (@round_b_eq b wires w lv mema memh ca ch' sa sh' qa qh' ca1 ch1' sa1 sh1' Hw H1 Ma Mh Ea Eh')
      as (ta' & th' & ER' & _ & _ & CTa' & CTh' & LTa' & LTh').
    rewrite (rounds_b_cons lvs ER) in E. rewrite (rounds_b_cons lvs ER') in E'.
    destruct (rounds_b b w lvs _ (_, ch1, sh1)) as [[p1 tr1]| | |] eqn:E1; try discriminate.
    destruct (rounds_b b w lvs _ (_, ch1', sh1')) as [[p2 tr2]| | |] eqn:E2; try discriminate.
    cbn [bind fst snd] in E, E'. injection E as <- <-. injection E' as <- <-.
    unfold view in HV. cbn [map] in HV. injection HV as HT HV.
    assert (th' = th) by (unfold duo in HT; destruct b; cbn [fst snd] in HT; congruence). subst th'.
    assert (HN : 0 + w * count_nonlinear (fst lv) <= w * snd lv) by (rewrite Hcnt; lia).
    destruct (@msgs_of_len b wires w _ qh Qh (fst lv) memh 0 Mh Hg HN) as [ML MF].
    destruct (@msgs_of_len b wires w _ qh' Qh' (fst lv) memh 0 Mh Hg HN) as [ML' MF'].
    assert (EM : msgs_of b w qh (fst lv) memh 0 = msgs_of b w qh' (fst lv) memh 0)
      by (eapply len_concat_inj; eauto; congruence).
    assert (EQ : qh = qh').
    { rewrite !msgs_msgl in EM. cbn [skipn] in EM.
      apply (@msgl_inj b wires w) in EM; auto; try (rewrite <- Hcnt; apply Qh); try (rewrite <- Hcnt; apply Qh').
      destruct EM as [EA EC]. exact (quad_unique Qh Qh' QR QR' EA EC). }
    subst qh'.
    assert (Hd' : demand w lvs = length ca1 + length (concat sa1)) by (rewrite Hcnt in Hlen; lia).
    destruct (IH _ _ _ _ _ _ _ _ _ _ _ _ H2 Ma1 Mh1 HC1 HS1 HC1' HS1' He' Hes' Hd' E1 E2 HV) as [-> ->].
    apply (@load_inj b) with (2 := eq_trans (seg_lens HS) (eq_sym (seg_lens HS'))) (3 := Eh) (4 := Eh').
    rewrite <- (Forall2_len HC), <- (Forall2_len HC'). reflexivity.
Qed.

(* ---------------- the statement for a whole run ---------------- *)

Lemma olew_of (s t : list (list triple)) : Forall2 (Forall2 ole_pos) s t -> Forall (Forall tw) s -> Forall (Forall tw) t ->
  Forall2 (Forall2 olew) s t.
Proof.
  induction 1 as [|x y s t H HF IH]; intros Hs Ht; inversion Hs; inversion Ht; subst; constructor; auto.
  clear - H H2 H6. revert H2 H6. induction H as [|p q x y H HF IH]; intros Hx Hy; constructor; inversion Hx; inversion Hy; subst; auto.
  split; auto.
Qed.
Lemma of_olew (s t : list (list triple)) : Forall2 (Forall2 olew) s t ->
  Forall2 (Forall2 ole_pos) s t /\ Forall (Forall tw) s /\ Forall (Forall tw) t.
Proof.
  induction 1 as [|x y s t H HF (A & B & C)]; [repeat split; constructor|].
  repeat split; constructor; auto; [apply olew_ole|eapply olew_tw_l|eapply olew_tw_r]; eauto.
Qed.

Lemma run_priv b wires w lvs mema memh memh' sa sh : 0 < w ->
  Forall (level_ok wires) lvs -> mem_ok wires w mema -> mem_ok wires w memh -> mem_ok wires w memh' ->
  memw mema -> memw memh -> memw memh' ->
  Forall2 (Forall2 olew) sa sh -> even_segs sa -> demand w lvs = length (concat sa) ->
  exists sh' pa ph ph' tr, Forall2 (Forall2 olew) sa sh' /\
    rounds_b b w lvs (mema, [], sa) (memh, [], sh) = Ok (duo b pa ph, tr) /\
    rounds_b b w lvs (mema, [], sa) (memh', [], sh') = Ok (duo b pa ph', tr) /\
    forall s2 r2 tr2, Forall2 (Forall2 olew) sa s2 ->
      rounds_b b w lvs (mema, [], sa) (memh', [], s2) = Ok (r2, tr2) -> view b tr2 = view b tr -> s2 = sh'.
Proof.
  intros Hw HL Ma Mh Mh' Wa Wh Wh' HS He Hd.
  destruct (@rounds_b_exists b wires w Hw lvs mema memh memh' [] [] sa sh) as (ch' & sh' & pa & ph & ph' & tr & C & R & E1 & E2); auto.
  { simpl. lia. }
  inversion C; subst. exists sh', pa, ph, ph', tr. repeat (split; [assumption|]).
  intros s2 r2 tr2 H2 E V.
  destruct (@rounds_b_unique b wires w Hw lvs mema memh' [] [] [] sa s2 sh' r2 (duo b pa ph') tr2 tr) as [_ ->]; auto.
Qed.
