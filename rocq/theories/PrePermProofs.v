(* Proofs about the preparation of the permutations of the radix sort. *)
From Verif Require Import Base ShuffleModel PrePermModel PrePermSpec.

(* ---------------- the invariant of one party ---------------- *)

(* how many preparations have been released after the first py_lead ones *)
Definition rel (ll : nat) (c : mpc) : nat :=
  match c with
  | MBit i | MRel i | MWait i | MApply i => i
  | MComp i => S i
  | MPre | MDone => ll
  | _ => 0
  end.

(* the permutations of this many rounds have been announced to genPerm *)
Definition used (ll : nat) (c : mpc) : nat :=
  match c with
  | MBit i | MRel i | MComp i | MApply i => i
  | MWait i => i - 1
  | MPre | MDone => ll - 1
  | _ => 0
  end.

Definition rok (lead ll B rl us : nat) (fail : nat -> bool) (j : nat) (r : round) (t : ptask) : Prop :=
  rd_start r = (j <? lead + rl) /\ rd_bytes r = (if j =? ll - 1 then 0 else B) /\ t <> PThrow /\
  (t <> PWait -> rd_start r = true) /\ (t = PDone <-> rd_ready r = true) /\
  (t = PGen -> rd_bytes r <> 0) /\ (rd_ready r = true -> rd_bytes r <> 0 -> rd_perm r = negb (fail j)) /\
  (j < us -> rd_ready r = true).

Definition pc_ok (ll : nat) (c : mpc) : Prop :=
  match c with
  | MStart | MPre | MDone => True
  | MBit i | MRel i => i < ll
  | MComp i | MWait i | MApply i => 1 <= i < ll
  | _ => False
  end.

Definition past0 (c : mpc) : bool :=
  match c with MStart | MBit 0 | MRel 0 => false | _ => true end.

Definition next_ok (lead ll nx : nat) (c : mpc) : Prop :=
  past0 c = true -> (nx < ll -> nx = lead + rel ll c) /\ (ll <= nx -> ll <= lead + rel ll c).

Definition consts (lead ll : nat) (ext : bool) (fail : nat -> bool) (p : party) : Prop :=
  py_ll p = ll /\ py_lead p = lead /\ py_mock p = false /\ py_keys p = true /\ py_ext p = ext /\ py_fail p = fail.

Definition running (lead ll B : nat) (fail : nat -> bool) (p : party) (ts : list ptask) : Prop :=
  length (py_rounds p) = ll /\
  (forall j r t, nth_error (py_rounds p) j = Some r -> nth_error ts j = Some t ->
     rok lead ll B (rel ll (py_pc p)) (used ll (py_pc p)) fail j r t) /\
  next_ok lead ll (py_next p) (py_pc p).

Definition inv (lead ll B : nat) (ext : bool) (fail : nat -> bool) (p : party) : Prop :=
  consts lead ll ext fail p /\ pc_ok ll (py_pc p) /\
  ((py_pc p = MStart /\ py_pre p = NoPre /\ py_started p = false /\ ext = false /\ length (py_rounds p) = ll /\
    (forall j r, nth_error (py_rounds p) j = Some r -> r = Rd false false (if j =? ll - 1 then 0 else B) false false)) \/
   (exists ts, py_pre p = PreTasks ts /\ length ts = ll /\ py_started p = true /\
     ((py_pc p = MDone /\ ext = false /\ py_rounds p = [] /\ Forall (eq PDone) ts) \/
      ((py_pc p = MDone -> ext = true /\ Forall (eq PDone) ts) /\ running lead ll B fail p ts)))).

Lemma pre_start_spec lead : forall l i rs ts, pre_start lead i l = (rs, ts) ->
  length rs = length l /\ length ts = length l /\
  forall j r, nth_error l j = Some r -> rd_begun r = false -> rd_start r = false ->
    nth_error ts j = Some PWait /\ nth_error rs j = Some (Rd (i + j <? lead) (rd_ready r) (rd_bytes r) true (rd_perm r)).
Proof.
  induction l as [|r l IH]; intros i rs ts H; cbn [pre_start] in H.
  - injection H as <- <-. split; [reflexivity|]. split; [reflexivity|]. intros [|j]; discriminate.
  - destruct (pre_start lead (S i) l) as [rs0 ts0] eqn:E. destruct (IH _ _ _ E) as (L1 & L2 & F).
    assert (G : forall (r' : round) (b : bool), (if b then (r' :: rs0, PThrow :: ts0) else (set_begun r' :: rs0, PWait :: ts0)) = (rs, ts) ->
      length rs = S (length l) /\ length ts = S (length l) /\
      (forall j, nth_error rs (S j) = nth_error rs0 j /\ nth_error ts (S j) = nth_error ts0 j) /\
      (b = false -> rs = set_begun r' :: rs0 /\ ts = PWait :: ts0)).
    { intros r' [] K; injection K as <- <-; cbn [length]; repeat split; auto; discriminate. }
    destruct (G _ _ H) as (A1 & A2 & A3 & A4). cbn [length]. split; [exact A1|]. split; [exact A2|].
    intros [|j] r0 Hn Hb Hs; cbn [nth_error] in Hn.
    + injection Hn as ->. destruct A4 as [-> ->]. { destruct (i <? lead); cbn; exact Hb. }
      cbn [nth_error]. split; [reflexivity|]. rewrite Nat.add_0_r. unfold set_begun. destruct (i <? lead); cbn [set_start rd_start rd_ready rd_bytes rd_begun rd_perm]; rewrite ?Hs; reflexivity.
    + destruct (A3 j) as [-> ->]. destruct (F j r0 Hn Hb Hs) as [X Y]. split; [exact X|].
      replace (i + S j) with (S i + j) by lia. exact Y.
Qed.

Lemma nth_error_some A (l : list A) j : j < length l -> exists x, nth_error l j = Some x.
Proof. intros H. destruct (nth_error l j) eqn:E; [eauto|]. apply nth_error_None in E. lia. Qed.

Lemma nth_of_error A (l : list A) j x d : nth_error l j = Some x -> nth j l d = x.
Proof. apply nth_error_nth. Qed.

Lemma join_done ts : join_tasks ts = Some true -> Forall (eq PDone) ts.
Proof. induction ts as [|[] ts IH]; cbn; intros H; try discriminate; constructor; auto. Qed.

Lemma join_no_throw ts : (forall j, nth_error ts j <> Some PThrow) -> join_tasks ts <> Some false.
Proof.
  induction ts as [|t ts IH]; cbn; intros H; [discriminate|].
  destruct t; try discriminate. - apply IH. intros j. exact (H (S j)). - exfalso. exact (H 0 eq_refl).
Qed.

Lemma join_none ts : join_tasks ts = None -> exists j, nth_error ts j = Some PWait \/ nth_error ts j = Some PGen.
Proof.
  induction ts as [|t ts IH]; cbn; intros H; [discriminate|].
  destruct t; try discriminate; try (exists 0; cbn; auto; fail).
  destruct (IH H) as [j Hj]. exists (S j). exact Hj.
Qed.

Ltac rsplit := unfold rok; split; [|split; [|split; [|split; [|split; [|split; [|split]]]]]]; cbn [set_ready set_start set_begun rd_start rd_ready rd_bytes rd_begun rd_perm].

Section Party.
Variables (lead ll B : nat) (ext : bool) (fail : nat -> bool).
Hypothesis ll1 : 1 <= ll.
Hypothesis B1 : B <> 0.

Lemma gen_pre_inv p : consts lead ll ext fail p -> py_started p = false -> length (py_rounds p) = ll ->
  (forall j r, nth_error (py_rounds p) j = Some r -> r = Rd false false (if j =? ll - 1 then 0 else B) false false) ->
  rel ll (py_pc p) = 0 -> used ll (py_pc p) = 0 -> past0 (py_pc p) = false -> consts lead ll ext fail (gen_pre p) /\ py_pc (gen_pre p) = py_pc p /\ exists ts, py_pre (gen_pre p) = PreTasks ts /\ length ts = ll /\
  py_started (gen_pre p) = true /\ running lead ll B fail (gen_pre p) ts.
Proof.
  intros C Hs Hl Hr R0 U0 P0. unfold gen_pre. rewrite Hs.
  destruct (pre_start (py_lead p) 0 (py_rounds p)) as [rs ts] eqn:E.
  destruct (pre_start_spec E) as (L1 & L2 & F). split; [exact C|]. split; [reflexivity|].
  exists ts. cbn. split; [reflexivity|]. split; [congruence|]. split; [reflexivity|].
  split; [cbn; congruence|]. split.
  - intros j r t H1 H2. cbn in H1.
    destruct (@nth_error_some _ (py_rounds p) j) as [r0 E0].
    { rewrite <- L1. apply nth_error_Some. congruence. }
    pose proof (Hr _ _ E0) as ->. destruct (F _ _ E0 eq_refl eq_refl) as [X Y].
    rewrite H1 in Y. injection Y as ->. rewrite H2 in X. injection X as ->.
    destruct C as (_ & Cl & _). cbn [gen_pre py_pc with_pre with_rounds]. rewrite R0, U0. cbn [Nat.add]. rewrite ?Cl.
    rsplit; try discriminate; try congruence; try lia. split; discriminate.
  - unfold next_ok. cbn. rewrite P0. discriminate.
Qed.

(* changing one round and its task *)
Lemma rok_upd p ts j r' t' : running lead ll B fail p ts -> length ts = ll ->
  (forall r t, nth_error (py_rounds p) j = Some r -> nth_error ts j = Some t ->
     rok lead ll B (rel ll (py_pc p)) (used ll (py_pc p)) fail j r' t') ->
  forall q, py_rounds q = upd (py_rounds p) j r' -> py_pc q = py_pc p -> py_next q = py_next p ->
  running lead ll B fail q (upd ts j t').
Proof.
  intros (Hl & Hr & Hn) Ht H q Q1 Q2 Q3. unfold running. rewrite Q1, Q2, Q3, upd_length. split; [exact Hl|]. split; [|exact Hn].
  intros i r t H1 H2.
  destruct (Nat.eq_dec j i) as [->|N].
  - destruct (Nat.lt_ge_cases i ll) as [Hi|Hi].
    + rewrite nth_error_upd_eq in H1 by lia. rewrite nth_error_upd_eq in H2 by lia.
      injection H1 as <-. injection H2 as <-.
      destruct (@nth_error_some _ (py_rounds p) i) as [r0 E0]; [lia|].
      destruct (@nth_error_some _ ts i) as [t0 E1]; [lia|]. exact (H _ _ E0 E1).
    + exfalso. assert (nth_error (upd ts i t') i <> None) by congruence. apply nth_error_Some in H0. rewrite upd_length in H0. lia.
  - rewrite nth_error_upd_ne in H1 by exact N. rewrite nth_error_upd_ne in H2 by exact N. exact (Hr _ _ _ H1 H2).
Qed.

Lemma pstep_inv j p o q : inv lead ll B ext fail p -> pstep j p o = Some q -> inv lead ll B ext fail q /\ py_pc q = py_pc p.
Proof.
  intros (C & Pc & D) E. unfold pstep in E.
  assert (exists ts, py_pre p = PreTasks ts /\ length ts = ll /\ py_started p = true /\ running lead ll B fail p ts /\
    py_pc p <> MDone) as (ts & Ep & Lt & Es & R & Nd).
  { destruct D as [(_ & Ep & _)|(ts & Ep & Lt & Es & [(_ & _ & _ & Fd)|(Dn & R)])].
    - unfold tasks in E. rewrite Ep in E. destruct j; discriminate E.
    - unfold tasks in E. rewrite Ep in E. destruct (nth_error ts j) eqn:Et; [|discriminate E].
      rewrite Forall_forall in Fd. rewrite <- (Fd p0) in E by (eapply nth_error_In; exact Et). discriminate E.
    - exists ts. split; [exact Ep|]. split; [exact Lt|]. split; [exact Es|]. split; [exact R|]. intros X. destruct (Dn X) as [_ Fd].
      unfold tasks in E. rewrite Ep in E. destruct (nth_error ts j) eqn:Et; [|discriminate E].
      rewrite Forall_forall in Fd. rewrite <- (Fd p0) in E by (eapply nth_error_In; exact Et). discriminate E. }
  assert (Hts : tasks p = ts) by (unfold tasks; rewrite Ep; reflexivity). rewrite Hts in E. clear D.
  destruct (nth_error ts j) as [t|] eqn:Et; [|discriminate E].
  assert (Hj : j < ll) by (rewrite <- Lt; apply nth_error_Some; congruence).
  destruct (@nth_error_some _ (py_rounds p) j) as [r Er]; [destruct R as [X _]; lia|].
  rewrite (@nth_of_error _ (py_rounds p) j r round0 Er) in E.
  destruct (proj1 (proj2 R) _ _ _ Er Et) as (K1 & K2 & K3 & K4 & K5 & K6 & K7 & K8).
  assert (G : forall t' r', rok lead ll B (rel ll (py_pc p)) (used ll (py_pc p)) fail j r' t' ->
     inv lead ll B ext fail (with_pre (with_rounds p (upd (py_rounds p) j r')) (py_started p) (PreTasks (upd ts j t'))) ).
  { intros t' r' K. split; [exact C|]. split; [exact Pc|]. right. exists (upd ts j t'). cbn. split; [reflexivity|].
    rewrite upd_length. split; [exact Lt|]. split; [exact Es|]. right. split; [intros X; exfalso; exact (Nd X)|].
    apply (rok_upd R Lt (j:=j) (r':=r') (t':=t')); [intros; exact K|reflexivity..]. }
  destruct t; try discriminate E.
  - destruct (rd_start r) eqn:S0; [|discriminate E]. destruct (rd_bytes r =? 0) eqn:B0; injection E as <-; (split; [|reflexivity]); apply G.
    + apply Nat.eqb_eq in B0. rsplit; auto; try congruence. split; reflexivity.
    + apply Nat.eqb_neq in B0. rsplit; auto; try congruence.
      split; intros X; [discriminate X|]. apply K5 in X. discriminate X.
  - destruct (nth_error (tasks o) j) as [[]|]; try discriminate E; injection E as <-; (split; [|reflexivity]); apply G;
      destruct C as (_ & _ & _ & _ & _ & Cf); rsplit; auto; try congruence; try (split; reflexivity); try (intros; apply K4; congruence);
      intros _ Hb; apply Nat.eqb_neq in Hb; rewrite Hb, Cf; reflexivity.
Qed.

(* genPerm goes on without touching the rounds *)
Lemma running_pc p ts c : running lead ll B fail p ts -> rel ll c = rel ll (py_pc p) ->
  (forall j r t, nth_error (py_rounds p) j = Some r -> nth_error ts j = Some t -> j < used ll c -> rd_ready r = true) ->
  (past0 c = true -> past0 (py_pc p) = true) -> running lead ll B fail (with_pc p c) ts.
Proof.
  intros (Hl & Hr & Hn) E U P. split; [exact Hl|]. split.
  - intros j r t H1 H2. destruct (Hr _ _ _ H1 H2) as (K1 & K2 & K3 & K4 & K5 & K6 & K7 & K8).
    cbn [py_pc with_pc]. rewrite E. rsplit; auto. intros Hj. exact (U _ _ _ H1 H2 Hj).
  - unfold next_ok in *. cbn. rewrite E. intros X. exact (Hn (P X)).
Qed.

Lemma loop_top_rank i : i <= ll -> rank ll (loop_top ll i) = 2 + 5 * i.
Proof. intros H. unfold loop_top. destruct (Nat.ltb_spec i ll); cbn [rank]; [|replace i with ll by lia]; reflexivity. Qed.

Lemma mstep_inv p o q : inv lead ll B ext fail p -> mstep p o = Some q ->
  inv lead ll B ext fail q /\ rank ll (py_pc p) < rank ll (py_pc q).
Proof.
  intros (C & Pc & D) E. pose proof C as (C1 & C2 & C3 & C4 & C5 & C6). unfold mstep in E.
  destruct (py_pc p) as [| |i|i|i|i|i| | | |] eqn:Epc; try discriminate E; try contradiction Pc.
  - (* start *)
    rewrite C4, C3 in E. cbn [negb] in E.
    assert (exists p', (if py_started p then p else gen_pre p) = p' /\ consts lead ll ext fail p' /\ py_pc p' = MStart /\
      exists ts, py_pre p' = PreTasks ts /\ length ts = ll /\ py_started p' = true /\ running lead ll B fail p' ts) as (p' & Ep & C' & Pc' & ts & X1 & X2 & X3 & X4).
    { destruct D as [(_ & D1 & D2 & D3 & D4 & D5)|(ts & D1 & D2 & D3 & [(D4 & _)|(_ & D5)])].
      - rewrite D2. eexists; split; [reflexivity|]. rewrite <- Epc.
        apply gen_pre_inv; auto; rewrite Epc; reflexivity.
      - congruence.
      - rewrite D3. exists p. split; [reflexivity|]. split; [exact C|]. split; [exact Epc|]. exists ts. auto. }
    rewrite Ep in E. assert (Hl : length (py_rounds p') = ll) by apply X4.
    destruct (py_rounds p') eqn:Er; [cbn in Hl; lia|]. injection E as <-. split; [|cbn; lia].
    split; [exact C'|]. split; [cbn; lia|]. right. exists ts. split; [assumption|]. split; [assumption|]. split; [assumption|]. right. split; [cbn; discriminate|].
    apply running_pc; rewrite ?Pc'; auto; cbn; intros; try lia; discriminate.
  - (* genBitPerm *)
    destruct (entered p o); [|discriminate E]. injection E as <-. split; [|cbn; lia].
    destruct D as [(D1 & _)|(ts & D1 & D2 & D3 & [(D4 & _)|(_ & D5)])]; try discriminate.
    split; [exact C|]. split; [exact Pc|]. right. exists ts. split; [assumption|]. split; [assumption|]. split; [assumption|]. right. split; [cbn; discriminate|].
    apply running_pc; rewrite ?Epc; auto; cbn.
    intros j r t H1 H2. destruct (proj1 (proj2 D5) _ _ _ H1 H2) as (_ & _ & _ & _ & _ & _ & _ & K). rewrite Epc in K. exact K.
  - (* release *)
    destruct D as [(D1 & _)|(ts & D1 & D2 & D3 & [(D4 & _)|(_ & D5)])]; try discriminate.
    cbn [pc_ok] in Pc. destruct D5 as (Hl & Hr & Hn). rewrite Epc in Hr, Hn.
    set (c' := if i =? 0 then loop_top (py_ll p) 1 else MComp i) in E.
    assert (Hc : pc_ok ll c' /\ rel ll c' = S i /\ used ll c' = i /\ past0 c' = true /\ rank ll (MRel i) < rank ll c' /\ c' <> MDone).
    { unfold c'. rewrite C1. destruct (Nat.eqb_spec i 0) as [->|N].
      - unfold loop_top. destruct (Nat.ltb_spec 1 ll); cbn; repeat split; try lia; discriminate.
      - cbn. repeat split; try lia; discriminate. }
    destruct Hc as (c1 & c2 & c3 & c4 & c5 & c6). clearbody c'.
    set (ld := if i =? 0 then py_lead p else py_next p) in E.
    assert (Hd : (ld < ll -> ld = lead + i) /\ (ll <= ld -> ll <= lead + i)).
    { unfold ld. destruct (Nat.eqb_spec i 0) as [->|N]; [rewrite C2; lia|].
      apply Hn. destruct i; [lia|reflexivity]. }
    clearbody ld. cbn [py_rounds with_pc] in E. rewrite Hl in E.
    destruct (Nat.ltb_spec ld ll) as [Hld|Hld]; injection E as <-; (split; [|cbn; exact c5]);
      (split; [exact C|]); (split; [exact c1|]); right; exists ts; cbn [py_pre with_next with_rounds with_pc py_started];
      (split; [exact D1|]); (split; [exact D2|]); (split; [exact D3|]); right; (split; [intros X; exfalso; exact (c6 X)|]).
    + unfold running. cbn. rewrite upd_length. split; [exact Hl|]. split.
      * intros j r t H1 H2. rewrite c2, c3. destruct (Nat.eq_dec ld j) as [<-|N].
        -- rewrite nth_error_upd_eq in H1 by lia. injection H1 as <-.
           destruct (@nth_error_some _ (py_rounds p) ld) as [r0 E0]; [lia|].
           rewrite (@nth_of_error _ (py_rounds p) ld r0 round0 E0).
           destruct (Hr _ _ _ E0 H2) as (K1 & K2 & K3 & K4 & K5 & K6 & K7 & K8).
           rsplit; auto. symmetry. apply Nat.ltb_lt. lia.
        -- rewrite nth_error_upd_ne in H1 by exact N.
           destruct (Hr _ _ _ H1 H2) as (K1 & K2 & K3 & K4 & K5 & K6 & K7 & K8).
           rsplit; auto. rewrite K1. cbn [rel].
           destruct (Nat.ltb_spec j (lead + i)), (Nat.ltb_spec j (lead + S i)); auto; lia.
      * intros _. cbn. rewrite c2. lia.
    + unfold running. cbn. split; [exact Hl|]. split.
      * intros j r t H1 H2. rewrite c2, c3.
        assert (j < ll) by (rewrite <- Hl; apply nth_error_Some; congruence).
        destruct (Hr _ _ _ H1 H2) as (K1 & K2 & K3 & K4 & K5 & K6 & K7 & K8).
        rsplit; auto. rewrite K1. cbn [rel].
        destruct (Nat.ltb_spec j (lead + i)), (Nat.ltb_spec j (lead + S i)); auto; lia.
      * intros _. cbn. rewrite c2. lia.
  - (* compose *)
    destruct (entered p o); [|discriminate E]. injection E as <-. cbn [pc_ok] in Pc.
    destruct D as [(D1 & _)|(ts & D1 & D2 & D3 & [(D4 & _)|(_ & D5)])]; try discriminate.
    assert (Hc : pc_ok ll (loop_top ll (S i)) /\ rel ll (loop_top ll (S i)) = S i /\ used ll (loop_top ll (S i)) = i /\ loop_top ll (S i) <> MDone).
    { unfold loop_top. destruct (Nat.ltb_spec (S i) ll); cbn; repeat split; try lia; discriminate. }
    destruct Hc as (c1 & c2 & c3 & c6). rewrite C1.
    split; [|cbn [py_pc with_pc]; rewrite loop_top_rank by lia; cbn; lia].
    split; [exact C|]. split; [exact c1|]. right. exists ts. split; [assumption|]. split; [assumption|]. split; [assumption|]. right. split; [intros X; exfalso; exact (c6 X)|].
    apply running_pc; rewrite ?Epc; auto; cbn.
    intros j r t H1 H2. rewrite c3. destruct (proj1 (proj2 D5) _ _ _ H1 H2) as (_ & _ & _ & _ & _ & _ & _ & K). rewrite Epc in K. exact K.
  - (* wait *)
    destruct (rd_ready (nth (i - 1) (py_rounds p) round0)) eqn:Rd; [|discriminate E]. injection E as <-. cbn [pc_ok] in Pc.
    destruct D as [(D1 & _)|(ts & D1 & D2 & D3 & [(D4 & _)|(_ & D5)])]; try discriminate.
    split; [|cbn; lia].
    split; [exact C|]. split; [exact Pc|]. right. exists ts. split; [assumption|]. split; [assumption|]. split; [assumption|]. right. split; [cbn; discriminate|].
    apply running_pc; rewrite ?Epc; auto; cbn.
    intros j r t H1 H2 Hj. destruct (Nat.eq_dec j (i - 1)) as [->|N].
    + rewrite (@nth_of_error _ (py_rounds p) (i - 1) r round0 H1) in Rd. exact Rd.
    + destruct (proj1 (proj2 D5) _ _ _ H1 H2) as (_ & _ & _ & _ & _ & _ & _ & K). rewrite Epc in K. apply K. cbn. lia.
  - (* apply *)
    destruct (entered p o); [|discriminate E]. injection E as <-. split; [|cbn; lia]. cbn [pc_ok] in Pc.
    destruct D as [(D1 & _)|(ts & D1 & D2 & D3 & [(D4 & _)|(_ & D5)])]; try discriminate.
    split; [exact C|]. split; [exact (proj2 Pc)|]. right. exists ts. split; [assumption|]. split; [assumption|]. split; [assumption|]. right. split; [cbn; discriminate|].
    apply running_pc; rewrite ?Epc; auto; cbn.
    intros j r t H1 H2. destruct (proj1 (proj2 D5) _ _ _ H1 H2) as (_ & _ & _ & _ & _ & _ & _ & K). rewrite Epc in K. exact K.
  - (* await *)
    destruct D as [(D1 & _)|(ts & D1 & D2 & D3 & [(D4 & _)|(_ & D5)])]; try discriminate.
    rewrite D1 in E. destruct (join_tasks ts) as [[]|] eqn:J; try discriminate E.
    + pose proof (join_done J) as Fd. rewrite C5 in E.
      destruct ext eqn:Ex; injection E as <-; (split; [|cbn; lia]); (split; [repeat split; auto|]); (split; [exact I|]); right; exists ts; (split; [assumption|]); (split; [assumption|]); (split; [assumption|]).
      * right. split; [auto|]. apply running_pc; rewrite ?Epc; auto.
        intros j r t H1 H2. destruct (proj1 (proj2 D5) _ _ _ H1 H2) as (_ & _ & _ & _ & _ & _ & _ & K). rewrite Epc in K. exact K.
      * left. cbn. auto.
    + exfalso. revert J. apply join_no_throw. intros j H.
      destruct (@nth_error_some _ (py_rounds p) j) as [r Er].
      { destruct D5 as [X _]. rewrite X, <- D2. apply nth_error_Some. congruence. }
      destruct (proj1 (proj2 D5) _ _ _ Er H) as (_ & _ & K & _). congruence.
Qed.

End Party.

(* ---------------- a measure that every step lowers ---------------- *)

Definition tw (t : ptask) : nat := match t with PWait => 2 | PGen => 1 | _ => 0 end.
Definition tsum (l : list ptask) : nat := fold_right (fun t n => tw t + n) 0 l.

Lemma tsum_upd : forall l j t t', nth_error l j = Some t -> tw t' < tw t -> tsum (upd l j t') < tsum l.
Proof.
  induction l as [|a l IH]; intros [|j] t t' H H'; cbn [nth_error] in H; try discriminate; unfold tsum in *; cbn [upd fold_right].
  - injection H as ->. lia. - specialize (IH _ _ _ H H'). lia.
Qed.

Lemma tsum_le l : tsum l <= 2 * length l.
Proof. unfold tsum. induction l as [|a l IH]; cbn [fold_right length]; [lia|]. assert (tw a <= 2) by (destruct a; cbn; lia). lia. Qed.

Definition weight (ll : nat) (p : party) : nat :=
  (match py_pre p with NoPre => 2 * ll | PreThrow => 0 | PreTasks l => tsum l end) + (3 + 5 * ll - rank ll (py_pc p)).

Section Party2.
Variables (lead ll B : nat) (ext : bool) (fail : nat -> bool).
Hypothesis ll1 : 1 <= ll.
Hypothesis B1 : B <> 0.

Lemma rank_le c : pc_ok ll c -> rank ll c <= 3 + 5 * ll.
Proof. destruct c; cbn; intros H; try lia; try contradiction. Qed.

Lemma step_inv w p o q : inv lead ll B ext fail p -> step1 w p o = Some q ->
  inv lead ll B ext fail q /\ weight ll q < weight ll p.
Proof.
  intros I E. destruct w as [|j]; cbn [step1] in E.
  - destruct (mstep_inv ll1 B1 I E) as [I' R]. split; [exact I'|].
    pose proof (rank_le (proj1 (proj2 I'))) as Hq.
    assert (H : (match py_pre q with NoPre => 2 * ll | PreThrow => 0 | PreTasks l => tsum l end) <=
                (match py_pre p with NoPre => 2 * ll | PreThrow => 0 | PreTasks l => tsum l end)).
    { destruct I as (C & Pc & D). destruct D as [(D1 & D2 & D3 & D4 & D5 & D6)|(ts & D1 & D2 & D3 & _)].
      - rewrite D2. destruct I' as (_ & _ & [(_ & X & _)|(ts & X & Y & _)]); rewrite X; [lia|].
        pose proof (tsum_le ts). lia.
      - assert (py_pre q = py_pre p); [|rewrite H; lia].
        destruct C as (C1 & C2 & C3 & C4 & C5 & C6). unfold mstep in E.
        destruct (py_pc p) eqn:Epc; try discriminate E; try contradiction Pc; rewrite ?C4, ?C3, ?D3, ?D1 in E; cbn [negb] in E.
        + injection E as <-. reflexivity.
        + destruct (entered p o); [|discriminate E]. injection E as <-. reflexivity.
        + destruct (_ <? _) in E; injection E as <-; reflexivity.
        + destruct (entered p o); [|discriminate E]. injection E as <-. reflexivity.
        + destruct (rd_ready _) in E; [|discriminate E]. injection E as <-. reflexivity.
        + destruct (entered p o); [|discriminate E]. injection E as <-. reflexivity.
        + destruct (join_tasks ts) as [[]|]; try discriminate E; [destruct (py_ext p)|]; injection E as <-; reflexivity. }
    unfold weight. lia.
  - destruct (pstep_inv ll1 B1 I E) as [I' R]. split; [exact I'|]. unfold weight. rewrite R.
    unfold pstep in E. destruct (nth_error (tasks p) j) as [t|] eqn:Et; [|discriminate E].
    assert (Hp : py_pre p = PreTasks (tasks p)).
    { unfold tasks in *. destruct (py_pre p); [destruct j; discriminate Et..|reflexivity]. }
    assert (G : forall t' r', tw t' < tw t -> Some (with_pre (with_rounds p (upd (py_rounds p) j r')) (py_started p) (PreTasks (upd (tasks p) j t'))) = Some q ->
      match py_pre q with NoPre => 2 * ll | PreThrow => 0 | PreTasks l => tsum l end < match py_pre p with NoPre => 2 * ll | PreThrow => 0 | PreTasks l => tsum l end).
    { intros t' r' W X. injection X as <-. rewrite Hp. cbn. exact (tsum_upd Et W). }
    enough (match py_pre q with NoPre => 2 * ll | PreThrow => 0 | PreTasks l => tsum l end < match py_pre p with NoPre => 2 * ll | PreThrow => 0 | PreTasks l => tsum l end) by lia.
    destruct t; try discriminate E.
    + destruct (rd_start _) in E; [|discriminate E]. destruct (_ =? _) in E; (eapply G; [|exact E]); cbn; lia.
    + destruct (nth_error (tasks o) j) as [[]|]; try discriminate E; (eapply G; [|exact E]); cbn; lia.
Qed.

End Party2.

(* ---------------- both parties ---------------- *)

Section Both.
Variables (ll B lead0 lead1 : nat) (ext0 ext1 : bool) (fail0 fail1 : nat -> bool).
Hypothesis ll1 : 1 <= ll.
Hypothesis B1 : B <> 0.

Definition inv2 (s : party * party) : Prop :=
  inv lead0 ll B ext0 fail0 (fst s) /\ inv lead1 ll B ext1 fail1 (snd s).

Definition weight2 (s : party * party) : nat := weight ll (fst s) + weight ll (snd s).

Lemma step_inv2 b w s s' : inv2 s -> step b w s = Some s' -> inv2 s' /\ weight2 s' < weight2 s.
Proof.
  intros [I0 I1] E. destruct s as [p o]. unfold step in E. cbn [fst snd] in *. destruct b.
  - destruct (step1 w o p) eqn:E1; [|discriminate E]. injection E as <-.
    destruct (step_inv ll1 B1 I1 E1) as [X Y]. split; [split; assumption|]. unfold weight2. cbn. lia.
  - destruct (step1 w p o) eqn:E1; [|discriminate E]. injection E as <-.
    destruct (step_inv ll1 B1 I0 E1) as [X Y]. split; [split; assumption|]. unfold weight2. cbn. lia.
Qed.

Lemma run_inv2 : forall sch s s', inv2 s -> run sch s = Some s' -> inv2 s' /\ length sch + weight2 s' <= weight2 s.
Proof.
  induction sch as [|[b w] sch IH]; intros s s' I E; cbn [run] in E.
  - injection E as <-. split; [exact I|]. cbn. lia.
  - destruct (step b w s) eqn:E1; [|discriminate E]. destruct (step_inv2 I E1) as [I' W].
    destruct (IH _ _ I' E) as [I'' W']. split; [exact I''|]. cbn. lia.
Qed.

End Both.

(* ---------------- somebody can always go on ---------------- *)

Ltac ifd := repeat match goal with |- (if ?b then _ else _) <> None => destruct b end.

Section Progress.
Variables (ll B lA lB : nat) (eA eB : bool) (fA fB : nat -> bool).
Hypothesis ll1 : 1 <= ll.
Hypothesis B1 : B <> 0.

Lemma rel_rank c c' : pc_ok ll c -> pc_ok ll c' -> rank ll c <= rank ll c' -> rel ll c <= rel ll c'.
Proof. destruct c, c'; cbn; intros; try contradiction; lia. Qed.

(* a task that is not done although both parties have released it *)
Lemma task_moves p o j ts t : inv lA ll B eA fA p -> inv lB ll B eB fB o -> py_pre p = PreTasks ts -> nth_error ts j = Some t ->
  t = PWait \/ t = PGen -> j < lA + rel ll (py_pc p) -> j < lB + rel ll (py_pc o) -> py_pc o <> MStart ->
  step1 (WTask j) p o <> None \/ step1 (WTask j) o p <> None.
Proof.
  intros Ip Io Ep Et Ht Hp Ho Ns. cbn [step1].
  destruct Ip as (Cp & Pp & Dp). destruct Io as (Co & Po & Do).
  destruct Dp as [(_ & X & _)|(ts' & X & Lt & Sp & D)]; [congruence|]. assert (ts' = ts) by congruence. subst ts'.
  assert (Rp : running lA ll B fA p ts).
  { destruct D as [(_ & _ & _ & Fd)|[_ R]]; [|exact R]. rewrite Forall_forall in Fd.
    apply nth_error_In in Et. apply Fd in Et. subst t. destruct Ht; discriminate. }
  assert (Hj : j < ll) by (rewrite <- Lt; apply nth_error_Some; congruence).
  destruct (@nth_error_some _ (py_rounds p) j) as [r Er]; [destruct Rp as [Y _]; lia|].
  destruct (proj1 (proj2 Rp) _ _ _ Er Et) as (K1 & K2 & K3 & K4 & K5 & K6 & K7 & K8).
  apply Nat.ltb_lt in Hp. rewrite Hp in K1.
  assert (Tp : tasks p = ts) by (unfold tasks; rewrite Ep; reflexivity).
  destruct Ht as [-> | ->].
  - left. unfold pstep; cbv zeta; rewrite Tp, Et, (@nth_of_error _ (py_rounds p) j r round0 Er), K1. ifd; discriminate.
  - destruct Do as [(Y & _)|(tso & Y & Lo & So & Do)]; [contradiction|].
    assert (To : tasks o = tso) by (unfold tasks; rewrite Y; reflexivity).
    destruct (@nth_error_some _ tso j) as [t' Et']; [lia|].
    assert (Q : t' = PDone \/ running lB ll B fB o tso).
    { destruct Do as [(_ & _ & _ & Fd)|[_ R]]; [left|right; exact R]. rewrite Forall_forall in Fd.
      apply nth_error_In in Et'. symmetry. apply Fd. exact Et'. }
    destruct Q as [->|Ro].
    + left. unfold pstep; cbv zeta; rewrite Tp, Et, To, Et'. discriminate.
    + destruct (@nth_error_some _ (py_rounds o) j) as [ro Ero]; [destruct Ro as [Z _]; lia|].
      destruct (proj1 (proj2 Ro) _ _ _ Ero Et') as (Q1 & Q2 & Q3 & Q4 & Q5 & Q6 & Q7 & Q8).
      apply Nat.ltb_lt in Ho. rewrite Ho in Q1. destruct t'; try congruence.
      * right. unfold pstep; cbv zeta; rewrite To, Et', (@nth_of_error _ (py_rounds o) j ro round0 Ero), Q1. ifd; discriminate.
      * left. unfold pstep; cbv zeta; rewrite Tp, Et, To, Et'. discriminate.
      * left. unfold pstep; cbv zeta; rewrite Tp, Et, To, Et'. discriminate.
Qed.

(* the party that is behind can go on, or one of the tasks it waits for *)
Lemma behind_moves p o : inv lA ll B eA fA p -> inv lB ll B eB fB o -> rank ll (py_pc p) <= rank ll (py_pc o) ->
  py_pc p <> MDone -> exists w, step1 w p o <> None \/ step1 w o p <> None.
Proof.
  intros Ip Io Hr Nd. pose proof Ip as ((C1 & C2 & C3 & C4 & C5 & C6) & Pp & Dp). pose proof Io as ((O1 & _) & Po & Do).
  assert (En : entered p o = true) by (unfold entered; rewrite C1, O1; apply Nat.leb_le; exact Hr).
  assert (Rl : rel ll (py_pc p) <= rel ll (py_pc o)) by (apply rel_rank; assumption).
  assert (M : mstep p o <> None -> exists w, step1 w p o <> None \/ step1 w o p <> None) by (intros X; exists WMain; left; exact X).
  destruct (py_pc p) as [| |i|i|i|i|i| | | |] eqn:Epc; try contradiction Pp; try (exfalso; apply Nd; reflexivity).
  - apply M. unfold mstep; cbv zeta; rewrite Epc. ifd; discriminate.
  - apply M. unfold mstep. rewrite Epc, En. discriminate.
  - apply M. unfold mstep; cbv zeta; rewrite Epc. ifd; discriminate.
  - apply M. unfold mstep. rewrite Epc, En. discriminate.
  - destruct Dp as [(X & _)|(ts & D1 & D2 & D3 & [(X & _)|[_ R]])]; try discriminate. cbn [pc_ok] in Pp.
    destruct (@nth_error_some _ ts (i - 1)) as [t Et]; [lia|].
    destruct (@nth_error_some _ (py_rounds p) (i - 1)) as [r Er]; [destruct R as [Y _]; lia|].
    destruct (proj1 (proj2 R) _ _ _ Er Et) as (K1 & K2 & K3 & K4 & K5 & K6 & K7 & K8).
    assert (No : py_pc o <> MStart) by (intros X; rewrite X in Hr; cbn in Hr; lia).
    assert (Q : t = PDone \/ (t = PWait \/ t = PGen)) by (destruct t; auto; congruence).
    destruct Q as [->|Q].
    + apply M. unfold mstep. rewrite Epc, (@nth_of_error _ (py_rounds p) (i - 1) r round0 Er), (proj1 K5 eq_refl). discriminate.
    + exists (WTask (i - 1)). cbn [rel] in Rl. apply (task_moves Ip Io D1 Et Q); try assumption; [rewrite Epc; cbn|]; lia.
  - apply M. unfold mstep. rewrite Epc, En. discriminate.
  - destruct Dp as [(X & _)|(ts & D1 & D2 & D3 & [(X & _)|[_ R]])]; try discriminate.
    assert (No : py_pc o <> MStart) by (intros X; rewrite X in Hr; cbn in Hr; lia).
    destruct (join_tasks ts) as [[]|] eqn:J.
    + apply M. unfold mstep. rewrite Epc, D1, J. destruct (py_ext p); discriminate.
    + apply M. unfold mstep. rewrite Epc, D1, J. discriminate.
    + destruct (join_none J) as [j Hj]. cbn [rel] in Rl.
      assert (j < ll).
      { rewrite <- D2. apply nth_error_Some. destruct Hj as [H|H]; rewrite H; discriminate. }
      exists (WTask j). destruct Hj as [Hj|Hj]; (apply (task_moves Ip Io D1 Hj); auto; [rewrite Epc; cbn|]; lia).
Qed.
End Progress.

Lemma moves ll B l0 l1 e0 e1 f0 f1 s : 1 <= ll -> B <> 0 -> inv2 ll B l0 l1 e0 e1 f0 f1 s -> stuck s -> returned s.
Proof.
  intros H1 H2 [I0 I1] St. destruct s as [p o]. cbn [fst snd] in *.
  assert (N0 : forall w, step1 w p o = None).
  { intros w. specialize (St false w). cbn in St. destruct (step1 w p o); [discriminate St|reflexivity]. }
  assert (N1 : forall w, step1 w o p = None).
  { intros w. specialize (St true w). cbn in St. destruct (step1 w o p); [discriminate St|reflexivity]. }
  assert (Dec : forall c : mpc, c = MDone \/ c <> MDone) by (intros []; auto; right; discriminate).
  assert (Rd : forall c, pc_ok ll c -> rank ll MDone <= rank ll c -> c = MDone).
  { intros []; cbn; intros; try contradiction; try reflexivity; lia. }
  destruct (Nat.le_ge_cases (rank ll (py_pc p)) (rank ll (py_pc o))) as [H|H].
  - destruct (Dec (py_pc p)) as [E|E].
    + split; [exact E|]. cbn. apply Rd; [apply I1|]. rewrite <- E. exact H.
    + destruct (behind_moves H1 H2 I0 I1 H E) as [w [X|X]]; exfalso; apply X; auto.
  - destruct (Dec (py_pc o)) as [E|E].
    + split; [|exact E]. cbn. apply Rd; [apply I0|]. rewrite <- E. exact H.
    + destruct (behind_moves H1 H2 I1 I0 H E) as [w [X|X]]; exfalso; apply X; auto.
Qed.

(* ---------------- the first state ---------------- *)

Lemma div_ceil_pos a b : 1 <= a -> 1 <= b -> 1 <= div_ceil a b.
Proof. intros Ha Hb. unfold div_ceil. apply Nat.div_le_lower_bound; lia. Qed.

Lemma rounds_init_nth L ll j r : nth_error (rounds_init L ll []) j = Some r ->
  j < ll /\ r = Rd false false (if j =? ll - 1 then 0 else div_ceil L 8 + 4) false false.
Proof.
  intros H. unfold rounds_init in H. assert (j < ll) by (rewrite <- (seq_length ll 0), <- (map_length (fun i => round_init (if i =? ll - 1 then 0 else div_ceil L 8 + 4) (nth i [] round0)) (seq 0 ll)); apply nth_error_Some; congruence).
  split; [assumption|]. rewrite nth_error_map in H.
  rewrite (nth_error_nth' (seq 0 ll) 0) in H by (rewrite seq_length; assumption). rewrite seq_nth in H by assumption.
  cbn [option_map Nat.add] in H. injection H as <-. unfold round_init. destruct j; reflexivity.
Qed.

Lemma rounds_init_length L ll old : length (rounds_init L ll old) = ll.
Proof. unfold rounds_init. rewrite map_length, seq_length. reflexivity. Qed.

Lemma init_inv L bits lead role ext fail : 1 <= L -> 1 <= bits ->
  inv lead (div_ceil bits L) (div_ceil L 8 + 4) ext fail (call (rs_init L bits (rs_new lead false role true ext fail))).
Proof.
  intros HL Hb. pose proof (div_ceil_pos Hb HL) as H1. set (ll := div_ceil bits L) in *.
  unfold call. destruct (py_ext (rs_init L bits (rs_new lead false role true ext fail))) eqn:E; cbn in E; subst ext.
  - assert (HB : div_ceil L 8 + 4 <> 0) by lia.
    destruct (@gen_pre_inv lead ll (div_ceil L 8 + 4) true fail H1 HB) with (p := rs_init L bits (rs_new lead false role true true fail)) as (C & Pc & ts & X1 & X2 & X3 & X4); try reflexivity.
    + repeat split; reflexivity.
    + apply rounds_init_length.
    + intros j r H. cbn [rs_init py_rounds rs_new] in H. apply rounds_init_nth in H. apply H.
    + split; [exact C|]. rewrite Pc. split; [exact I|]. right. exists ts. split; [exact X1|]. split; [exact X2|]. split; [exact X3|].
      right. split; [discriminate|exact X4].
  - split; [repeat split; reflexivity|]. split; [exact I|]. left. repeat split; try reflexivity.
    + apply rounds_init_length.
    + intros j r H. cbn [rs_init py_rounds rs_new] in H. apply rounds_init_nth in H. apply H.
Qed.

Lemma weight_init L bits lead role ext fail : 1 <= L -> 1 <= bits ->
  weight (div_ceil bits L) (call (rs_init L bits (rs_new lead false role true ext fail))) <= 7 * div_ceil bits L + 3.
Proof.
  intros HL Hb. destruct (init_inv lead role ext fail HL Hb) as (C & Pc & D). unfold weight.
  destruct D as [(_ & D & _)|(ts & D & E & _)]; rewrite D; [lia|]. pose proof (tsum_le ts). lia.
Qed.

(* ---------------- what holds of one party whatever the other does ---------------- *)

Lemma run_party (P : party -> Prop) : (forall w p o q, P p -> step1 w p o = Some q -> P q) ->
  forall sch s s', run sch s = Some s' -> (P (fst s) -> P (fst s')) /\ (P (snd s) -> P (snd s')).
Proof.
  intros H. induction sch as [|[b w] sch IH]; intros s s' E; cbn [run] in E; [injection E as <-; auto|].
  destruct (step b w s) as [s1|] eqn:E1; [|discriminate E]. destruct (IH _ _ E) as [A B]. destruct s as [p o].
  unfold step in E1. cbn [fst snd] in *. destruct b.
  - destruct (step1 w o p) eqn:E2; [|discriminate E1]. injection E1 as <-. cbn [fst snd] in *. split; [exact A|].
    intros X. apply B. exact (H _ _ _ _ X E2).
  - destruct (step1 w p o) eqn:E2; [|discriminate E1]. injection E1 as <-. cbn [fst snd] in *. split; [|exact B].
    intros X. apply A. exact (H _ _ _ _ X E2).
Qed.

Lemma used_ready lead ll B ext fail p i : inv lead ll B ext fail p -> B <> 0 -> py_pc p = MApply i \/ py_pc p = MComp i ->
  1 <= i < ll /\ exists r, nth_error (py_rounds p) (i - 1) = Some r /\ rd_ready r = true /\ rd_perm r = negb (fail (i - 1)).
Proof.
  intros (C & Pc & D) HB Hi.
  assert (Hl : 1 <= i < ll) by (destruct Hi as [X|X]; rewrite X in Pc; exact Pc). split; [exact Hl|].
  destruct D as [(X & _)|(ts & D1 & D2 & D3 & [(X & _)|[_ R]])]; try (destruct Hi; congruence).
  destruct (@nth_error_some _ (py_rounds p) (i - 1)) as [r Er]; [destruct R as [Y _]; lia|].
  destruct (@nth_error_some _ ts (i - 1)) as [t Et]; [lia|].
  destruct (proj1 (proj2 R) _ _ _ Er Et) as (K1 & K2 & K3 & K4 & K5 & K6 & K7 & K8).
  assert (Rr : rd_ready r = true) by (apply K8; destruct Hi as [X|X]; rewrite X; cbn; lia).
  exists r. split; [exact Er|]. split; [exact Rr|]. apply K7; [exact Rr|]. rewrite K2.
  destruct (Nat.eqb_spec (i - 1) (ll - 1)); [lia|exact HB].
Qed.

Lemma lead_bound lead ll B ext fail p j : inv lead ll B ext fail p -> task_begun p j -> j < lead + bits_done ll (py_pc p).
Proof.
  intros (C & Pc & D) (ts & E & Ht). destruct D as [(_ & X & _)|(ts' & D1 & D2 & D3 & D)]; [congruence|].
  assert (ts' = ts) by congruence. subst ts'.
  assert (Hj : j < ll) by (rewrite <- D2; apply nth_error_Some; destruct Ht as [X|X]; rewrite X; discriminate).
  destruct D as [(X & _)|[_ R]]; [rewrite X; cbn; lia|].
  destruct (@nth_error_some _ (py_rounds p) j) as [r Er]; [destruct R as [Y _]; lia|].
  assert (exists t, nth_error ts j = Some t /\ t <> PWait) as (t & Et & Nt).
  { destruct Ht as [X|X]; eexists; (split; [exact X|discriminate]). }
  destruct (proj1 (proj2 R) _ _ _ Er Et) as (K1 & K2 & K3 & K4 & _). rewrite (K4 Nt) in K1. symmetry in K1. apply Nat.ltb_lt in K1.
  enough (rel ll (py_pc p) <= bits_done ll (py_pc p)) by lia. destruct (py_pc p); cbn; lia.
Qed.

Lemma done_prepared lead ll B ext p : inv lead ll B ext (fun _ => false) p -> B <> 0 -> py_pc p = MDone ->
  py_started p = true /\ (ext = true -> all_prepared ll p) /\ (ext = false -> py_rounds p = []).
Proof.
  intros (C & Pc & D) HB Hd. destruct D as [(X & _)|(ts & D1 & D2 & D3 & D)]; [congruence|].
  split; [exact D3|]. destruct D as [(_ & E & R & _)|[Dn R]].
  - split; [congruence|intros _; exact R].
  - destruct (Dn Hd) as [-> Fd]. split; [|discriminate]. intros _ j Hj.
    destruct (@nth_error_some _ (py_rounds p) j) as [r Er]; [destruct R as [Y _]; lia|].
    destruct (@nth_error_some _ ts j) as [t Et]; [lia|].
    destruct (proj1 (proj2 R) _ _ _ Er Et) as (K1 & K2 & K3 & K4 & K5 & K6 & K7 & K8).
    rewrite Forall_forall in Fd. assert (Q : PDone = t) by (apply Fd; eapply nth_error_In; exact Et). symmetry in Q. apply K5 in Q.
    exists r. split; [exact Er|]. split; [exact Q|]. rewrite (K7 Q); [reflexivity|]. rewrite K2.
    destruct (Nat.eqb_spec j (ll - 1)); [lia|exact HB].
Qed.

(* ---------------- the object used again ---------------- *)

Definition again (p : party) : Prop :=
  py_started p = true /\ py_keys p = true /\ py_mock p = false /\ 2 <= py_ll p /\ tasks p = [] /\
  (py_pc p = MStart \/ py_pc p = MBit 0 \/ py_pc p = MRel 0 \/ py_pc p = MWait 1) /\
  (exists r l, py_rounds p = r :: l /\ rd_ready r = false).

Lemma again_step w p o q : again p -> step1 w p o = Some q -> again q.
Proof.
  intros (A1 & A2 & A3 & A4 & A5 & A6 & r & l & A7 & A8) E. destruct w as [|j]; cbn [step1] in E.
  - unfold mstep in E. destruct A6 as [A6|[A6|[A6|A6]]]; rewrite A6 in E.
    + rewrite A2, A3, A1, A7 in E. cbn [negb] in E. injection E as <-.
      repeat split; auto. exists r, l. auto.
    + destruct (entered p o); [|discriminate E]. injection E as <-. repeat split; auto. exists r, l. auto.
    + cbn [Nat.eqb py_rounds with_pc] in E.
      assert (Q : py_pc q = MWait 1 /\ py_started q = true /\ py_keys q = true /\ py_mock q = false /\ py_ll q = py_ll p /\ tasks q = tasks p /\
                  exists r' l', py_rounds q = r' :: l' /\ rd_ready r' = false).
      { unfold loop_top in E. assert (T : (1 <? py_ll p) = true) by (apply Nat.ltb_lt; lia). rewrite T in E.
        rewrite A7 in E. destruct (py_lead p <? length (r :: l)); injection E as <-.
        - destruct (py_lead p) as [|n]; repeat split; auto.
          + exists (set_start r), l. auto.
          + exists r, (upd l n (set_start (nth (S n) (r :: l) round0))). auto.
        - repeat split; auto. exists r, l. auto. }
      destruct Q as (Q1 & Q2 & Q3 & Q4 & Q5 & Q6 & Q7).
      split; [exact Q2|]. split; [exact Q3|]. split; [exact Q4|]. split; [lia|]. split; [congruence|]. split; [auto|exact Q7].
    + rewrite A7 in E. cbn in E. rewrite A8 in E. discriminate E.
  - unfold pstep in E. rewrite A5 in E. destruct j; discriminate E.
Qed.

Lemma again_init L bits p : py_started p = true -> py_keys p = true -> py_mock p = false -> 2 <= div_ceil bits L ->
  again (call (rs_init L bits p)).
Proof.
  intros H1 H2 H3 H4.
  assert (G : exists r l, rounds_init L (div_ceil bits L) (py_rounds p) = r :: l /\ rd_ready r = false).
  { unfold rounds_init. destruct (div_ceil bits L) as [|n]; [lia|]. cbn [seq map]. eexists; eexists; split; [reflexivity|reflexivity]. }
  unfold call. destruct (py_ext (rs_init L bits p)); [unfold gen_pre; cbn [py_started rs_init]; rewrite H1|]; unfold again; cbn; auto 10.
Qed.

(* ---------------- the mocked sort, called with genPrePerm running ---------------- *)

Definition mock_hang (p : party) : Prop :=
  py_mock p = true /\ py_keys p = true /\ (py_pc p = MStart \/ py_pc p = MMock \/ py_pc p = MPre) /\
  exists ts, py_pre p = PreTasks ts /\ nth_error ts (py_lead p) = Some PWait /\ (forall j, nth_error ts j <> Some PThrow) /\
  exists r, nth_error (py_rounds p) (py_lead p) = Some r /\ rd_start r = false.

Lemma join_wait ts j : nth_error ts j = Some PWait -> (forall j, nth_error ts j <> Some PThrow) -> join_tasks ts = None.
Proof.
  revert j. induction ts as [|t ts IH]; intros j H N; [destruct j; discriminate H|].
  destruct j as [|j]; cbn [nth_error] in H.
  - injection H as ->. reflexivity.
  - destruct t; try reflexivity.
    + cbn. apply (IH j H). intros i. exact (N (S i)).
    + exfalso. exact (N 0 eq_refl).
Qed.

Lemma mock_hang_step w p o q : mock_hang p -> step1 w p o = Some q -> mock_hang q.
Proof.
  intros (A1 & A2 & A3 & ts & A4 & A5 & A6 & r & A7 & A8) E. destruct w as [|j]; cbn [step1] in E.
  - unfold mstep in E. destruct A3 as [A3|[A3|A3]]; rewrite A3 in E.
    + rewrite A2, A1 in E. cbn [negb] in E. injection E as <-. split; [exact A1|]. split; [exact A2|]. split; [auto|].
      exists ts. repeat split; auto. exists r. auto.
    + destruct (py_role p && _); [discriminate E|]. injection E as <-. split; [exact A1|]. split; [exact A2|]. split; [auto|].
      exists ts. repeat split; auto. exists r. auto.
    + rewrite A4, (join_wait A5 A6) in E. discriminate E.
  - unfold pstep in E. assert (T : tasks p = ts) by (unfold tasks; rewrite A4; reflexivity). rewrite T in E.
    destruct (nth_error ts j) as [t|] eqn:Et; [|discriminate E].
    destruct (Nat.eq_dec j (py_lead p)) as [->|N].
    + rewrite A5 in Et. injection Et as <-. rewrite (@nth_of_error _ (py_rounds p) (py_lead p) r round0 A7), A8 in E. discriminate E.
    + assert (G : forall r' t', t' <> PThrow -> mock_hang (with_pre (with_rounds p (upd (py_rounds p) j r')) (py_started p) (PreTasks (upd ts j t')))).
      { intros r' t' Ht. split; [exact A1|]. split; [exact A2|]. split; [exact A3|]. exists (upd ts j t'). cbn.
        split; [reflexivity|]. rewrite nth_error_upd_ne by exact N. split; [exact A5|]. split.
        - intros i Hi. rewrite nth_error_upd in Hi. destruct (_ && _); [injection Hi as X; exact (Ht X)|exact (A6 i Hi)].
        - exists r. rewrite nth_error_upd_ne by exact N. auto. }
      destruct t; try discriminate E.
      * destruct (rd_start _) in E; [|discriminate E]. destruct (_ =? 0) in E; injection E as <-; apply G; discriminate.
      * destruct (nth_error (tasks o) j) as [[]|]; try discriminate E; injection E as <-; apply G; discriminate.
Qed.

Lemma mock_hang_init L bits lead role fail : lead < div_ceil bits L ->
  mock_hang (call (rs_init L bits (rs_new lead true role true true fail))).
Proof.
  intros H. unfold call. cbn [py_ext rs_init rs_new]. unfold gen_pre. cbn [py_started rs_init rs_new py_lead py_rounds].
  destruct (pre_start lead 0 (rounds_init L (div_ceil bits L) [])) as [rs ts] eqn:E.
  destruct (pre_start_spec E) as (L1 & L2 & F). rewrite rounds_init_length in L1, L2.
  assert (G : forall j, j < div_ceil bits L -> nth_error ts j = Some PWait /\ exists r, nth_error rs j = Some r /\ rd_start r = (j <? lead)).
  { intros j Hj. destruct (@nth_error_some _ (rounds_init L (div_ceil bits L) []) j) as [r Er]; [rewrite rounds_init_length; exact Hj|].
    pose proof (proj2 (rounds_init_nth Er)) as Q. destruct (F j r Er) as [X Y]; [rewrite Q; reflexivity..|].
    split; [exact X|]. eexists; split; [exact Y|reflexivity]. }
  split; [reflexivity|]. split; [reflexivity|]. split; [left; reflexivity|]. exists ts. cbn.
  split; [reflexivity|]. split; [apply G; exact H|]. split.
  - intros j X. destruct (G j) as [Y _]; [rewrite <- L2; apply nth_error_Some; congruence|]. congruence.
  - destruct (G lead H) as [_ (r & X & Y)]. exists r. split; [exact X|]. rewrite Y. apply Nat.ltb_irrefl.
Qed.

(* ---------------- the mocked sort when every task may begin at once ---------------- *)

Definition mock_pc (c : mpc) : Prop := c = MStart \/ c = MMock \/ c = MPre \/ c = MDone.

Definition minv (ll : nat) (p : party) : Prop :=
  py_mock p = true /\ py_keys p = true /\ mock_pc (py_pc p) /\ py_ext p = true /\
  exists ts, py_pre p = PreTasks ts /\ length ts = ll /\ length (py_rounds p) = ll /\
  (forall j t, nth_error ts j = Some t -> t <> PThrow) /\
  (forall j r, nth_error (py_rounds p) j = Some r -> rd_start r = true).

Definition mweight (ll : nat) (p : party) : nat := tsum (tasks p) + match py_pc p with MStart => 3 | MMock => 2 | MPre => 1 | _ => 0 end.

Lemma minv_step ll w p o q : minv ll p -> step1 w p o = Some q -> minv ll q /\ mweight ll q < mweight ll p.
Proof.
  intros (A1 & A2 & A3 & A4 & ts & A5 & A6 & A7 & A8 & A9) E.
  assert (T : tasks p = ts) by (unfold tasks; rewrite A5; reflexivity). destruct w as [|j]; cbn [step1] in E.
  - assert (G : forall c, mock_pc c -> minv ll (with_pc p c)).
    { intros c Hc. split; [exact A1|]. split; [exact A2|]. split; [exact Hc|]. split; [exact A4|]. exists ts. auto. }
    assert (W : forall c, tasks (with_pc p c) = tasks p) by reflexivity.
    unfold mstep in E. unfold mweight. destruct A3 as [A3|[A3|[A3|A3]]]; rewrite A3 in *.
    + rewrite A2, A1 in E. cbn [negb] in E. injection E as <-. split; [apply G; unfold mock_pc; auto|]. rewrite W. cbn [py_pc with_pc]. lia.
    + destruct (py_role p && _); [discriminate E|]. injection E as <-. split; [apply G; unfold mock_pc; auto|]. rewrite W. cbn [py_pc with_pc]. lia.
    + rewrite A5 in E. destruct (join_tasks ts) as [[]|] eqn:J; try discriminate E.
      * rewrite A4 in E. injection E as <-. split; [apply G; unfold mock_pc; auto|]. rewrite W. cbn [py_pc with_pc]. lia.
      * exfalso. revert J. apply join_no_throw. intros j H. exact (A8 _ _ H eq_refl).
    + discriminate E.
  - unfold pstep in E. rewrite T in E. destruct (nth_error ts j) as [t|] eqn:Et; [|discriminate E].
    assert (Hj : j < ll) by (rewrite <- A6; apply nth_error_Some; congruence).
    destruct (@nth_error_some _ (py_rounds p) j) as [r Er]; [lia|].
    rewrite (@nth_of_error _ (py_rounds p) j r round0 Er), (A9 _ _ Er) in E.
    assert (G : forall r' t', t' <> PThrow -> rd_start r' = true -> tw t' < tw t ->
       minv ll (with_pre (with_rounds p (upd (py_rounds p) j r')) (py_started p) (PreTasks (upd ts j t'))) /\
       mweight ll (with_pre (with_rounds p (upd (py_rounds p) j r')) (py_started p) (PreTasks (upd ts j t'))) < mweight ll p).
    { intros r' t' Ht Hr Hw. split.
      - split; [exact A1|]. split; [exact A2|]. split; [exact A3|]. split; [exact A4|]. exists (upd ts j t'). cbn. rewrite !upd_length.
        split; [reflexivity|]. split; [exact A6|]. split; [exact A7|]. split.
        + intros i x Hi. rewrite nth_error_upd in Hi. destruct (_ && _); [injection Hi as <-; exact Ht|exact (A8 _ _ Hi)].
        + intros i x Hi. rewrite nth_error_upd in Hi. destruct (_ && _); [injection Hi as <-; exact Hr|exact (A9 _ _ Hi)].
      - unfold mweight. cbn [py_pc with_pre with_rounds]. rewrite T. unfold tasks at 1. cbn [py_pre with_pre].
        pose proof (tsum_upd Et Hw). lia. }
    destruct t; try discriminate E.
    + destruct (rd_bytes r =? 0) in E; injection E as <-; apply G; cbn; try discriminate; try lia; exact (A9 _ _ Er).
    + destruct (nth_error (tasks o) j) as [[]|]; try discriminate E; injection E as <-; apply G; cbn; try discriminate; try lia; exact (A9 _ _ Er).
Qed.

Lemma minv_moves ll p o : minv ll p -> minv ll o -> py_role p = false \/ py_pc o <> MStart -> py_pc p <> MDone ->
  exists w, step1 w p o <> None \/ step1 w o p <> None.
Proof.
  intros (A1 & A2 & A3 & A4 & ts & A5 & A6 & A7 & A8 & A9) (B1 & B2 & B3 & B4 & tso & B5 & B6 & B7 & B8 & B9) Hr Nd.
  destruct A3 as [A3|[A3|[A3|A3]]]; try contradiction.
  - exists WMain. left. cbn. unfold mstep. rewrite A3. ifd; discriminate.
  - exists WMain. left. cbn. unfold mstep. rewrite A3. destruct Hr as [Hr|Hr]; [rewrite Hr; cbn; discriminate|].
    assert (Q : (rank (py_ll o) (py_pc o) =? 0) = false).
    { apply Nat.eqb_neq. destruct B3 as [B3|[B3|[B3|B3]]]; rewrite B3; cbn; try lia. contradiction. }
    rewrite Q, andb_false_r. discriminate.
  - destruct (join_tasks ts) as [[]|] eqn:J; [exists WMain; left; cbn; unfold mstep; rewrite A3, A5, J, ?A4; discriminate..|].
    destruct (join_none J) as [j Hj].
    assert (Hl : j < ll).
    { rewrite <- A6. apply nth_error_Some. destruct Hj as [H|H]; rewrite H; discriminate. }
    destruct (@nth_error_some _ (py_rounds p) j) as [r Er]; [lia|]. destruct (@nth_error_some _ (py_rounds o) j) as [r' Er']; [lia|].
    destruct (@nth_error_some _ tso j) as [t' Et']; [lia|]. exists (WTask j). cbn [step1].
    assert (T : tasks p = ts) by (unfold tasks; rewrite A5; reflexivity).
    assert (T' : tasks o = tso) by (unfold tasks; rewrite B5; reflexivity).
    destruct Hj as [Hj|Hj].
    + left. unfold pstep; cbv zeta; rewrite T, Hj, (@nth_of_error _ (py_rounds p) j r round0 Er), (A9 _ _ Er). ifd; discriminate.
    + destruct t'.
      * right. unfold pstep; cbv zeta; rewrite T', Et', (@nth_of_error _ (py_rounds o) j r' round0 Er'), (B9 _ _ Er'). ifd; discriminate.
      * left. unfold pstep; cbv zeta; rewrite T, Hj, T', Et'. discriminate.
      * left. unfold pstep; cbv zeta; rewrite T, Hj, T', Et'. discriminate.
      * exfalso. exact (B8 _ _ Et' eq_refl).
Qed.

Lemma minv_init L bits lead role fail : div_ceil bits L <= lead ->
  minv (div_ceil bits L) (call (rs_init L bits (rs_new lead true role true true fail))) /\
  mweight (div_ceil bits L) (call (rs_init L bits (rs_new lead true role true true fail))) <= 2 * div_ceil bits L + 3.
Proof.
  intros H. unfold call. cbn [py_ext rs_init rs_new]. unfold gen_pre. cbn [py_started rs_init rs_new py_lead py_rounds].
  destruct (pre_start lead 0 (rounds_init L (div_ceil bits L) [])) as [rs ts] eqn:E.
  destruct (pre_start_spec E) as (L1 & L2 & F). rewrite rounds_init_length in L1, L2.
  assert (G : forall j, j < div_ceil bits L -> nth_error ts j = Some PWait /\ exists r, nth_error rs j = Some r /\ rd_start r = (j <? lead)).
  { intros j Hj. destruct (@nth_error_some _ (rounds_init L (div_ceil bits L) []) j) as [r Er]; [rewrite rounds_init_length; exact Hj|].
    pose proof (proj2 (rounds_init_nth Er)) as Q. destruct (F j r Er) as [X Y]; [rewrite Q; reflexivity..|].
    split; [exact X|]. eexists; split; [exact Y|reflexivity]. }
  split.
  - split; [reflexivity|]. split; [reflexivity|]. split; [left; reflexivity|]. split; [reflexivity|]. exists ts. cbn.
    split; [reflexivity|]. split; [exact L2|]. split; [exact L1|]. split.
    + intros j t X. destruct (G j) as [Y _]; [rewrite <- L2; apply nth_error_Some; congruence|]. congruence.
    + intros j r X. destruct (G j) as [_ (r' & Y & Z)]; [rewrite <- L1; apply nth_error_Some; congruence|].
      assert (r' = r) by congruence. subst r'. rewrite Z. apply Nat.ltb_lt.
      enough (j < div_ceil bits L) by lia. rewrite <- L1. apply nth_error_Some. congruence.
  - unfold mweight, tasks. cbn [py_pre py_pc with_pre with_rounds rs_init rs_new]. pose proof (tsum_le ts). lia.
Qed.

Lemma mrun ll : forall sch s s', minv ll (fst s) -> minv ll (snd s) -> run sch s = Some s' ->
  minv ll (fst s') /\ minv ll (snd s') /\ length sch + (mweight ll (fst s') + mweight ll (snd s')) <= mweight ll (fst s) + mweight ll (snd s).
Proof.
  induction sch as [|[b w] sch IH]; intros s s' I0 I1 E; cbn [run] in E; [injection E as <-; cbn; auto|].
  destruct (step b w s) as [s1|] eqn:E1; [|discriminate E]. destruct s as [p o]. unfold step in E1. cbn [fst snd] in *. destruct b.
  - destruct (step1 w o p) eqn:E2; [|discriminate E1]. injection E1 as <-. destruct (minv_step I1 E2) as [X Y].
    destruct (IH (p, _) _ I0 X E) as (Z1 & Z2 & Z3). split; [exact Z1|]. split; [exact Z2|]. cbn [fst snd length] in *. lia.
  - destruct (step1 w p o) eqn:E2; [|discriminate E1]. injection E1 as <-. destruct (minv_step I0 E2) as [X Y].
    destruct (IH (_, o) _ X I1 E) as (Z1 & Z2 & Z3). split; [exact Z1|]. split; [exact Z2|]. cbn [fst snd length] in *. lia.
Qed.

Lemma gen_pre_role p : py_role (gen_pre p) = py_role p.
Proof. unfold gen_pre. destruct (py_started p); [reflexivity|]. destruct (pre_start _ _ _). reflexivity. Qed.

Lemma role_step w p o q : step1 w p o = Some q -> py_role q = py_role p.
Proof.
  intros E. destruct w as [|j]; cbn [step1] in E.
  - unfold mstep in E. destruct (py_pc p); try discriminate E.
    + destruct (negb _); [injection E as <-; reflexivity|]. destruct (py_mock p); [injection E as <-; reflexivity|].
      destruct (py_started p); injection E as <-; cbn; [reflexivity|apply gen_pre_role].
    + destruct (_ && _); [discriminate E|]. injection E as <-. reflexivity.
    + destruct (entered p o); [|discriminate E]. injection E as <-. reflexivity.
    + destruct (_ <? _) in E; injection E as <-; reflexivity.
    + destruct (entered p o); [|discriminate E]. injection E as <-. reflexivity.
    + destruct (rd_ready _); [|discriminate E]. injection E as <-. reflexivity.
    + destruct (entered p o); [|discriminate E]. injection E as <-. reflexivity.
    + destruct (py_pre p) as [| |ts]; [injection E as <-; reflexivity|destruct (py_ext p); injection E as <-; reflexivity|].
      destruct (join_tasks ts) as [[]|]; try discriminate E; [destruct (py_ext p)|]; injection E as <-; reflexivity.
  - unfold pstep in E. destruct (nth_error (tasks p) j) as [[]|]; try discriminate E.
    + destruct (rd_start _) in E; [|discriminate E]. destruct (_ =? 0) in E; injection E as <-; reflexivity.
    + destruct (nth_error (tasks o) j) as [[]|]; try discriminate E; injection E as <-; reflexivity.
Qed.
