From Verif Require Import Base PermCorProofs GmwModel GmwSpec GmwProofs.
From Coq Require Import Permutation.

(* ---------------- isZeroCircuit ---------------- *)

(* logical value of a wire: the physical value flipped by the flag *)
Definition lval (s : bcir) (e : env) (i : nat) : bool := xorb (nth i (fst s) false) (eval (snd s) e i).

Lemma add_inv_ok bits a s : length (fst s) = bits -> a < bits ->
  exists s', add_inv a s = Ok s' /\ length (fst s') = bits /\ snd s' = snd s /\
    forall e i, lval s' e i = if i =? a then negb (lval s e a) else lval s e i.
Proof.
  intros HL Ha. destruct s as [fl gs]; cbn [fst] in HL. unfold add_inv.
  rewrite (getn false) by lia. cbn [bind]. rewrite set_lt by lia. cbn [bind].
  eexists. split; [reflexivity|]. cbn [fst snd]. rewrite upd_length. split; auto. split; auto.
  intros e i. unfold lval; cbn [fst snd]. rewrite nthu.
  rewrite Nat.eqb_sym. destruct (Nat.eqb_spec i a) as [->|]; auto.
  destruct (Nat.ltb_spec a (length fl)); [|lia]. cbn [andb].
  destruct (nth a fl false), (eval gs e a); reflexivity.
Qed.

Lemma add_and_ok bits a b s : length (fst s) = bits -> a < bits -> b < bits ->
  exists s', add_and a b a s = Ok s' /\ length (fst s') = bits /\ nth a (fst s') true = false /\
    (forall i, i <> a -> nth i (fst s') true = nth i (fst s) true) /\
    forall e i, lval s' e i = if i =? a then lval s e a && lval s e b else lval s e i.
Proof.
  intros HL Ha Hb. destruct s as [fl gs]; cbn [fst] in HL. unfold add_and.
  rewrite !(getn false) by lia. cbn [bind]. rewrite set_lt by lia. cbn [bind].
  eexists. split; [reflexivity|]. cbn [fst snd]. rewrite upd_length. split; auto.
  split; [rewrite nthu, Nat.eqb_refl; destruct (Nat.ltb_spec a (length fl)); [auto|lia]|].
  split; [intros i Hi; rewrite nthu; destruct (Nat.eqb_spec a i); [congruence|auto]|].
  intros e i. unfold lval; cbn [fst snd]. rewrite nthu, eval_app.
  unfold eval at 1. cbn [fold_left]. unfold step, put. cbn [gOut gType gIn0 gIn1].
  rewrite Nat.eqb_sym. destruct (Nat.eqb_spec i a) as [->|]; auto.
  destruct (Nat.ltb_spec a (length fl)); [|lia]. cbn [andb].
  destruct (nth a fl false), (nth b fl false), (eval gs e a), (eval gs e b); reflexivity.
Qed.

(* wire i carries the test of the bits i .. i+s-1 *)
Definition zblock (bits s : nat) (e : env) (i : nat) (v : bool) : Prop :=
  v = true <-> forall t, i <= t < i + s -> t < bits -> e t = false.

Lemma zero_inner_ok bits st : 0 < st -> forall fuel m s,
  bits < m * (st * 2) + fuel -> 0 < fuel -> length (fst s) = bits ->
  (forall e k, k < m -> k * (st * 2) < bits -> zblock bits (st * 2) e (k * (st * 2)) (lval s e (k * (st * 2)))) ->
  (forall e k, 2 * m <= k -> k * st < bits -> zblock bits st e (k * st) (lval s e (k * st))) ->
  (0 < m -> nth 0 (fst s) true = false) ->
  exists s', zero_inner fuel bits st (m * (st * 2)) s = Ok s' /\ length (fst s') = bits /\
    (forall e k, k * (st * 2) < bits -> zblock bits (st * 2) e (k * (st * 2)) (lval s' e (k * (st * 2)))) /\
    (st < bits -> nth 0 (fst s') true = false).
Proof.
  intros Hst. induction fuel as [|fuel IH]; intros m s Hf Hf0 HL HA HB HF; [lia|].
  cbn [zero_inner]. destruct (Nat.ltb_spec (m * (st * 2) + st) bits) as [L|L].
  - destruct (@add_and_ok bits (m * (st * 2)) (m * (st * 2) + st) s HL) as (s1 & E1 & L1 & F1 & G1 & V1); [lia|lia|].
    rewrite E1. cbn [bind].
    replace (m * (st * 2) + st * 2) with (S m * (st * 2)) by lia.
    apply IH; auto.
    + nia.
    + nia.
    + intros e k Hk Hkb. rewrite V1. destruct (Nat.eqb_spec (k * (st * 2)) (m * (st * 2))) as [E|E].
      * rewrite E. pose proof (HB e (2 * m)) as B1. pose proof (HB e (2 * m + 1)) as B2.
        replace (2 * m * st) with (m * (st * 2)) in B1 by lia.
        replace ((2 * m + 1) * st) with (m * (st * 2) + st) in B2 by lia.
        specialize (B1 ltac:(lia) ltac:(lia)). specialize (B2 ltac:(lia) ltac:(lia)).
        unfold zblock in *. rewrite andb_true_iff, B1, B2. split.
        -- intros [H1 H2] t Ht Hb. destruct (Nat.lt_ge_cases t (m * (st * 2) + st)); [apply H1|apply H2]; lia.
        -- intros H; split; intros t Ht Hb; apply H; lia.
      * apply HA; auto. assert (k <> m) by congruence. lia.
    + intros e k Hk Hkb. rewrite V1. destruct (Nat.eqb_spec (k * st) (m * (st * 2))) as [E|E]; [nia|].
      apply HB; auto. lia.
    + intros _. destruct m; [exact F1|]. rewrite G1; [apply HF; lia|lia].
  - exists s. split; auto. split; auto. split.
    + intros e k Hkb. destruct (Nat.lt_ge_cases k m) as [Hk|Hk]; [apply HA; auto|].
      assert (k = m) by nia. subst k.
      pose proof (HB e (2 * m) ltac:(lia)) as B1. replace (2 * m * st) with (m * (st * 2)) in B1 by lia.
      specialize (B1 Hkb). unfold zblock in *. rewrite B1. split; intros H t Ht Hb; apply H; lia.
    + intros Hb. apply HF. destruct m; [lia|lia].
Qed.

Lemma zero_outer_ok bits : 0 < bits -> forall fuel st s,
  0 < st -> bits < st + fuel -> 0 < fuel -> length (fst s) = bits ->
  (forall e k, k * st < bits -> zblock bits st e (k * st) (lval s e (k * st))) ->
  (1 < st -> nth 0 (fst s) true = false) ->
  exists s', zero_outer fuel bits st s = Ok s' /\ length (fst s') = bits /\
    (forall e, zblock bits bits e 0 (lval s' e 0)) /\ (1 < bits -> nth 0 (fst s') true = false).
Proof.
  intros Hb. induction fuel as [|fuel IH]; intros st s Hst Hf Hf0 HL HB HF; [lia|].
  cbn [zero_outer]. destruct (Nat.ltb_spec st bits) as [L|L].
  - destruct (@zero_inner_ok bits st Hst (bits + 1) 0 s) as (s1 & E1 & L1 & B1 & F1); auto; try lia.
    simpl Nat.mul in E1. rewrite E1. cbn [bind]. apply IH; auto; lia.
  - exists s. split; auto. split; auto. split.
    + intros e. pose proof (HB e 0 ltac:(lia)) as B0. simpl in B0. unfold zblock in *. rewrite B0.
      split; intros H t Ht Htb; apply H; lia.
    + intros H1. apply HF. lia.
Qed.

Lemma is_zero_ok bits : 0 < bits ->
  exists fl gs, is_zero_circuit bits = Ok (fl, gs) /\ length fl = bits /\
    (forall e, xorb (nth 0 fl false) (eval gs e 0) = true <-> forall t, t < bits -> e t = false) /\
    (1 < bits -> nth 0 fl true = false).
Proof.
  intros Hb. unfold is_zero_circuit.
  destruct (forN_inv
    (S := bcir) (P := fun i s => length (fst s) = bits /\ snd s = [] /\
            forall e k, lval s e k = if k <? i then negb (e k) else e k)
    (f := add_inv) (n := bits) (i := 0) (s := (repeat false bits, []))) as (s1 & E1 & L1 & G1 & V1).
  { simpl. rewrite repeat_length. split; auto. split; auto. intros e k. unfold lval. simpl.
    rewrite nth_repeat. destruct (e k); reflexivity. }
  { intros k s Hk (H1 & H2 & H3). destruct (@add_inv_ok bits k s H1) as (s' & E & L & G & V); [lia|].
    exists s'. split; auto. split; auto. split; [congruence|]. intros e i. rewrite V, !H3.
    destruct (Nat.ltb_spec k k); [lia|].
    destruct (Nat.eqb_spec i k) as [->|]; [destruct (Nat.ltb_spec k (k + 1)); [auto|lia]|].
    destruct (Nat.ltb_spec i k), (Nat.ltb_spec i (k + 1)); auto; lia. }
  rewrite E1. cbn [bind].
  destruct (@zero_outer_ok bits Hb (bits + 1) 1 s1) as ([fl gs] & E2 & L2 & B2 & F2); auto; try lia.
  { intros e k Hk. unfold zblock. rewrite V1. rewrite Nat.mul_1_r in *. destruct (Nat.ltb_spec k (0 + bits)); [|lia].
    rewrite negb_true_iff. split; [intros H0 t Ht _; replace t with k by lia; auto|intros H0; apply H0; lia]. }
  exists fl, gs. split; auto. split; auto. split; auto.
  intros e. specialize (B2 e). unfold zblock, lval in B2. cbn [fst snd] in B2. rewrite B2.
  split; intros H t; [intros Ht|intros Ht _]; apply H; lia.
Qed.

(* ---------------- evaluate ---------------- *)

Lemma assign_ok : forall dst src tbl, length dst = length src -> NoDup dst ->
  (forall d, In d dst -> d < length tbl) ->
  exists tbl', assign tbl dst src = Ok tbl' /\ length tbl' = length tbl /\
    (forall p, p < length dst -> nth (nth p dst 0) tbl' 0 = nth p src 0) /\
    (forall i, ~ In i dst -> nth i tbl' 0 = nth i tbl 0).
Proof.
  induction dst as [|d dst IH]; intros [|s src] tbl HL HN HB; try discriminate.
  - exists tbl. split; [reflexivity|]. split; [reflexivity|]. split; [intros p Hp; simpl in Hp; lia|auto].
  - inversion HN as [|? ? HN1 HN2]; subst. cbn [assign].
    rewrite set_lt by (apply HB; left; auto). cbn [bind].
    destruct (IH src (upd tbl d s)) as (t' & E & L & A & B); auto.
    { intros x Hx. rewrite upd_length. apply HB; right; auto. }
    exists t'. split; auto. rewrite upd_length in L. split; auto. split.
    + intros [|p] Hp; cbn [nth].
      * rewrite B by auto. rewrite nthu, Nat.eqb_refl. destruct (Nat.ltb_spec d (length tbl)); auto.
        specialize (HB d (or_introl eq_refl)). lia.
      * apply A. simpl in Hp. lia.
    + intros i Hi. rewrite B by (intros H; apply Hi; right; auto). rewrite nthu.
      destruct (Nat.eqb_spec d i); auto. exfalso. apply Hi. left; auto.
Qed.

Definition rename (f : nat -> nat) (g : gate) : gate :=
  match gType g with
  | GCopy => Gate (f (gIn0 g)) (f (gIn0 g)) GCopy (f (gOut g))
  | t => Gate (f (gIn0 g)) (f (gIn1 g)) t (f (gOut g))
  end.

Lemma inline_ok tbl n : length tbl = n -> forall gs,
  (forall g, In g gs -> gIn0 g < n /\ gIn1 g < n /\ gOut g < n) ->
  mapO (inline_gate tbl) gs = Ok (map (rename (fun i => nth i tbl 0)) gs).
Proof.
  intros HL. induction gs as [|g gs IH]; intros H; [reflexivity|].
  cbn [mapO map]. destruct (H g (or_introl eq_refl)) as (H0 & H1 & H2).
  assert (E : inline_gate tbl g = Ok (rename (fun i => nth i tbl 0) g)).
  { unfold inline_gate, rename. rewrite !(getn 0) by lia. cbn [bind]. destruct (gType g); reflexivity. }
  rewrite E. cbn [bind]. rewrite IH by (intros; apply H; right; auto). reflexivity.
Qed.

Lemma rename_gfun f g (e : env) : gfun (gType (rename f g)) (e (gIn0 (rename f g))) (e (gIn1 (rename f g))) =
  gfun (gType g) (e (f (gIn0 g))) (e (f (gIn1 g))).
Proof. unfold rename. destruct (gType g); reflexivity. Qed.
Lemma rename_out f g : gOut (rename f g) = f (gOut g).
Proof. unfold rename. destruct (gType g); reflexivity. Qed.

Lemma eval_rename inputs (f : nat -> nat) n :
  (forall o i, o < n -> i < n -> ~ In o inputs -> f o = f i -> o = i) ->
  forall gs defined e s, well_def inputs defined gs ->
  (forall g, In g gs -> gIn0 g < n /\ gIn1 g < n /\ gOut g < n) ->
  (forall i, In i defined -> i < n /\ e (f i) = s i) ->
  forall i, In i defined \/ (exists g, In g gs /\ gOut g = i) ->
  eval (map (rename f) gs) e (f i) = eval gs s i.
Proof.
  intros Hf. induction gs as [|g gs IH]; intros defined e s HW HG HD i Hi.
  - destruct Hi as [Hi|(g & [] & _)]. apply HD. exact Hi.
  - destruct HW as (W1 & W2 & W3). destruct (HG g (or_introl eq_refl)) as (G0 & G1 & G2).
    unfold eval. simpl. fold (eval (map (rename f) gs)). fold (eval gs).
    apply (IH (gOut g :: defined)); auto.
    + intros h Hh. apply HG. right; auto.
    + assert (HV : gfun (gType g) (e (f (gIn0 g))) (e (f (gIn1 g))) = gfun (gType g) (s (gIn0 g)) (s (gIn1 g))).
      { destruct (HD (gIn0 g)) as [_ E0]; [apply W1; left; auto|]. rewrite E0.
        destruct (gType g) eqn:ET; simpl; auto;
          (destruct (HD (gIn1 g)) as [_ E1]; [apply W1; right; split; [rewrite ET; discriminate|auto]|]; rewrite E1; reflexivity). }
      intros k Hk. unfold step. rewrite rename_gfun, rename_out, HV. unfold put.
      destruct (Nat.eqb_spec k (gOut g)) as [->|Hne].
      * rewrite Nat.eqb_refl. auto.
      * destruct Hk as [Hk|Hk]; [congruence|]. destruct (HD k Hk) as [HK HE]. split; auto.
        destruct (Nat.eqb_spec (f k) (f (gOut g))) as [Ef|]; auto.
        exfalso. apply Hne. symmetry. apply Hf; auto.
    + destruct Hi as [Hi|(h & [<-|Hh] & Ho)]; [left; right; auto|left; left; auto|right; eauto].
Qed.

Lemma eval_keep gs : forall e i, (forall g, In g gs -> gOut g <> i) -> eval gs e i = e i.
Proof.
  unfold eval. induction gs as [|g gs IH]; intros e i H; simpl; auto.
  rewrite IH by (intros; apply H; right; auto). unfold step, put.
  destruct (Nat.eqb_spec i (gOut g)); auto. exfalso. apply (H g); simpl; auto.
Qed.

Lemma well_def_out inputs : forall gs defined, well_def inputs defined gs -> forall g, In g gs -> ~ In (gOut g) inputs.
Proof. induction gs as [|h gs IH]; intros d H g []; destruct H as (_ & H2 & H3); subst; eauto. Qed.

Lemma same_shape_len a b : same_shape a b = true -> length (concat a) = length (concat b).
Proof.
  unfold same_shape. intros H. apply andb_true_iff in H. destruct H as [H1 H2]. apply Nat.eqb_eq in H1.
  revert b H1 H2. induction a as [|x a IH]; intros [|y b] H1 H2; try discriminate; auto.
  simpl in H2. apply andb_true_iff in H2. destruct H2 as [H2 H3]. apply Nat.eqb_eq in H2.
  simpl. rewrite !app_length, H2, (IH b); auto.
Qed.

Lemma NoDup_app_l A (l m : list A) : NoDup (l ++ m) -> NoDup l.
Proof.
  induction l as [|a l IH]; simpl; intros H; [constructor|]. inversion H; subst. constructor; auto.
  intros Hi. apply H2. apply in_or_app; auto.
Qed.
Lemma NoDup_app_r A (l m : list A) : NoDup (l ++ m) -> NoDup m.
Proof. induction l as [|a l IH]; simpl; intros H; auto. inversion H; auto. Qed.

Lemma evaluate_ok parent cir ins outs : inlinable cir ->
  same_shape (cIns cir) ins = true -> same_shape (cOuts cir) outs = true ->
  (forall i, In i (concat ins) \/ In i (concat outs) -> i < cWires parent) ->
  NoDup (concat outs) -> (forall i, In i (concat ins) -> ~ In i (concat outs)) ->
  exists r, evaluate parent cir ins outs = Ok r /\
    cIns r = cIns parent /\ cOuts r = cOuts parent /\ cWires parent <= cWires r /\
    forall e, let e1 := eval (cGates parent) e in
      (forall i, i < cWires parent -> ~ In i (concat outs) -> eval (cGates r) e i = e1 i) /\
      (forall s, (forall p, p < length (concat ins) -> s (nth p (concat (cIns cir)) 0) = e1 (nth p (concat ins) 0)) ->
         forall p, p < length (concat outs) ->
           eval (cGates r) e (nth p (concat outs) 0) = eval (cGates cir) s (nth p (concat (cOuts cir)) 0)).
Proof.
  intros (I1 & I2 & I3 & I4 & I5) Si So Hr HN Hd.
  pose proof (same_shape_len Si) as LI. pose proof (same_shape_len So) as LO.
  unfold evaluate. rewrite Si, So. cbn [negb throw_if bind].
  rewrite <- LI, <- LO. set (used := length (concat (cIns cir)) + length (concat (cOuts cir))) in *.
  destruct (Nat.ltb_spec (cWires cir) used) as [?|_]; [lia|]. cbn [throw_if bind].
  set (n := cWires cir) in *. set (P := cWires parent) in *. set (temps := n - used).
  assert (NDs : NoDup (concat (cIns cir) ++ concat (cOuts cir))) by (eapply Permutation_NoDup; [symmetry; exact I2|apply seq_NoDup]).
  assert (Hin : forall i, In i (concat (cIns cir) ++ concat (cOuts cir)) <-> i < used).
  { intros i. split; intros H.
    - apply (Permutation_in _ I2) in H. apply in_seq in H. lia.
    - apply (Permutation_in i (Permutation_sym I2)). apply in_seq. lia. }
  assert (ND1 : NoDup (concat (cIns cir))) by (eapply NoDup_app_l; eauto).
  assert (ND2 : NoDup (concat (cOuts cir))) by (eapply NoDup_app_r; eauto).
  assert (Dis : forall i, In i (concat (cIns cir)) -> ~ In i (concat (cOuts cir))).
  { intros i H1 H2. apply in_split in H1. destruct H1 as (a & b & E). rewrite E, <- app_assoc in NDs.
    apply NoDup_remove_2 in NDs. apply NDs. apply in_or_app. right. apply in_or_app. right. auto. }
  destruct (@assign_ok (concat (cIns cir)) (concat ins) (repeat (P + temps) n)) as (t1 & E1 & L1 & A1 & B1); auto.
  { intros d H. rewrite repeat_length. assert (d < used) by (apply Hin, in_or_app; auto). lia. }
  rewrite E1. cbn [bind].
  destruct (@assign_ok (concat (cOuts cir)) (concat outs) t1) as (t2 & E2 & L2 & A2 & B2); auto.
  { intros d H. rewrite L1, repeat_length. assert (d < used) by (apply Hin, in_or_app; auto). lia. }
  rewrite E2. cbn [bind].
  destruct (@assign_ok (seq used temps) (seq P temps) t2) as (t3 & E3 & L3 & A3 & B3).
  { rewrite !seq_length. auto. }
  { apply seq_NoDup. }
  { intros d H. apply in_seq in H. rewrite L2, L1, repeat_length. unfold temps in *. lia. }
  rewrite E3. cbn [bind].
  assert (L : length t3 = n) by (rewrite L3, L2, L1, repeat_length; auto).
  rewrite (inline_ok L) by exact I4. cbn [bind].
  set (f := fun i => nth i t3 0).
  assert (FI : forall p, p < length (concat ins) -> f (nth p (concat (cIns cir)) 0) = nth p (concat ins) 0).
  { intros p Hp. unfold f. rewrite <- LI in Hp. assert (HI := nth_In (concat (cIns cir)) 0 Hp).
    rewrite B3, B2; [apply A1; auto|apply Dis; auto|].
    intros H. apply in_seq in H. assert (nth p (concat (cIns cir)) 0 < used) by (apply Hin, in_or_app; auto). lia. }
  assert (FO : forall p, p < length (concat outs) -> f (nth p (concat (cOuts cir)) 0) = nth p (concat outs) 0).
  { intros p Hp. unfold f. rewrite <- LO in Hp. assert (HI := nth_In (concat (cOuts cir)) 0 Hp).
    rewrite B3; [apply A2; auto|].
    intros H. apply in_seq in H. assert (nth p (concat (cOuts cir)) 0 < used) by (apply Hin, in_or_app; auto). lia. }
  assert (FT : forall i, used <= i -> i < n -> f i = P + (i - used)).
  { intros i H1 H2. unfold f. specialize (A3 (i - used)). rewrite seq_length in A3.
    rewrite !seq_nth in A3 by (unfold temps; lia). replace (used + (i - used)) with i in A3 by lia.
    apply A3. unfold temps; lia. }
  assert (Cls : forall i, i < n -> (exists p, p < length (concat ins) /\ i = nth p (concat (cIns cir)) 0) \/
     (exists p, p < length (concat outs) /\ i = nth p (concat (cOuts cir)) 0) \/ used <= i).
  { intros i Hi. destruct (Nat.lt_ge_cases i used) as [H|H]; [|auto].
    apply Hin, in_app_or in H. destruct H as [H|H]; apply (In_nth _ _ 0) in H; destruct H as (p & Hp & <-);
      [left|right; left]; exists p; split; auto; lia. }
  assert (Inj : forall o i, o < n -> i < n -> ~ In o (concat (cIns cir)) -> f o = f i -> o = i).
  { intros o i Ho Hi Hno Ef.
    destruct (Cls o Ho) as [(p & Hp & ->)|[(p & Hp & ->)|Hou]].
    - exfalso. apply Hno. apply nth_In. lia.
    - rewrite FO in Ef by auto.
      destruct (Cls i Hi) as [(p' & Hp' & ->)|[(p' & Hp' & ->)|Hiu]].
      + rewrite FI in Ef by auto. exfalso. apply (Hd (nth p' (concat ins) 0)); [apply nth_In; auto|].
        rewrite <- Ef. apply nth_In; auto.
      + rewrite FO in Ef by auto. f_equal. apply (proj1 (NoDup_nth _ 0) HN) in Ef; auto.
      + rewrite (FT i) in Ef by auto. assert (nth p (concat outs) 0 < P) by (apply Hr; right; apply nth_In; auto). lia.
    - rewrite (FT o) in Ef by auto.
      destruct (Cls i Hi) as [(p' & Hp' & ->)|[(p' & Hp' & ->)|Hiu]].
      + rewrite FI in Ef by auto. assert (nth p' (concat ins) 0 < P) by (apply Hr; left; apply nth_In; auto). lia.
      + rewrite FO in Ef by auto. assert (nth p' (concat outs) 0 < P) by (apply Hr; right; apply nth_In; auto). lia.
      + rewrite (FT i) in Ef by auto. lia. }
  eexists. split; [reflexivity|]. cbn [cIns cOuts cWires cGates]. split; auto. split; auto. split; [unfold P; lia|].
  intros e. rewrite eval_app. set (e1 := eval (cGates parent) e). split.
  - intros i Hi Hno. apply eval_keep. intros g Hg. apply in_map_iff in Hg. destruct Hg as (h & <- & Hh).
    fold f. rewrite rename_out. intros Ef. pose proof (I4 h Hh) as (_ & _ & Ho).
    destruct (Cls (gOut h) Ho) as [(p & Hp & E)|[(p & Hp & E)|Hou]].
    + apply (@well_def_out _ _ _ I3 h Hh). rewrite E. apply nth_In. lia.
    + rewrite E, FO in Ef by auto. apply Hno. rewrite <- Ef. apply nth_In; auto.
    + rewrite FT in Ef by auto. unfold P in *. lia.
  - intros s Hs p Hp. fold f. rewrite <- (FO p) by lia.
    apply (@eval_rename (concat (cIns cir)) f n Inj (cGates cir) (concat (cIns cir))); auto.
    + intros i Hi. apply (In_nth _ _ 0) in Hi. destruct Hi as (k & Hk & <-). split.
      * assert (nth k (concat (cIns cir)) 0 < used) by (apply Hin, in_or_app; left; apply nth_In; auto). lia.
      * rewrite FI by lia. symmetry. apply Hs. lia.
    + right. apply I5. apply nth_In. lia.
Qed.
