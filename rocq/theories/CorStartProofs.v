(* Proofs about starting batches, the scheduling loop and the base correlations. *)
From Verif Require Import Base CorGenModel CorGenSpec.
From Coq Require Import Permutation.

(* ---------------- C39 ---------------- *)

(* indices taken by a CAS and not yet set *)
Definition pend (t : thread) : list nat := match t with TSet _ _ i => [i] | _ => [] end.
Definition pending (ts : list thread) : list nat := flat_map pend ts.

(* past mStarted.exchange *)
Definition working (t : thread) : option nat :=
  match t with TStart _ => None | _ => target t end.

Definition local_ok (idx : nat) (t : thread) : Prop :=
  match t with
  | TLoop _ _ i => i <= idx
  | TSet _ b i => i < idx /\ i <= b
  | _ => True
  end.

Definition measure (t : thread) : nat :=
  match t with
  | TStart b => 2 * S b + 5
  | TLoad _ b => 2 * S b + 4
  | TLoop _ b i => 2 * (S b - i) + 3
  | TSet _ b i => 2 * (S b - i) + 2
  | TAssert _ => 1
  | TDone => 0
  end.

Definition total (ts : list thread) : nat := fold_right (fun t a => measure t + a) 0 ts.

Record tinv (want : list nat) (s : shared) (ts : list thread) : Prop := TInv {
  ti_log : Permutation (set_events s ++ pending ts) (seq 0 (shIdx s));
  ti_local : Forall (local_ok (shIdx s)) ts;
  ti_bound : forall M, Forall (fun b => b < M) want -> shIdx s <= M /\
     forall t b, In t ts -> target t = Some b -> b < M;
  ti_want : forall b, In b want -> b < shIdx s \/ exists t, In t ts /\ target t = Some b;
  ti_started : forall b, nth b (shStarted s) false = true ->
     b < shIdx s \/ exists t, In t ts /\ working t = Some b;
}.

Lemma total_app l r : total (l ++ r) = total l + total r.
Proof. unfold total. induction l; cbn [fold_right app]; [reflexivity|]. lia. Qed.

Lemma pending_app l r : pending (l ++ r) = pending l ++ pending r.
Proof. apply flat_map_app. Qed.

Lemma nth_upd_bool (l : list bool) i j : nth j (upd l i true) false = true -> i = j \/ nth j l false = true.
Proof.
  revert i j. induction l as [|a l IH]; intros [|i] [|j]; cbn; auto.
  intros H. destruct (IH _ _ H); auto.
Qed.

Lemma local_mono i j t : i <= j -> local_ok i t -> local_ok j t.
Proof. destruct t; cbn; lia. Qed.

Lemma in_mid A (x y : A) l r : In x (l ++ y :: r) <-> x = y \/ In x (l ++ r).
Proof. rewrite !in_app_iff. cbn. intuition. Qed.

Lemma tinv_step want s ts s' ts' : tinv want s ts -> step (s, ts) (s', ts') ->
  tinv want s' ts' /\ total ts' < total ts.
Proof.
  intros Hi Hs. inversion Hs as [s0 s1 t t' l r Hst]; subst. clear Hs.
  destruct Hi as [Hlog Hloc Hbd Hw Hst'].
  rewrite Forall_app in Hloc. destruct Hloc as [Hl Hloc]. inversion Hloc as [|? ? Ht Hr]; subst.
  (* the generic part: another thread keeps serving, or the new thread does *)
  assert (HW : forall b, In b want -> shIdx s <= shIdx s' ->
     (target t = Some b -> target t' = Some b \/ b < shIdx s' \/ exists u, In u (l ++ t' :: r) /\ working u = Some b) ->
     b < shIdx s' \/ exists u, In u (l ++ t' :: r) /\ target u = Some b).
  { intros b Hb Hle Hx. destruct (Hw b Hb) as [?|[u [Hu Hub]]]; [left; lia|].
    apply in_mid in Hu. destruct Hu as [->|Hu].
    - destruct (Hx Hub) as [?|[?|[u' [Hu' Hw']]]]; [right; exists t'; split; [apply in_mid; auto|assumption]|left; assumption|].
      right. exists u'. split; [assumption|]. destruct u'; cbn in *; congruence.
    - right. exists u. split; [apply in_mid; auto|assumption]. }
  assert (HS : forall b, (b < shIdx s \/ exists u, In u (l ++ t :: r) /\ working u = Some b) -> shIdx s <= shIdx s' ->
     (working t = Some b -> working t' = Some b \/ b < shIdx s') ->
     b < shIdx s' \/ exists u, In u (l ++ t' :: r) /\ working u = Some b).
  { intros b [?|[u [Hu Hub]]] Hle Hx; [left; lia|].
    apply in_mid in Hu. destruct Hu as [->|Hu].
    - destruct (Hx Hub); [right; exists t'; split; [apply in_mid; auto|assumption]|left; assumption].
    - right. exists u. split; [apply in_mid; auto|assumption]. }
  assert (HB : forall M, Forall (fun b => b < M) want ->
     shIdx s' <= M -> (forall b, target t' = Some b -> target t = Some b) ->
     shIdx s' <= M /\ forall u b, In u (l ++ t' :: r) -> target u = Some b -> b < M).
  { intros M HM Hle Hx. split; [assumption|]. destruct (Hbd M HM) as [_ Hb]. intros u b Hu Hub.
    apply in_mid in Hu. destruct Hu as [->|Hu].
    - apply (Hb t b); [apply in_mid; auto|auto].
    - apply (Hb u b); [apply in_mid; auto|assumption]. }
  rewrite total_app. cbn [total fold_right]. fold (total r).
  rewrite total_app. cbn [total fold_right]. fold (total r).
  rewrite pending_app in Hlog. cbn [pending flat_map] in Hlog. fold (pending r) in Hlog.
  destruct t as [b|ab b|ab b i|ab b i|b|]; cbn [tstep] in Hst.
  - destruct (nth b (shStarted s) false) eqn:E; injection Hst as <- <-.
    + split; [|cbn [measure]; lia]. constructor.
      * rewrite pending_app. exact Hlog.
      * apply Forall_app. split; [assumption|constructor; [exact I|assumption]].
      * intros M HM. destruct (Hbd M HM). apply HB; try assumption. intros ? ?; discriminate.
      * intros b' Hb'. apply HW; [assumption|lia|]. cbn. intros Hbb. injection Hbb as <-.
        right. destruct (Hst' _ E) as [?|[u [Hu Hub]]]; [left; assumption|]. right.
        exists u. split; [|assumption]. apply in_mid in Hu. apply in_mid. destruct Hu as [->|Hu]; [discriminate|auto].
      * intros b' Hb'. apply HS; [apply Hst'; assumption|lia|]. cbn. discriminate.
    + split; [|cbn [measure]; lia]. constructor; cbn [shIdx shStarted shLog].
      * rewrite pending_app. exact Hlog.
      * apply Forall_app. split; [assumption|constructor; [exact I|assumption]].
      * intros M HM. destruct (Hbd M HM). apply HB; try assumption. cbn; auto.
      * intros b' Hb'. apply HW; [assumption|cbn; lia|]. cbn. auto.
      * intros b' Hb'. apply nth_upd_bool in Hb'. destruct Hb' as [<-|Hb'].
        -- right. exists (TLoad false b). split; [apply in_mid; auto|reflexivity].
        -- apply HS; [apply Hst'; assumption|cbn; lia|]. cbn. discriminate.
  - injection Hst as <- <-. split; [|cbn [measure]; lia]. constructor.
    + rewrite pending_app. exact Hlog.
    + apply Forall_app. split; [assumption|constructor; [cbn; lia|assumption]].
    + intros M HM. destruct (Hbd M HM). apply HB; try assumption. cbn; auto.
    + intros b' Hb'. apply HW; [assumption|lia|]. cbn. auto.
    + intros b' Hb'. apply HS; [apply Hst'; assumption|lia|]. cbn. auto.
  - destruct (Nat.ltb_spec b i).
    + injection Hst as <- <-. cbn [local_ok] in Ht. split; [|destruct ab; cbn [leave measure]; lia]. constructor.
      * rewrite pending_app. destruct ab; exact Hlog.
      * apply Forall_app. split; [assumption|constructor; [destruct ab; exact I|assumption]].
      * intros M HM. destruct (Hbd M HM). apply HB; try assumption. destruct ab; intros ? ?; discriminate.
      * intros b' Hb'. apply HW; [assumption|lia|]. cbn. intros Hbb. injection Hbb as <-. right. left. lia.
      * intros b' Hb'. apply HS; [apply Hst'; assumption|lia|]. cbn. intros Hbb. injection Hbb as <-. right. lia.
    + destruct (Nat.eqb_spec (shIdx s) i).
      * injection Hst as <- <-. split; [|cbn [measure]; lia]. subst i. constructor; cbn [shIdx shStarted shLog].
        -- rewrite pending_app. unfold set_events in *. cbn [shLog pending flat_map pend].
           fold (pending r). cbn [pend app] in Hlog. rewrite seq_S, Nat.add_0_l.
           rewrite <- Hlog. cbn [app]. rewrite !app_assoc. rewrite <- Permutation_middle.
           apply Permutation_cons_append.
        -- apply Forall_app. split; [|constructor].
           ++ eapply Forall_impl; [|exact Hl]. intros u. apply local_mono. lia.
           ++ cbn. lia.
           ++ eapply Forall_impl; [|exact Hr]. intros u. apply local_mono. lia.
        -- intros M HM. destruct (Hbd M HM) as [Hb1 Hb2]. apply HB; try assumption; cbn; [|auto].
           specialize (Hb2 (TLoop ab b (shIdx s)) b). rewrite in_mid in Hb2. specialize (Hb2 (or_introl eq_refl) eq_refl). lia.
        -- intros b' Hb'. apply HW; [assumption|cbn; lia|]. cbn. auto.
        -- intros b' Hb'. apply HS; [apply Hst'; assumption|cbn; lia|]. cbn. auto.
      * injection Hst as <- <-. cbn [local_ok] in Ht. split; [|cbn [measure]; lia]. constructor.
        -- rewrite pending_app. exact Hlog.
        -- apply Forall_app. split; [assumption|constructor; [cbn; lia|assumption]].
        -- intros M HM. destruct (Hbd M HM). apply HB; try assumption. cbn; auto.
        -- intros b' Hb'. apply HW; [assumption|lia|]. cbn. auto.
        -- intros b' Hb'. apply HS; [apply Hst'; assumption|lia|]. cbn. auto.
  - injection Hst as <- <-. cbn [local_ok] in Ht. split; [|cbn [measure]; lia]. constructor; cbn [shIdx shStarted shLog].
    + rewrite pending_app. unfold set_events in *. cbn [shLog pending flat_map pend app].
      fold (pending r). rewrite map_app. cbn [map fst]. rewrite <- Hlog. cbn [pend app].
      rewrite <- app_assoc. apply Permutation_app_head. cbn [app]. apply Permutation_middle.
    + apply Forall_app. split; [assumption|constructor; [cbn; lia|assumption]].
    + intros M HM. destruct (Hbd M HM). apply HB; try assumption. cbn; auto.
    + intros b' Hb'. apply HW; [assumption|cbn; lia|]. cbn. auto.
    + intros b' Hb'. apply HS; [apply Hst'; assumption|cbn; lia|]. cbn. auto.
  - injection Hst as <- <-. split; [|cbn [measure]; lia]. constructor.
    + rewrite pending_app. exact Hlog.
    + apply Forall_app. split; [assumption|constructor; [exact I|assumption]].
    + intros M HM. destruct (Hbd M HM). apply HB; try assumption. cbn; discriminate.
    + intros b' Hb'. apply HW; [assumption|lia|]. cbn. discriminate.
    + intros b' Hb'. apply HS; [apply Hst'; assumption|lia|]. cbn. discriminate.
  - discriminate.
Qed.

Definition wants (ts : list thread) : list nat :=
  flat_map (fun t => match target t with Some b => [b] | None => [] end) ts.

Lemma tinv_init n ts : Forall fresh ts -> tinv (wants ts) (shared0 n) ts.
Proof.
  intros Hf. constructor; cbn [shared0 shIdx shStarted shLog].
  - unfold set_events. cbn. induction Hf as [|t ts Ht _ IH]; [constructor|]. cbn [pending flat_map].
    destruct t as [| [] | | | |]; cbn in *; try contradiction; exact IH.
  - eapply Forall_impl; [|exact Hf]. intros t Ht. destruct t as [| [] | | | |]; cbn in *; try contradiction; exact I.
  - intros M HM. split; [lia|]. intros t b Ht Hb. rewrite Forall_forall in HM. apply HM.
    unfold wants. apply in_flat_map. exists t. split; [assumption|]. rewrite Hb. left. reflexivity.
  - intros b Hb. right. unfold wants in Hb. apply in_flat_map in Hb. destruct Hb as [t [Ht Hb]].
    exists t. split; [assumption|]. destruct (target t); [|contradiction]. destruct Hb as [->|[]]. reflexivity.
  - intros b Hb. exfalso. revert Hb. generalize b. clear. induction n; intros [|b]; cbn; try discriminate. apply IHn.
Qed.

Lemma tinv_nsteps n : forall want x y, nsteps n x y -> tinv want (fst x) (snd x) ->
  tinv want (fst y) (snd y) /\ total (snd y) + n <= total (snd x).
Proof.
  intros want x y H. induction H as [x|n x y z H IH Hs]; intros Hi; [split; [assumption|lia]|].
  destruct (IH Hi) as [Hy Ht]. destruct y as [sy ty], z as [sz tz]. cbn [fst snd] in *.
  destruct (tinv_step Hy Hs). split; [assumption|lia].
Qed.

Lemma steps_nsteps x y : steps x y -> exists n, nsteps n x y.
Proof.
  induction 1 as [x|x y z H [n IH] Hs]; [exists 0; constructor|]. exists (S n). econstructor; eassumption.
Qed.

Lemma measure_fresh t : fresh t -> exists b, target t = Some b /\ measure t <= 2 * b + 7.
Proof. destruct t as [b|[] b| | | |]; cbn; intros H; try contradiction; exists b; split; (reflexivity || lia). Qed.

Lemma total_fresh M ts : Forall fresh ts -> Forall (fun b => b < M) (wants ts) -> total ts <= length ts * (2 * M + 5).
Proof.
  induction 1 as [|t ts Ht Hf IH]; cbn [total fold_right length wants flat_map]; [lia|].
  destruct (measure_fresh Ht) as [b [Hb Hm]]. rewrite Hb. cbn [app]. intros HF. inversion HF; subst.
  specialize (IH H2). unfold total in IH. lia.
Qed.

Lemma done_pending ts : Forall (fun t => t = TDone) ts -> pending ts = [].
Proof. induction 1 as [|t ts -> _ IH]; [reflexivity|exact IH]. Qed.

(* concrete runs: the list says which thread moves *)
Fixpoint run (sch : list nat) (x : shared * list thread) : option (shared * list thread) :=
  match sch with
  | [] => Some x
  | i :: sch' =>
    match nth_error (snd x) i with
    | None => None
    | Some t => match tstep (fst x) t with
                | None => None
                | Some (s', t') => run sch' (s', upd (snd x) i t')
                end
    end
  end.

Lemma steps_trans x y z : steps x y -> steps y z -> steps x z.
Proof. intros H1 H2. revert H1. induction H2 as [|y z w H IH Hs]; intros H1; [assumption|]. eapply steps_step; [apply IH; assumption|exact Hs]. Qed.

Lemma upd_split A : forall (l : list A) i t t', nth_error l i = Some t ->
  exists a b, l = a ++ t :: b /\ upd l i t' = a ++ t' :: b.
Proof.
  induction l as [|x l IH]; intros [|i] t t' H; cbn in *; try discriminate.
  - injection H as ->. exists [], l. auto.
  - destruct (IH i t t' H) as [a [b [-> E]]]. exists (x :: a), b. cbn. rewrite E. auto.
Qed.

Lemma run_steps sch : forall x y, run sch x = Some y -> steps x y.
Proof.
  induction sch as [|i sch IH]; intros x y H; cbn [run] in H.
  - injection H as ->. constructor.
  - destruct x as [s ts]. cbn [fst snd] in H. destruct (nth_error ts i) as [t|] eqn:E; [|discriminate].
    destruct (tstep s t) as [[s' t']|] eqn:Es; [|discriminate].
    destruct (@upd_split _ ts i t t' E) as [a [b [-> Eu]]].
    eapply steps_trans; [|apply IH; exact H]. eapply steps_step; [constructor|]. rewrite Eu. constructor. exact Es.
Qed.

(* ---------------- C40 ---------------- *)

Lemma fold_live_none strict c ev : fold_left (live_step strict c) ev None = None.
Proof. induction ev; cbn; [reflexivity|assumption]. Qed.

Lemma replay_app strict c e1 e2 f : replay strict c e1 = Some f ->
  replay strict c (e1 ++ e2) = fold_left (live_step strict c) e2 (Some f).
Proof. intros H. unfold replay in *. rewrite fold_left_app, H. reflexivity. Qed.

Lemma launches_app a b : launches (a ++ b) = launches a ++ launches b.
Proof. apply flat_map_app. Qed.
Lemma frees_app a b : frees (a ++ b) = frees a ++ frees b.
Proof. apply flat_map_app. Qed.

(* the state before iteration k *)
Record sinv (strict : bool) (c nB : nat) (ab : nat -> bool) (k : nat) (used : list bool) (ev : list event) : Prop := SInv {
  si_len : length used = c;
  si_launch : launches ev = filter (fun i => negb (ab i)) (seq 0 (Nat.min k nB));
  si_free : frees ev = seq 0 (k + 1 - c);
  si_live : exists f, replay strict c ev = Some f /\ forall s i, f s = Some i <->
     (k < i + c /\ i < Nat.min k nB /\ ab i = false /\ i mod c = s);
  si_used : forall i, i < Nat.min k nB -> ab i = false -> nth (i mod c) used false = true;
}.

Lemma set_ok A (l : list A) i x : i < length l -> set l i x = Ok (upd l i x).
Proof. intros. unfold set. destruct (Nat.ltb_spec i (length l)); [reflexivity|lia]. Qed.

Lemma mod_window c i k : 0 < c -> i < k -> k < i + c -> i mod c <> k mod c.
Proof.
  intros Hc H1 H2 E.
  pose proof (Nat.div_mod_eq i c). pose proof (Nat.div_mod_eq k c).
  assert (i / c <= k / c) by (apply Nat.div_le_mono; lia).
  destruct (Nat.eq_dec (i / c) (k / c)); [rewrite e in *; lia|].
  assert (c * (i / c) + c <= c * (k / c)) by nia. lia.
Qed.

Lemma live_max c f : live c f <= c.
Proof.
  unfold live. rewrite <- (seq_length c 0) at 2. generalize (seq 0 c).
  induction l as [|a l IH]; cbn; [lia|]. destruct (f a); cbn; lia.
Qed.

Lemma existsb_false_intro A (p : A -> bool) l : (forall x, In x l -> p x = false) -> existsb p l = false.
Proof.
  induction l as [|a l IH]; intros H; cbn; [reflexivity|].
  rewrite H by (left; reflexivity). apply IH. intros. apply H. right. assumption.
Qed.

(* the launch half of an iteration *)
Lemma launch_half strict c nB ab k used ev :
  0 < c -> sinv strict c nB ab k used ev -> k + 1 <= nB + c ->
  exists used' ev' f,
    (if Nat.ltb k nB && negb (ab k)
      then do used' <- set used (k mod c) true; Ok (used', ev ++ [ELaunch k (k mod c)])
      else Ok (used, ev)) = Ok (used', ev') /\
    length used' = c /\ launches ev' = filter (fun i => negb (ab i)) (seq 0 (Nat.min (k + 1) nB)) /\
    frees ev' = seq 0 (k + 1 - c) /\ replay strict c ev' = Some f /\
    (forall s i, f s = Some i <-> (k < i + c /\ i < Nat.min (k + 1) nB /\ ab i = false /\ i mod c = s)) /\
    (forall i, i < Nat.min (k + 1) nB -> ab i = false -> nth (i mod c) used' false = true).
Proof.
  intros Hc [H1 H2 H3 [f [Hf Hlive]] H5] Hk.
  destruct (Nat.ltb_spec k nB) as [Hlt|Hge]; [destruct (ab k) eqn:Ea|]; cbn [andb negb].
  - exists used, ev, f. split; [reflexivity|split; [assumption|split; [|split; [assumption|split; [assumption|split]]]]].
    + rewrite H2. rewrite !Nat.min_l by lia. rewrite Nat.add_1_r, seq_S, filter_app. cbn. rewrite Ea. cbn.
      rewrite app_nil_r. reflexivity.
    + intros s i. rewrite Hlive. split; intros [? [? [? ?]]]; (split; [assumption|split; [|split; assumption]]); try lia.
      destruct (Nat.eq_dec i k); [congruence|lia].
    + intros i Hi Hab. apply H5; [|assumption]. destruct (Nat.eq_dec i k); [congruence|lia].
  - assert (Hm : k mod c < c) by (apply Nat.mod_upper_bound; lia).
    rewrite set_ok by lia. cbn [bind].
    exists (upd used (k mod c) true), (ev ++ [ELaunch k (k mod c)]), (fun x => if Nat.eqb x (k mod c) then Some k else f x).
    assert (Hidle : f (k mod c) = None).
    { destruct (f (k mod c)) as [i|] eqn:E; [|reflexivity]. exfalso.
      apply Hlive in E. destruct E as [E1 [E2 [_ E4]]].
      apply (@mod_window c i k); try assumption; lia. }
    split; [reflexivity|split; [rewrite upd_length; assumption|split; [|split; [|split; [|split]]]]].
    + rewrite launches_app, H2. rewrite !Nat.min_l by lia. rewrite Nat.add_1_r, seq_S, filter_app. cbn. rewrite Ea. reflexivity.
    + rewrite frees_app, H3. cbn. apply app_nil_r.
    + rewrite (replay_app _ Hf). cbn [fold_left live_step].
      replace (Nat.ltb (k mod c) c) with true by (symmetry; apply Nat.ltb_lt; assumption).
      rewrite Hidle. reflexivity.
    + intros s i. destruct (Nat.eqb_spec s (k mod c)) as [->|Hne].
      * split.
        -- intros E. injection E as <-. split; [lia|split; [lia|split; [assumption|reflexivity]]].
        -- intros [E1 [E2 [E3 E4]]]. destruct (Nat.eq_dec i k) as [->|]; [reflexivity|].
           exfalso. apply (@mod_window c i k); try assumption; lia.
      * rewrite Hlive. split; intros [E1 [E2 [E3 E4]]]; (split; [assumption|split; [|split; assumption]]); try lia.
        destruct (Nat.eq_dec i k); [congruence|lia].
    + intros i Hi Hab. destruct (Nat.eq_dec (i mod c) (k mod c)) as [->|Hne].
      * apply nth_error_nth. apply nth_error_upd_eq. lia.
      * destruct (Nat.eq_dec i k); [congruence|]. rewrite <- (H5 i) by (assumption || lia).
        clear -Hne. set (a := k mod c) in *. set (b := i mod c) in *. clearbody a b.
        revert a b Hne. induction used as [|u used IH]; intros [|a] [|b] Hne; cbn; try reflexivity; try congruence.
        apply IH. lia.
  - exists used, ev, f. split; [reflexivity|split; [assumption|split; [|split; [assumption|split; [assumption|split]]]]].
    + rewrite H2. rewrite !Nat.min_r by lia. reflexivity.
    + intros s i. rewrite Hlive. rewrite !Nat.min_r by lia. reflexivity.
    + intros i Hi Hab. apply H5; [lia|assumption].
Qed.

(* the join half: j = k + 1 - c *)
Lemma join_half strict c nB ab k used ev f :
  0 < c -> (strict = true -> forall i, ab i = false) ->
  length used = c -> replay strict c ev = Some f -> frees ev = seq 0 (k + 1 - c) ->
  (forall s i, f s = Some i <-> (k < i + c /\ i < Nat.min (k + 1) nB /\ ab i = false /\ i mod c = s)) ->
  (forall i, i < Nat.min (k + 1) nB -> ab i = false -> nth (i mod c) used false = true) ->
  c <= k + 1 -> k + 1 < nB + c ->
  exists h, get used ((k + 1 - c) mod c) = Ok h /\ let ev' := ev ++ (if h then [EAwait ((k + 1 - c) mod c)] else []) ++ [EFree (k + 1 - c)] in
    launches ev' = launches ev /\ frees ev' = seq 0 (k + 2 - c) /\
    exists f', replay strict c ev' = Some f' /\
    forall s i, f' s = Some i <-> (k + 1 < i + c /\ i < Nat.min (k + 1) nB /\ ab i = false /\ i mod c = s).
Proof.
  intros Hc Hstr Hlen Hrep Hfr Hlive Hused H1 H2.
  set (j := k + 1 - c) in *.
  assert (Hm : j mod c < c) by (apply Nat.mod_upper_bound; lia).
  destruct (nth_error used (j mod c)) as [h|] eqn:Eh; [|exfalso; apply nth_error_None in Eh; lia].
  exists h. unfold get. rewrite Eh. split; [reflexivity|]. cbv zeta.
  pose proof (nth_error_nth used _ false Eh) as Hn.
  split; [|split].
  { rewrite launches_app. destruct h; cbn; rewrite app_nil_r; reflexivity. }
  { rewrite frees_app, Hfr. replace (k + 2 - c) with (S j) by lia. rewrite seq_S. destruct h; reflexivity. }
  rewrite (replay_app _ Hrep). rewrite fold_left_app.
  assert (Hone : forall i, f (j mod c) = Some i -> i = j).
  { intros i E. apply Hlive in E. destruct E as [E1 [E2 [_ E4]]].
    destruct (Nat.eq_dec i j); [assumption|]. exfalso.
    apply (@mod_window c j i); try lia; congruence. }
  assert (Hjl : ab j = false -> f (j mod c) = Some j).
  { intros Ha. apply Hlive. split; [lia|split; [lia|split; [assumption|reflexivity]]]. }
  assert (Hmid : exists f1, fold_left (live_step strict c) (if h then [EAwait (j mod c)] else []) (Some f) = Some f1 /\
     forall x, f1 x = if Nat.eqb x (j mod c) then None else f x).
  { destruct h; cbn [fold_left live_step].
    - destruct (f (j mod c)) as [i|] eqn:Ef.
      + eexists. split; reflexivity.
      + destruct strict.
        * exfalso. specialize (Hjl (Hstr eq_refl j)). congruence.
        * exists f. split; [reflexivity|]. intros x. destruct (Nat.eqb_spec x (j mod c)); congruence.
    - exists f. split; [reflexivity|]. intros x. destruct (Nat.eqb_spec x (j mod c)) as [->|]; [|reflexivity].
      destruct (f (j mod c)) as [i|] eqn:Ef; [|reflexivity]. exfalso.
      pose proof (Hone _ eq_refl) as ->. apply Hlive in Ef. destruct Ef as [E1 [E2 [E3 E4]]].
      specialize (Hused j E2 E3). congruence. }
  destruct Hmid as [f1 [E1 Hf1]]. rewrite E1. cbn [fold_left live_step].
  rewrite existsb_false_intro.
  2:{ intros s _. rewrite Hf1. destruct (Nat.eqb_spec s (j mod c)); [reflexivity|].
      destruct (f s) as [i|] eqn:Ef; [|reflexivity]. apply Nat.eqb_neq. intros ->.
      apply Hlive in Ef. destruct Ef as [_ [_ [_ E4]]]. congruence. }
  exists f1. split; [reflexivity|].
  intros s i. rewrite Hf1. destruct (Nat.eqb_spec s (j mod c)) as [->|Hne].
  - split; [discriminate|]. intros [E2 [E3 [E4 E5]]]. exfalso.
    assert (f (j mod c) = Some i) by (apply Hlive; split; [lia|auto]). apply Hone in H. lia.
  - rewrite Hlive. split; intros [E2 [E3 [E4 E5]]]; (split; [|split; [assumption|split; assumption]]); try lia.
    destruct (Nat.eq_dec i j); [congruence|lia].
Qed.

Lemma of_nat_mod k c : 0 < c -> N.to_nat (N.of_nat k mod N.of_nat c) = k mod c.
Proof. intros. rewrite <- Nat2N.inj_mod. apply Nat2N.id. Qed.

Definition jval (c k : nat) : N := u64 (two64 - N.of_nat c + 1 + N.of_nat k).

Lemma jval_small c k : k + 1 < c -> (N.of_nat c <= 2 ^ 32)%N -> jval c k = (two64 - N.of_nat c + 1 + N.of_nat k)%N.
Proof. intros. unfold jval, u64. assert (two64 = 2 ^ 64)%N by reflexivity. apply N.mod_small. lia. Qed.

Lemma jval_big c k : c <= k + 1 -> (N.of_nat c <= 2 ^ 32)%N -> (N.of_nat k < 2 ^ 63)%N -> jval c k = N.of_nat (k + 1 - c).
Proof.
  intros. unfold jval, u64. assert (two64 = 2 ^ 64)%N by reflexivity.
  replace (two64 - N.of_nat c + 1 + N.of_nat k)%N with (N.of_nat (k + 1 - c) + 1 * two64)%N by lia.
  rewrite N.mod_add by lia. apply N.mod_small. lia.
Qed.

Lemma jval_next c k : u64 (jval c k + 1) = jval c (k + 1).
Proof.
  unfold jval, u64. rewrite N.add_mod_idemp_l by (unfold two64; lia). f_equal. lia.
Qed.

Lemma sched_ok strict c nB ab : 0 < c -> (N.of_nat c <= 2 ^ 32)%N -> (N.of_nat nB <= 2 ^ 62)%N ->
  (strict = true -> forall i, ab i = false) ->
  forall fuel k used ev, sinv strict c nB ab k used ev -> k + 1 <= nB + c -> nB + c - 1 - k <= fuel ->
  exists ev' used', sched fuel (N.of_nat c) (N.of_nat nB) ab (N.of_nat k) (jval c k) used ev = Ok ev' /\
    sinv strict c nB ab (nB + c - 1) used' ev'.
Proof.
  intros Hc Hcl Hnl Hstr.
  assert (HT : two64 = (2 ^ 64)%N) by reflexivity.
  induction fuel as [|fuel IH]; intros k used ev Hi Hk Hf.
  - assert (k = nB + c - 1) as -> by lia. exists ev, used. split; [|assumption].
    cbn [sched]. rewrite jval_big by lia.
    replace (nB + c - 1 + 1 - c) with nB by lia. rewrite N.eqb_refl. reflexivity.
  - destruct (Nat.eq_dec k (nB + c - 1)) as [->|Hne].
    { exists ev, used. split; [|assumption].
      cbn [sched]. rewrite jval_big by lia.
      replace (nB + c - 1 + 1 - c) with nB by lia. rewrite N.eqb_refl. reflexivity. }
    cbn [sched].
    assert (Hj : (jval c k =? N.of_nat nB)%N = false).
    { apply N.eqb_neq. destruct (Nat.le_gt_cases c (k + 1)); [rewrite jval_big by lia; lia|rewrite jval_small by lia; lia]. }
    rewrite Hj. rewrite Nat2N.id. rewrite of_nat_mod by assumption.
    destruct (launch_half Hc Hi Hk) as [u1 [e1 [f [E [L1 [L2 [L3 [L4 [L5 L6]]]]]]]]].
    replace (N.of_nat k <? N.of_nat nB)%N with (Nat.ltb k nB).
    2:{ destruct (Nat.ltb_spec k nB), (N.ltb_spec (N.of_nat k) (N.of_nat nB)); try reflexivity; lia. }
    rewrite E. cbn [bind].
    assert (Hi1 : u64 (N.of_nat k + 1) = N.of_nat (k + 1)).
    { unfold u64. rewrite N.mod_small by lia. lia. }
    rewrite Hi1, jval_next.
    destruct (Nat.le_gt_cases c (k + 1)) as [Hge|Hlt].
    + rewrite (@jval_big c k) by lia.
      replace (N.of_nat (k + 1 - c) <? N.of_nat nB)%N with true by (symmetry; apply N.ltb_lt; lia).
      rewrite of_nat_mod by assumption. rewrite Nat2N.id.
      destruct (@join_half strict c nB ab k u1 e1 f Hc Hstr L1 L4 L3 L5 L6 Hge ltac:(lia)) as [h [Eh [J1 [J2 J3]]]].
      rewrite Eh. cbn [bind]. apply IH; [|lia|lia]. constructor.
      * assumption.
      * rewrite J1. exact L2.
      * rewrite J2. f_equal. lia.
      * exact J3.
      * exact L6.
    + rewrite (@jval_small c k) by lia.
      replace (two64 - N.of_nat c + 1 + N.of_nat k <? N.of_nat nB)%N with false by (symmetry; apply N.ltb_ge; lia).
      cbn [bind]. apply IH; [|lia|lia]. constructor.
      * assumption.
      * exact L2.
      * rewrite L3. replace (k + 1 - c) with 0 by lia. replace (k + 1 + 1 - c) with 0 by lia. reflexivity.
      * exists f. split; [exact L4|]. intros s i. rewrite L5.
        split; intros [E2 [E3 [E4 E5]]]; (split; [lia|split; [assumption|split; assumption]]).
      * exact L6.
Qed.

Lemma start_loop_ok strict c nB ab : 0 < c -> (N.of_nat c <= 2 ^ 32)%N -> (N.of_nat nB <= 2 ^ 62)%N ->
  (strict = true -> forall i, ab i = false) ->
  exists ev, start_loop c nB ab = Ok ev /\
    launches ev = filter (fun i => negb (ab i)) (seq 0 nB) /\ frees ev = seq 0 nB /\
    exists f, replay strict c ev = Some f /\ forall s, f s = None.
Proof.
  intros Hc Hcl Hnl Hstr.
  destruct (@sched_ok strict c nB ab Hc Hcl Hnl Hstr (nB + c) 0 (repeat false c) []) as [ev [used [E [I1 I2 I3 [f [I4 I5]] I6]]]].
  - constructor.
    + apply repeat_length.
    + reflexivity.
    + replace (0 + 1 - c) with 0 by lia. reflexivity.
    + exists (fun _ => None). split; [reflexivity|]. intros s i. split; [discriminate|]. cbn. lia.
    + cbn. lia.
  - lia.
  - lia.
  - exists ev. split; [|split; [|split]].
    + unfold start_loop. rewrite <- E. f_equal. unfold jval. f_equal. lia.
    + rewrite I2. f_equal. f_equal. lia.
    + rewrite I3. f_equal. lia.
    + exists f. split; [assumption|]. intros s. destruct (f s) as [i|] eqn:Ef; [|reflexivity].
      apply I5 in Ef. lia.
Qed.

(* every prefix replays too *)
Lemma replay_prefix strict c e1 e2 f : replay strict c (e1 ++ e2) = Some f -> exists f1, replay strict c e1 = Some f1.
Proof.
  intros H. unfold replay in *. rewrite fold_left_app in H.
  destruct (fold_left (live_step strict c) e1 (Some (fun _ => None))); [eauto|].
  rewrite fold_live_none in H. discriminate.
Qed.

(* ---------------- C41 ---------------- *)

Lemma concat_choice rs : forall a, fold_left (fun a r => a ++ rqChoice r) rs a = a ++ concat (map rqChoice rs).
Proof. induction rs as [|r rs IH]; intros a; cbn; [rewrite app_nil_r; reflexivity|]. rewrite IH, <- app_assoc. reflexivity. Qed.
Lemma concat_vchoice rs : forall a, fold_left (fun a r => a ++ rqVoleChoice r) rs a = a ++ concat (map rqVoleChoice rs).
Proof. induction rs as [|r rs IH]; intros a; cbn; [rewrite app_nil_r; reflexivity|]. rewrite IH, <- app_assoc. reflexivity. Qed.
Lemma sum_send rs : forall a, fold_left (fun a r => a + rqSend r) rs a = a + list_sum (map rqSend rs).
Proof. induction rs as [|r rs IH]; intros a; cbn; [lia|]. rewrite IH. unfold list_sum. lia. Qed.
Lemma sum_vsend rs : forall a, fold_left (fun a r => a + rqVoleSend r) rs a = a + list_sum (map rqVoleSend rs).
Proof. induction rs as [|r rs IH]; intros a; cbn; [lia|]. rewrite IH. unfold list_sum. lia. Qed.

Lemma bc_get_ok T (val : list T) i n : i + n <= length val -> bc_get val i n = Ok (slice val i n, i + n).
Proof. intros. unfold bc_get, throw_if. destruct (Nat.ltb_spec (length val) (i + n)); [lia|reflexivity]. Qed.

Lemma skipn_slice T (val : list T) i n : i + n <= length val ->
  skipn i val = slice val i n ++ skipn (i + n) val /\ length (slice val i n) = n.
Proof.
  intros H. unfold slice. split.
  - rewrite <- (firstn_skipn n (skipn i val)) at 1. f_equal.
    clear. revert val. induction i as [|i IH]; intros val; [reflexivity|]. destruct val; cbn; [apply skipn_nil|apply IH].
  - rewrite firstn_length, skipn_length. lia.
Qed.

Section Base.
Variables OT2 OT1 VA VB : Type.
Notation BC := (base_cor OT2 OT1 VA VB).

Lemma dispense_ok (rs : list base_req) : forall (c : BC),
  ixSend c + list_sum (map rqSend rs) <= length (bcSend c) ->
  ixRecv c + length (concat (map rqChoice rs)) <= length (bcRecv c) ->
  ixA c + length (concat (map rqVoleChoice rs)) <= length (bcVoleA c) ->
  ixB c + list_sum (map rqVoleSend rs) <= length (bcVoleB c) ->
  exists gots c', dispense (map (fun r => (r, false)) rs) c = Ok (map Some gots, c') /\
    c' = BCor (bcSend c) (bcRecv c) (bcVoleA c) (bcVoleB c)
       (ixSend c + list_sum (map rqSend rs)) (ixRecv c + length (concat (map rqChoice rs)))
       (ixA c + length (concat (map rqVoleChoice rs))) (ixB c + list_sum (map rqVoleSend rs)) /\
    (skipn (ixSend c) (bcSend c) = concat (map (@gotSend _ _ _ _) gots) ++ skipn (ixSend c') (bcSend c) /\
     skipn (ixRecv c) (bcRecv c) = concat (map (@gotRecv _ _ _ _) gots) ++ skipn (ixRecv c') (bcRecv c) /\
     skipn (ixA c) (bcVoleA c) = concat (map (@gotA _ _ _ _) gots) ++ skipn (ixA c') (bcVoleA c) /\
     skipn (ixB c) (bcVoleB c) = concat (map (@gotB _ _ _ _) gots) ++ skipn (ixB c') (bcVoleB c)) /\
    Forall2 (fun r g => length (gotSend g) = rqSend r /\ length (gotRecv g) = length (rqChoice r) /\
      length (gotA g) = length (rqVoleChoice r) /\ length (gotB g) = rqVoleSend r) rs gots.
Proof.
  induction rs as [|r rs IH]; intros c H1 H2 H3 H4.
  - exists [], c. cbn. rewrite !Nat.add_0_r. split; [reflexivity|split; [destruct c; reflexivity|split; [auto|constructor]]].
  - cbn [map concat list_sum fold_right] in H1, H2, H3, H4. fold (list_sum (map rqSend rs)) in H1.
    fold (list_sum (map rqVoleSend rs)) in H4. rewrite app_length in H2, H3.
    cbn [map dispense]. unfold set_base. rewrite !bc_get_ok by lia. cbn [bind fst snd].
    match goal with |- context [dispense _ ?C] => set (c1 := C) end.
    destruct (IH c1) as [gots [c' [E [-> [[P1 [P2 [P3 P4]]] F]]]]]; unfold c1 in *; cbn [bcSend bcRecv bcVoleA bcVoleB ixSend ixRecv ixA ixB] in *; try lia.
    rewrite E. cbn [bind fst snd].
    destruct (@skipn_slice _ (bcSend c) (ixSend c) (rqSend r) ltac:(lia)) as [S1 L1].
    destruct (@skipn_slice _ (bcRecv c) (ixRecv c) (length (rqChoice r)) ltac:(lia)) as [S2 L2].
    destruct (@skipn_slice _ (bcVoleA c) (ixA c) (length (rqVoleChoice r)) ltac:(lia)) as [S3 L3].
    destruct (@skipn_slice _ (bcVoleB c) (ixB c) (rqVoleSend r) ltac:(lia)) as [S4 L4].
    exists (Got (slice (bcSend c) (ixSend c) (rqSend r)) (slice (bcRecv c) (ixRecv c) (length (rqChoice r)))
      (slice (bcVoleA c) (ixA c) (length (rqVoleChoice r))) (slice (bcVoleB c) (ixB c) (rqVoleSend r)) :: gots).
    eexists. split; [reflexivity|split; [|split; [|constructor; [cbn; auto|exact F]]]].
    + cbn [map concat list_sum fold_right]. rewrite !app_length. unfold list_sum.
      f_equal; lia.
    + cbn [map concat gotSend gotRecv gotA gotB ixSend ixRecv ixA ixB]. rewrite <- !app_assoc.
      rewrite <- P1, <- P2, <- P3, <- P4. auto.
Qed.
End Base.

Lemma Forall2_pieces A B (R : A -> B -> Prop) : forall ps qs, map (@length A) ps = map (@length B) qs ->
  Forall2 R (concat ps) (concat qs) -> Forall2 (Forall2 R) ps qs.
Proof.
  induction ps as [|p ps IH]; intros [|q qs] Hl H; cbn in *; try discriminate; [constructor|].
  injection Hl as Hl1 Hl2.
  assert (HH : Forall2 R p q /\ Forall2 R (concat ps) (concat qs)).
  { revert q Hl1 H. clear IH Hl2. induction p as [|x p IH]; intros [|y q] Hl H; cbn in *; try discriminate; [auto|].
    inversion H; subst. destruct (IH q) as [? ?]; [lia|assumption|]. split; [constructor; assumption|assumption]. }
  destruct HH. constructor; [assumption|]. apply IH; assumption.
Qed.

Lemma combine_app A B : forall (a : list A) (b : list B) a' b', length a = length b ->
  combine (a ++ a') (b ++ b') = combine a b ++ combine a' b'.
Proof. induction a as [|x a IH]; intros [|y b] a' b' H; cbn in *; try discriminate; [reflexivity|]. f_equal. apply IH. lia. Qed.

Lemma combine_concat A B : forall (ps : list (list A)) (qs : list (list B)),
  map (@length A) ps = map (@length B) qs ->
  combine (concat ps) (concat qs) = concat (map (fun pq => combine (fst pq) (snd pq)) (combine ps qs)).
Proof.
  induction ps as [|p ps IH]; intros [|q qs] H; cbn in *; try discriminate; [reflexivity|].
  injection H as H1 H2. rewrite combine_app by assumption. f_equal. apply IH. assumption.
Qed.

Lemma dispense_aborted OT2 OT1 VA VB (rs : list base_req) (c : base_cor OT2 OT1 VA VB) :
  dispense (map (fun r => (r, true)) rs) c = Ok (map (fun _ => None) rs, c).
Proof. induction rs as [|r rs IH]; cbn [map dispense]; [reflexivity|]. rewrite IH. reflexivity. Qed.

Lemma dispense_app OT2 OT1 VA VB (a b : list (base_req * bool)) : forall (c : base_cor OT2 OT1 VA VB) ga c' gb c'',
  dispense a c = Ok (ga, c') -> dispense b c' = Ok (gb, c'') -> dispense (a ++ b) c = Ok (ga ++ gb, c'').
Proof.
  induction a as [|[r ab] a IH]; intros c ga c' gb c'' Ha Hb; cbn [dispense app] in *.
  - injection Ha as <- <-. exact Hb.
  - destruct ab.
    + destruct (dispense a c) as [[g1 c1]| | |] eqn:E; cbn [bind fst snd] in Ha; try discriminate.
      injection Ha as <- <-. rewrite (IH _ _ _ _ _ E Hb). reflexivity.
    + destruct (set_base r c) as [[g0 c0]| | |]; cbn [bind fst snd] in *; try discriminate.
      destruct (dispense a c0) as [[g1 c1]| | |] eqn:E; cbn [bind fst snd] in Ha; try discriminate.
      injection Ha as <- <-. rewrite (IH _ _ _ _ _ E Hb). reflexivity.
Qed.
