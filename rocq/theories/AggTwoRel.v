(* Running the same list program on two shares and on the value. *)
From Verif Require Import Base GmwModel GmwSpec ShuffleModel ShuffleSpec AggModel AggCirModel AggCirSpec AggTwoModel AggTwoSpec.

Section F.
Context {A : Type} {R : A -> A -> A -> Prop}.
Lemma f3_len la lb lc : F3 R la lb lc -> length la = length lc /\ length lb = length lc.
Proof. induction 1 as [|a b c la lb lc H F [I J]]; [auto|]. cbn [length]. lia. Qed.
Lemma f3_len0 la lb lc : F3 R la lb lc -> length la = length lc. Proof. apply f3_len. Qed.
Lemma f3_len1 la lb lc : F3 R la lb lc -> length lb = length lc. Proof. apply f3_len. Qed.
Lemma f3_app la lb lc la' lb' lc' : F3 R la lb lc -> F3 R la' lb' lc' -> F3 R (la ++ la') (lb ++ lb') (lc ++ lc').
Proof. induction 1; intros K; [exact K|]. cbn [app]. constructor; auto. Qed.
Lemma f3_firstn la lb lc : F3 R la lb lc -> forall n, F3 R (firstn n la) (firstn n lb) (firstn n lc).
Proof. induction 1; intros [|n]; cbn [firstn]; constructor; auto. Qed.
Lemma f3_skipn la lb lc : F3 R la lb lc -> forall n, F3 R (skipn n la) (skipn n lb) (skipn n lc).
Proof. induction 1; intros [|n]; cbn [skipn]; auto; constructor; auto. Qed.
Lemma f3_repeat a b c n : R a b c -> F3 R (repeat a n) (repeat b n) (repeat c n).
Proof. intros H. induction n; cbn [repeat]; constructor; auto. Qed.
Lemma f3_upd la lb lc : F3 R la lb lc -> forall i a b c, R a b c -> F3 R (upd la i a) (upd lb i b) (upd lc i c).
Proof. induction 1; intros [|i] x y z K; cbn [upd]; constructor; auto. Qed.
Lemma f3_nth_error la lb lc : F3 R la lb lc -> forall i c, nth_error lc i = Some c ->
  exists a b, nth_error la i = Some a /\ nth_error lb i = Some b /\ R a b c.
Proof. induction 1; intros [|i] z K; cbn [nth_error] in *; try discriminate; [injection K as <-; eauto|auto]. Qed.
Lemma f3_tl la lb lc : F3 R la lb lc -> F3 R (tl la) (tl lb) (tl lc).
Proof. destruct 1; [constructor|assumption]. Qed.
Lemma f3_evens la lb lc : F3 R la lb lc -> F3 R (evens la) (evens lb) (evens lc).
Proof.
  remember (length lc) as n eqn:E. assert (L : length lc <= n) by lia. clear E. revert la lb lc L. induction n as [|n IH]; intros la lb lc L H.
  - destruct H; [constructor|cbn [length] in L; lia].
  - destruct H as [|a b c la lb lc Hr H]; [constructor|]. cbn [evens]. constructor; [exact Hr|]. destruct H as [|a' b' c' la lb lc Hr' H]; [constructor|].
    apply IH; [cbn [length] in L; lia|exact H].
Qed.
Lemma f3_odds la lb lc : F3 R la lb lc -> F3 R (odds la) (odds lb) (odds lc).
Proof. intros H. unfold odds. apply f3_evens, f3_tl, H. Qed.
Lemma f3_interleave la lb lc : F3 R la lb lc -> forall la' lb' lc', F3 R la' lb' lc' -> F3 R (interleave la la') (interleave lb lb') (interleave lc lc').
Proof. induction 1; intros ? ? ? K; destruct K; cbn [interleave]; constructor; auto. constructor; auto. Qed.
Lemma f3_forall (la lb lc : list A) : length la = length lc -> length lb = length lc ->
  (forall i a b c, nth_error la i = Some a -> nth_error lb i = Some b -> nth_error lc i = Some c -> R a b c) -> F3 R la lb lc.
Proof.
  revert lb lc. induction la as [|a la IH]; intros [|b lb] [|c lc] L1 L2 H; try discriminate; constructor.
  - apply (H 0); reflexivity.
  - apply IH; [cbn [length] in *; lia|cbn [length] in *; lia|]. intros i. exact (H (Datatypes.S i)).
Qed.
End F.
Lemma f3_map {A B} (R : A -> A -> A -> Prop) (Q : B -> B -> B -> Prop) f : (forall a b c, R a b c -> Q (f a) (f b) (f c)) ->
  forall la lb lc, F3 R la lb lc -> F3 Q (map f la) (map f lb) (map f lc).
Proof. intros H la lb lc F. induction F; cbn [map]; constructor; auto. Qed.
Lemma f3_map2 {A B C} (R : A -> A -> A -> Prop) (T : B -> B -> B -> Prop) (Q : C -> C -> C -> Prop) f :
  (forall a b c a' b' c', R a b c -> T a' b' c' -> Q (f a a') (f b b') (f c c')) ->
  forall la lb lc, F3 R la lb lc -> forall la' lb' lc', F3 T la' lb' lc' -> F3 Q (map2 f la la') (map2 f lb lb') (map2 f lc lc').
Proof. intros H la lb lc F. induction F; intros ? ? ? G; destruct G; cbn [map2]; constructor; auto. Qed.
Lemma f3_impl {A} (R Q : A -> A -> A -> Prop) la lb lc : (forall a b c, R a b c -> Q a b c) -> F3 R la lb lc -> F3 Q la lb lc.
Proof. intros H F. induction F; constructor; auto. Qed.

(* pairs *)
Definition P3 {A B} (R : A -> A -> A -> Prop) (T : B -> B -> B -> Prop) (a b c : A * B) : Prop :=
  R (fst a) (fst b) (fst c) /\ T (snd a) (snd b) (snd c).

(* if the program on the value succeeds, so do those on the shares, with related results *)
Definition O3 {A} (R : A -> A -> A -> Prop) (o0 o1 o : outcome A) : Prop :=
  forall c, o = Ok c -> exists a b, o0 = Ok a /\ o1 = Ok b /\ R a b c.
Lemma o3_ok {A} (R : A -> A -> A -> Prop) a b c : R a b c -> O3 R (Ok a) (Ok b) (Ok c).
Proof. intros H z E. injection E as <-. eauto. Qed.
Lemma o3_bind {A B} (R : A -> A -> A -> Prop) (Q : B -> B -> B -> Prop) o0 o1 o f0 f1 f :
  O3 R o0 o1 o -> (forall a b c, R a b c -> O3 Q (f0 a) (f1 b) (f c)) -> O3 Q (bind o0 f0) (bind o1 f1) (bind o f).
Proof.
  intros H K z E. destruct o as [c| | |]; cbn [bind] in E; try discriminate. destruct (H c eq_refl) as (a & b & -> & -> & HR). cbn [bind]. exact (K a b c HR z E).
Qed.
Lemma o3_same {A B} (Q : B -> B -> B -> Prop) (o : outcome A) f0 f1 f :
  (forall a, O3 Q (f0 a) (f1 a) (f a)) -> O3 Q (bind o f0) (bind o f1) (bind o f).
Proof. intros H z E. destruct o; cbn [bind] in *; try discriminate. exact (H _ z E). Qed.
Lemma o3_ub {A} (R : A -> A -> A -> Prop) o0 o1 : O3 R o0 o1 UB. Proof. intros c E. discriminate. Qed.
Lemma o3_throw {A} (R : A -> A -> A -> Prop) b0 b1 b f0 f1 f : b0 = b -> b1 = b -> O3 R f0 f1 f ->
  O3 R (do _ <- throw_if b0; f0) (do _ <- throw_if b1; f1) (do _ <- throw_if b; f).
Proof. intros -> -> H. apply o3_same. intros. exact H. Qed.
Lemma o3_get {A} (R : A -> A -> A -> Prop) la lb lc i : F3 R la lb lc -> O3 R (get la i) (get lb i) (get lc i).
Proof.
  intros H z E. unfold get in E. destruct (nth_error lc i) as [c|] eqn:Ec; [|discriminate]. injection E as <-.
  destruct (f3_nth_error H Ec) as (a & b & E1 & E2 & HR). exists a, b. unfold get. rewrite E1, E2. auto.
Qed.
Lemma o3_set {A} (R : A -> A -> A -> Prop) la lb lc i a b c : F3 R la lb lc -> R a b c -> O3 (F3 R) (set la i a) (set lb i b) (set lc i c).
Proof.
  intros H K z E. unfold set in *. rewrite (f3_len0 H), (f3_len1 H). destruct (_ <? _); [|discriminate]. injection E as <-.
  do 2 eexists. split; [reflexivity|]. split; [reflexivity|]. apply f3_upd; assumption.
Qed.
Lemma o3_readN {A} (R : A -> A -> A -> Prop) la lb lc i n : F3 R la lb lc -> O3 (F3 R) (readN la i n) (readN lb i n) (readN lc i n).
Proof.
  intros H z E. unfold readN in *. rewrite (f3_len0 H), (f3_len1 H). destruct (_ <=? _); [|discriminate]. injection E as <-.
  do 2 eexists. split; [reflexivity|]. split; [reflexivity|]. apply f3_firstn, f3_skipn, H.
Qed.
Lemma o3_writeN {A} (R : A -> A -> A -> Prop) la lb lc i la' lb' lc' : F3 R la lb lc -> F3 R la' lb' lc' -> O3 (F3 R) (writeN la i la') (writeN lb i lb') (writeN lc i lc').
Proof.
  intros H K z E. unfold writeN, overwrite in *. rewrite (f3_len0 H), (f3_len1 H), (f3_len0 K), (f3_len1 K). destruct (_ <=? _); [|discriminate]. injection E as <-.
  do 2 eexists. split; [reflexivity|]. split; [reflexivity|]. apply f3_app; [apply f3_firstn, H|]. apply f3_app; [exact K|apply f3_skipn, H].
Qed.
Lemma o3_forN {A} (R : A -> A -> A -> Prop) f0 f1 f n : forall i, (forall j a b c, i <= j < i + n -> R a b c -> O3 R (f0 j a) (f1 j b) (f j c)) ->
  forall a b c, R a b c -> O3 R (forN i n f0 a) (forN i n f1 b) (forN i n f c).
Proof.
  induction n as [|n IH]; intros i H a b c HR; [apply o3_ok; exact HR|]. cbn [forN]. eapply o3_bind; [apply H; [lia|exact HR]|].
  intros a' b' c' HR'. apply IH; [|exact HR']. intros j x y z Hj. apply H. lia.
Qed.

(* a step of a related run *)
Ltac o3 := repeat first
  [ progress cbn [fst snd] in *
  | match goal with |- O3 _ UB UB UB => apply o3_ub end
  | match goal with H : P3 _ _ _ _ _ |- _ => destruct H end
  | match goal with |- O3 _ (bind (get ?l _) _) (bind (get ?l _) _) (bind (get ?l _) _) => apply o3_same; intros ? end
  | match goal with |- O3 _ (do _ <- throw_if ?b; _) (do _ <- throw_if ?b; _) (do _ <- throw_if ?b; _) => apply o3_same; intros ? end
  | match goal with |- O3 _ (if ?b then _ else _) (if ?b then _ else _) (if ?b then _ else _) => destruct b eqn:? end
  | match goal with |- O3 _ (bind (get _ _) _) _ _ => eapply o3_bind; [eapply o3_get; eassumption|intros ? ? ? ?] end ].
