(* The local parts of the tree on shares. *)
From Verif Require Import Base GmwModel GmwSpec ShuffleModel ShuffleSpec AggModel AggCirModel AggCirSpec AggTwoModel AggTwoSpec AggTwoRel.

Section K.
Variable k : nat.
Let RV := word_shares k.
Let RE : vent -> vent -> vent -> Prop := P3 RV bit_shares.
Let RS : @split (list bool) -> @split (list bool) -> @split (list bool) -> Prop := P3 (F3 RE) (F3 RE).
Let zero := repeat false k.

Lemma rv_zero : RV zero zero zero.
Proof. split; [apply repeat_length|]. split; [apply repeat_length|]. unfold zero. induction k as [|m IH]; cbn [repeat map2]; [reflexivity|]. f_equal. exact IH. Qed.
Lemma re_zero : RE (zent zero) (zent zero) (zent zero).
Proof. split; [exact rv_zero|reflexivity]. Qed.
Lemma rs_nil : RS ([], []) ([], []) ([], []). Proof. split; constructor. Qed.

Ltac oo := repeat first
  [ progress o3
  | match goal with |- O3 _ (bind (if ?b then Ok tt else UB) _) (bind (if ?b then Ok tt else UB) _) _ => apply o3_same; intros ? end
  | match goal with |- O3 _ (bind (set _ _ _) _) _ _ => eapply o3_bind; [eapply o3_set; [eassumption|]|intros ? ? ? ?] end
  | match goal with |- O3 _ (bind (readN _ _ _) _) _ _ => eapply o3_bind; [eapply o3_readN; eassumption|intros ? ? ? ?] end
  | match goal with |- O3 _ (bind (writeN _ _ _) _) _ _ => eapply o3_bind; [eapply o3_writeN; [|]|intros ? ? ? ?] end
  | match goal with |- O3 _ (Ok _) (Ok _) (Ok _) => apply o3_ok end
  | match goal with H : RS _ _ _ |- _ => destruct H end
  | match goal with |- RE (zent _) (zent _) (zent _) => exact re_zero end
  | match goal with |- RE (_, _) (_, _) (_, _) => split; cbn [fst snd]; assumption end
  | match goal with |- RS (_, _) (_, _) (_, _) => split; cbn [fst snd]; assumption end ].

Lemma load_pre_3 n s0 s1 s c0 c1 c : F3 RV s0 s1 s -> F3 bit_shares c0 c1 c ->
  O3 RS (load_pre zero n s0 c0) (load_pre zero n s1 c1) (load_pre zero n s c).
Proof.
  intros HS HC. unfold load_pre. rewrite (f3_len0 HS), (f3_len1 HS). set (av := Nat.min (length s) n).
  eapply (@o3_bind _ _ RS).
  - eapply o3_forN; [|split; apply f3_repeat; exact re_zero]. intros j a b d _ HR. oo.
  - intros a b d HR. eapply (@o3_bind _ _ RS).
    + oo. split; assumption.
    + intros a' b' d' HR'. eapply o3_forN; [|exact HR']. intros j x y z _ HR2. oo.
Qed.
Lemma load_suf_3 n s0 s1 s c0 c1 c : F3 RV s0 s1 s -> F3 bit_shares c0 c1 c ->
  O3 RS (load_suf zero n s0 c0) (load_suf zero n s1 c1) (load_suf zero n s c).
Proof.
  intros HS HC. unfold load_suf. rewrite (f3_len0 HS), (f3_len1 HS), (f3_len0 HC), (f3_len1 HC). set (av := Nat.min (length s) n).
  destruct (av / 2 =? 0); [apply o3_ub|].
  assert (HB : forall i, O3 bit_shares (if i <? length c then get c0 i else Ok false) (if i <? length c then get c1 i else Ok false) (if i <? length c then get c i else Ok false)).
  { intros i. destruct (i <? length c); [apply o3_get; exact HC|apply o3_ok; reflexivity]. }
  eapply (@o3_bind _ _ RS).
  - eapply o3_forN; [|split; apply f3_repeat; exact re_zero]. intros j a b d _ HR. oo.
  - intros a b d HR. o3. eapply o3_bind; [apply HB|intros]. oo. eapply o3_bind; [apply HB|intros]. oo.
Qed.
Lemma level_copy_3 a b c o d n : RS a b c -> O3 RS (level_copy zero a o d n) (level_copy zero b o d n) (level_copy zero c o d n).
Proof.
  intros [H1 H2]. unfold level_copy. rewrite (f3_len0 H1), (f3_len1 H1), (f3_len0 H2), (f3_len1 H2). do 2 (apply o3_same; intros _). cbv zeta. do 2 (apply o3_same; intros _).
  eapply o3_bind; [apply o3_readN, H1|intros]. eapply o3_bind; [apply o3_readN, H2|intros].
  eapply o3_bind; [apply o3_writeN; [apply f3_repeat, re_zero|eassumption]|intros]. eapply o3_bind; [apply o3_writeN; [apply f3_repeat, re_zero|eassumption]|intros].
  apply o3_ok. split; assumption.
Qed.
Lemma level_reshape_3 a b c n : RS a b c -> O3 RS (level_reshape a n) (level_reshape b n) (level_reshape c n).
Proof.
  intros [H1 H2]. unfold level_reshape. rewrite (f3_len0 H1), (f3_len1 H1), (f3_len0 H2), (f3_len1 H2). oo. split; cbn [fst snd]; apply f3_firstn; assumption.
Qed.
Lemma resize_3 n a b c : F3 RE a b c -> F3 RE (resize zero n a) (resize zero n b) (resize zero n c).
Proof. intros H. unfold resize. rewrite (f3_len0 H), (f3_len1 H). apply f3_app; [apply f3_firstn, H|apply f3_repeat, re_zero]. Qed.

Definition RSide : side -> side -> side -> Prop := P3 (F3 RS) (F3 RE).
Lemma up_init_3 sh a b c : RS a b c -> O3 (F3 RS) (up_init zero sh a) (up_init zero sh b) (up_init zero sh c).
Proof.
  intros H. unfold up_init.
  assert (HL : forall x y z n, RS x y z -> F3 RS (x :: repeat ([], []) n) (y :: repeat ([], []) n) (z :: repeat ([], []) n)) by (intros; constructor; [assumption|apply f3_repeat, rs_nil]).
  destruct (sComplete sh); [apply o3_ok, HL, H|]. apply o3_same; intros. apply o3_same; intros. eapply o3_bind; [apply level_copy_3, H|intros]. eapply o3_bind; [apply level_reshape_3, H|intros].
  apply o3_set; [apply HL; assumption|assumption].
Qed.
Lemma up_check_3 sh lvl a b c : RSide a b c -> O3 RS (up_check sh lvl a) (up_check sh lvl b) (up_check sh lvl c).
Proof.
  intros [H1 H2]. unfold up_check. eapply o3_bind; [apply o3_get, H1|]. intros x y z [G1 G2]. rewrite (f3_len0 G1), (f3_len1 G1), (f3_len0 G2), (f3_len1 G2).
  oo. split; assumption.
Qed.
Lemma up_store_3 sh lvl a b c pa pb pc : RSide a b c -> F3 RE pa pb pc -> O3 RSide (up_store zero sh lvl a pa) (up_store zero sh lvl b pb) (up_store zero sh lvl c pc).
Proof.
  intros [H1 H2] HP. unfold up_store. cbn [fst snd]. destruct (lvl =? _); [apply o3_ok; split; assumption|]. apply o3_same; intros sz.
  eapply o3_bind; [apply o3_get, H1|]. intros x y z [G1 G2]. destruct (_ =? 0); [apply o3_ub|].
  eapply o3_bind; [apply o3_writeN; [apply resize_3, G1|apply f3_evens, HP]|intros]. eapply o3_bind; [apply o3_writeN; [apply resize_3, G2|apply f3_odds, HP]|intros].
  eapply o3_bind; [apply o3_set; [exact H1|split; assumption]|intros]. apply o3_ok. split; assumption.
Qed.

Definition RD : dside -> dside -> dside -> Prop := P3 (F3 RV) (P3 (F3 RV) (F3 RV)).
Lemma down_check_3 sh la lb lc lvl a b c : F3 RS la lb lc -> RD a b c -> O3 RS (down_check sh la lvl a) (down_check sh lb lvl b) (down_check sh lc lvl c).
Proof.
  intros HL [H1 H2]. unfold down_check. eapply o3_bind; [apply o3_get, HL|]. intros x y z [G1 G2]. rewrite (f3_len0 G1), (f3_len1 G1), (f3_len0 G2), (f3_len1 G2), (f3_len0 H1), (f3_len1 H1).
  oo. split; assumption.
Qed.
Lemma down_store_3 sh la lb lc lvl a b c ta tb tc ua ub uc : F3 RS la lb lc -> RD a b c -> F3 RV ta tb tc -> F3 RV ua ub uc ->
  O3 RD (down_store zero sh la lvl a ta ua) (down_store zero sh lb lvl b tb ub) (down_store zero sh lc lvl c tc uc).
Proof.
  intros HL [H1 [H2 H3]] HT HU. unfold down_store. eapply (@o3_bind _ _ (F3 RV)).
  - destruct (lvl =? 0); [apply o3_ok, H1|]. eapply o3_bind; [apply o3_get, HL|]. intros x y z [G1 G2]. rewrite (f3_len0 G1), (f3_len1 G1). cbv zeta. destruct (Nat.odd _); [apply o3_ub|].
    eapply o3_bind; [apply o3_readN, HT|intros]. eapply o3_bind; [apply o3_readN, HU|intros]. apply o3_ok, f3_interleave; assumption.
  - intros p0 p1 p HP. apply o3_same; intros s0. apply o3_same; intros s1. eapply (@o3_bind _ _ (P3 (F3 RV) (F3 RV))).
    + destruct (_ && (lvl =? 1)); [|destruct (_ && (lvl =? 0)); [|destruct (_ && (lvl =? 0))]].
      * apply o3_same; intros _. cbv zeta. eapply o3_bind; [apply o3_readN, HT|intros]. eapply o3_bind; [apply o3_readN, HU|intros].
        eapply o3_bind; [apply o3_writeN; [apply f3_repeat, rv_zero|eassumption]|intros]. eapply o3_bind; [apply o3_writeN; [apply f3_repeat, rv_zero|eassumption]|intros]. apply o3_ok. split; assumption.
      * eapply o3_bind; [apply o3_readN, HT|intros]. eapply o3_bind; [apply o3_readN, HU|intros].
        eapply o3_bind; [apply o3_writeN; eassumption|intros]. eapply o3_bind; [apply o3_writeN; eassumption|intros]. apply o3_ok. split; assumption.
      * apply o3_ok. split; assumption.
      * apply o3_ok. split; assumption.
    + intros n0 n1 nn HN. apply o3_ok. split; assumption.
Qed.
Lemma leaf_rows_3 n a b c a' b' c' : F3 RV a b c -> F3 RV a' b' c' -> O3 (F3 RV) (leaf_rows zero n a a') (leaf_rows zero n b b') (leaf_rows zero n c c').
Proof.
  intros H1 H2. unfold leaf_rows. rewrite (f3_len0 H1), (f3_len1 H1), (f3_len0 H2), (f3_len1 H2). apply o3_same; intros. apply o3_same; intros.
  eapply (@o3_bind _ _ (F3 RV)).
  - eapply o3_forN; [|apply f3_repeat, rv_zero]. intros j x y z _ HR. oo; [assumption|]. apply o3_set; assumption.
  - intros x y z HR. destruct (Nat.odd n); [|apply o3_ok, HR]. o3. apply o3_set; assumption.
Qed.
End K.
