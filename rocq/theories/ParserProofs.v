(* Proofs about the where parser. *)
From Verif Require Import Base Words KeyMultModel ShuffleModel ShuffleSpec TableModel TableIOModel ParserModel ParserSpec CsvProofs TrimProofs BitInjProofs ShuffleSpanProofs ParserArith.

Lemma get_some A (l : list A) i a : nth_error l i = Some a -> get l i = Ok a.
Proof. unfold get. intros ->. easy. Qed.

Lemma F2_impl A B (P Q : A -> B -> Prop) l m : (forall a b, P a b -> Q a b) -> Forall2 P l m -> Forall2 Q l m.
Proof. induction 2; constructor; auto. Qed.

(* bits l of a bundle of type ty hold v *)
Definition repr (v : value) (ty : nat) (l : list bool) : Prop :=
  match v with
  | VInt w z => ty = 0 /\ l <> [] /\ w = length l /\ z = two_comp l
  | VBool b => ty = 1 /\ l = [b]
  | VStr s => ty = 2 /\ bytes s /\ l = row_bits (length s * 8) s
  | VBin l' => 3 <= ty /\ l = l'
  end.
(* what the bundle itself tells *)
Definition stat (v : value) (b : whb) : Prop :=
  v_width v = length (hWires b) /\
  match v with
  | VInt w _ => hType b = 0 /\ 1 <= w
  | VBool _ => hType b = 1
  | VStr _ => hType b = 2
  | VBin _ => 3 <= hType b
  end.
Definition ext_bits (ty : nat) (l : list bool) (size : nat) : list bool :=
  let k := size - length l in
  match ty with
  | 0 => l ++ repeat (last l false) k
  | 1 | 2 => l ++ repeat false k
  | _ => l
  end.

Lemma repr_width v ty l : repr v ty l -> v_width v = length l.
Proof.
  destruct v; cbn [repr v_width]; [intros (_ & _ & -> & _)|intros [_ ->]|intros (_ & _ & ->)|intros [_ ->]]; try easy.
  rewrite row_bits_length. lia.
Qed.
Lemma ext_facts v ty l W : repr v ty l -> length l <= W -> 1 <= W -> (is_bin v = true -> length l = W) ->
  length (ext_bits ty l W) = W /\
  (v_num v mod 2 ^ Z.of_nat W = bits_num (ext_bits ty l W) mod 2 ^ Z.of_nat W)%Z.
Proof.
  intros R L H1 HB. destruct v as [w z|b|s|l']; cbn [repr is_int is_bin v_num] in *.
  - destruct R as (-> & N & -> & ->). cbn [ext_bits]. assert (E : length (l ++ repeat (last l false) (W - length l)) = W) by (rewrite app_length, repeat_length; lia).
    split; [easy|]. rewrite <- (two_comp_ext (W - length l) N). set (m := l ++ _) in *. rewrite <- E. apply two_comp_mod.
  - destruct R as (-> & ->). cbn [ext_bits]. split; [rewrite app_length, repeat_length; lia|]. rewrite bits_num_zext. f_equal. cbn [bits_num]. lia.
  - destruct R as (-> & Hs & ->). cbn [ext_bits]. split; [rewrite app_length, repeat_length; lia|]. now rewrite bits_num_zext, bits_num_str by easy.
  - destruct R as (T & ->). specialize (HB eq_refl). destruct ty as [|[|[|ty]]]; try lia. easy.
Qed.

Lemma widen_facts a b : widen a b = true ->
  let W := Nat.max (v_width a) (v_width b) in
  1 <= W /\ (is_bin a = true -> v_width a = W) /\ (is_bin b = true -> v_width b = W).
Proof.
  unfold widen. rewrite !andb_true_iff, !orb_true_iff, !negb_true_iff, !Nat.leb_le. intros ((A & B) & C). split; [easy|].
  split; intro X; [destruct A as [A|A]|destruct B as [B|B]]; try congruence; lia.
Qed.
Lemma two_comp_any l z W : 1 <= W -> length l = W -> (z mod 2 ^ Z.of_nat W = bits_num l mod 2 ^ Z.of_nat W)%Z -> two_comp l = wrap W z.
Proof.
  intros W1 <- Ez. apply two_comp_wrap; [intros ->; cbn in W1; lia|]. rewrite Ez. apply Z.mod_small, bits_num_bound.
Qed.
Section Cmp.
Variables (a b : value) (ta tb : nat) (la lb : list bool).
Hypotheses (Ra : repr a ta la) (Rb : repr b tb lb).
Let W := Nat.max (v_width a) (v_width b).
Lemma cmp_two : widen a b = true ->
  two_comp (ext_bits ta la W) = wrap W (v_num a) /\ two_comp (ext_bits tb lb W) = wrap W (v_num b) /\
  length (ext_bits ta la W) = W /\ length (ext_bits tb lb W) = W /\ 1 <= W.
Proof using Ra Rb.
  intro Wd. destruct (widen_facts Wd) as (W1 & Ba & Bb). fold W in W1, Ba, Bb.
  pose proof (repr_width Ra) as La. pose proof (repr_width Rb) as Lb.
  destruct (ext_facts (W := W) Ra) as (A0 & A); [unfold W; lia|easy|intro X; rewrite <- La; now apply Ba|].
  destruct (ext_facts (W := W) Rb) as (B0 & B); [unfold W; lia|easy|intro X; rewrite <- Lb; now apply Bb|].
  split; [now apply two_comp_any|]. split; [now apply two_comp_any|easy].
Qed.
Lemma cmp_len : widen a b = true -> length (ext_bits ta la W) = W /\ length (ext_bits tb lb W) = W /\ 1 <= W.
Proof using Ra Rb. intro Wd. apply (cmp_two Wd). Qed.
Lemma cmp_eq : widen a b = true -> eq_bits (ext_bits ta la W) (ext_bits tb lb W) = (wrap W (v_num a) =? wrap W (v_num b))%Z.
Proof using Ra Rb. intro Wd. destruct (cmp_two Wd) as (<- & <- & E1 & E2 & _). apply eq_bits_two. congruence. Qed.
Lemma cmp_lt : widen a b = true -> lt_bits false (ext_bits ta la W) (ext_bits tb lb W) = (wrap W (v_num a) <? wrap W (v_num b))%Z.
Proof using Ra Rb.
  intro Wd. destruct (cmp_two Wd) as (<- & <- & E1 & E2 & W1). apply lt_bits_two; [congruence|]. intro X. rewrite X in E1. cbn in E1. lia.
Qed.
Lemma add_repr : widen a b = true -> repr (VInt W (wrap W (v_num a + v_num b))) 0 (add_bits false (ext_bits ta la W) (ext_bits tb lb W)).
Proof using Ra Rb.
  intro Wd. destruct (cmp_len Wd) as (E1 & E2 & W1). destruct (widen_facts Wd) as (_ & Ba & Bb). fold W in Ba, Bb.
  pose proof (repr_width Ra) as La. pose proof (repr_width Rb) as Lb.
  destruct (ext_facts (W := W) Ra) as (_ & A); [unfold W; lia|easy|intro X; rewrite <- La; now apply Ba|].
  destruct (ext_facts (W := W) Rb) as (_ & B); [unfold W; lia|easy|intro X; rewrite <- Lb; now apply Bb|].
  set (ea := ext_bits ta la W) in *. set (eb := ext_bits tb lb W) in *.
  assert (L : length (add_bits false ea eb) = W) by (rewrite add_bits_length; congruence).
  assert (N : add_bits false ea eb <> []) by (intro X; rewrite X in L; cbn in L; lia).
  cbn [repr]. split; [easy|]. split; [easy|]. split; [easy|]. rewrite <- L at 1. symmetry. rewrite L. rewrite <- L. apply two_comp_wrap; [easy|].
  rewrite L, add_bits_num by congruence. rewrite E1. cbn [Z.b2z]. rewrite Z.add_0_r. pose proof (pow2pos W).
  rewrite Z.add_mod, A, B, <- Z.add_mod by lia. easy.
Qed.
End Cmp.

Section Run.
Variables (nin : nat) (x : nat -> bool).

Definition run (ops : list op) (e : nat -> bool) : nat -> bool := fold_left do_op ops e.
Definition agree (e : nat -> bool) (s : pst) : Prop :=
  (forall i, i < nin -> e i = x i) /\ forall w v, In (w, v) (pConst s) -> e w = v.
Definition cst_ok (s : pst) : Prop :=
  NoDup (map fst (pConst s)) /\ forall w, In w (map fst (pConst s)) -> nin < w < pNext s.
Definition good (s : pst) : Prop :=
  nin < pNext s /\ (forall e w, pNext s <= w -> run (pOps s) e w = e w) /\ cst_ok s.
Definition holds (s : pst) (b : whb) (v : value) : Prop :=
  (forall w, In w (hWires b) -> w < pNext s /\ w <> nin) /\ stat v b /\
  forall e, agree e s -> repr v (hType b) (map (run (pOps s) e) (hWires b)).
Definition sound (s : pst) : list whb -> list value -> Prop := Forall2 (holds s).

(* wires and constants are added *)
Definition grows (s s' : pst) : Prop :=
  pOps s' = pOps s /\ pNext s <= pNext s' /\ (forall p, In p (pConst s) -> In p (pConst s')).
Lemma grows_refl s : grows s s.
Proof. split; [easy|]. split; [lia|easy]. Qed.
Lemma grows_trans a b c : grows a b -> grows b c -> grows a c.
Proof. intros (A1 & A2 & A3) (B1 & B2 & B3). split; [congruence|]. split; [lia|]. intros p H. auto. Qed.
Lemma grows_agree s s' e : grows s s' -> agree e s' -> agree e s.
Proof. intros (_ & _ & G) [A B]. split; [easy|]. intros w v H. apply B, G, H. Qed.
Lemma grows_holds s s' b v : grows s s' -> holds s b v -> holds s' b v.
Proof.
  intros G (A & B & C). split; [|split; [easy|]].
  - intros w Hw. destruct (A w Hw). destruct G as (_ & G & _). split; [lia|easy].
  - intros e He. destruct G as (G1 & G2 & G3). rewrite G1. apply C. apply grows_agree with (s' := s'); [split; easy|easy].
Qed.
Lemma grows_sound s s' bs vs : grows s s' -> sound s bs vs -> sound s' bs vs.
Proof. intros G. apply F2_impl. intros b v. now apply grows_holds. Qed.

Lemma temps_good s k ws s' : good s -> temps s k = (ws, s') -> good s' /\ grows s s' /\ ws = seq (pNext s) k /\ pNext s' = pNext s + k.
Proof.
  intros (A & B & C & D) H. injection H as <- <-. split; [|split; [split; [easy|cbn; split; [lia|easy]]|split; easy]].
  split; [cbn; lia|]. split; [cbn; intros e w Hw; apply B; lia|]. split; [easy|]. cbn. intros w Hw. specialize (D w Hw). lia.
Qed.
Lemma map_fst_combine A B (l : list A) : forall m : list B, length l = length m -> map fst (combine l m) = l.
Proof using. clear nin x. induction l as [|a l IH]; intros [|b m] L; cbn in *; try easy. f_equal. apply IH. lia. Qed.
Lemma NoDup_app_intro A (l m : list A) : NoDup l -> NoDup m -> (forall a, In a l -> ~ In a m) -> NoDup (l ++ m).
Proof.
  induction l as [|a l IH]; intros H1 H2 H; [easy|]. inversion H1; subst. cbn. constructor.
  - rewrite in_app_iff. intros [I|I]; [easy|]. apply (H a); [now left|easy].
  - apply IH; try easy. intros y Hy. apply H. now right.
Qed.
Lemma map_seq_consts (f : nat -> bool) : forall (v : list bool) k, (forall w b, In (w, b) (combine (seq k (length v)) v) -> f w = b) -> map f (seq k (length v)) = v.
Proof.
  induction v as [|b v IH]; intros k H; [easy|]. cbn [length seq map]. f_equal; [apply H; now left|]. apply IH. intros w c Hw. apply H. now right.
Qed.
Lemma consts_good s v ws s' : good s -> consts s v = (ws, s') ->
  good s' /\ grows s s' /\ (forall w, In w ws -> pNext s <= w < pNext s') /\ length ws = length v /\ forall e, agree e s' -> map (run (pOps s') e) ws = v.
Proof.
  intros (A & B & C & D) H. unfold consts in H. injection H as <- <-. unfold good, grows, agree, cst_ok. cbn [pOps pNext pConst].
  assert (F : map fst (combine (seq (pNext s) (length v)) v) = seq (pNext s) (length v)) by (apply map_fst_combine, seq_length).
  split; [|split; [|split; [|split]]].
  - split; [lia|]. split; [intros e w Hw; apply B; lia|]. rewrite map_app, F. split.
    + apply NoDup_app_intro; [easy|apply seq_NoDup|]. intros w Hw I. apply in_seq in I. specialize (D w Hw). lia.
    + intros w. rewrite in_app_iff, in_seq. intros [I|I]; [specialize (D w I)|]; lia.
  - split; [easy|]. split; [lia|]. intros p Hp. apply in_app_iff. now left.
  - intros w. rewrite in_seq. lia.
  - apply seq_length.
  - intros e [_ He]. rewrite (map_ext_in _ e); [|intros w Hw; apply B; apply in_seq in Hw; lia].
    apply map_seq_consts. intros w b Hw. apply He. apply in_app_iff. now right.
Qed.

Lemma last_map (f : nat -> bool) l d d' : l <> [] -> last (map f l) d' = f (last l d).
Proof.
  induction l as [|a [|b l] IH]; intro H; try easy. change (map f (a :: b :: l)) with (f a :: map f (b :: l)).
  change (last (a :: b :: l) d) with (last (b :: l) d). rewrite <- IH by easy. easy.
Qed.
Lemma last_in (l : list nat) d : l <> [] -> In (last l d) l.
Proof. induction l as [|a [|b l] IH]; intro H; try easy; [now left|]. right. apply IH. easy. Qed.
Lemma map_repeat A B (f : A -> B) a k : map f (repeat a k) = repeat (f a) k.
Proof. induction k as [|k IH]; cbn; congruence. Qed.
Lemma get_bundle_ok b v W s : good s -> holds s b v ->
  exists ws s', get_bundle b W s = Ok (ws, s') /\ good s' /\ grows s s' /\ (forall w, In w ws -> w < pNext s' /\ w <> nin) /\
    length ws = (if is_bin v then v_width v else Nat.max W (v_width v)) /\
    forall e, agree e s' -> map (run (pOps s') e) ws = ext_bits (hType b) (map (run (pOps s') e) (hWires b)) W.
Proof.
  intros G (Hw & (Sw & St) & Hr). unfold get_bundle.
  assert (Z : hType b = 1 \/ hType b = 2 -> is_bin v = false ->
     exists ws s', (let (ws, s0) := consts s (repeat false (W - length (hWires b))) in Ok (hWires b ++ ws, s0)) = Ok (ws, s') /\
       good s' /\ grows s s' /\ (forall w, In w ws -> w < pNext s' /\ w <> nin) /\ length ws = (if is_bin v then v_width v else Nat.max W (v_width v)) /\
       forall e, agree e s' -> map (run (pOps s') e) ws = ext_bits (hType b) (map (run (pOps s') e) (hWires b)) W).
  { intros T Bn. destruct (consts s (repeat false (W - length (hWires b)))) as [ws s'] eqn:E.
    destruct (consts_good G E) as (G' & Gr & Wb & Wl & Wv). exists (hWires b ++ ws), s'. split; [easy|]. split; [easy|]. split; [easy|].
    destruct G as (G0 & _). split; [|split].
    - intros w. rewrite in_app_iff. intros [I|I]; [destruct (Hw w I), Gr as (_ & Gr & _); split; [lia|easy]|]. specialize (Wb w I). lia.
    - rewrite app_length, Wl, repeat_length, Bn, Sw. lia.
    - intros e He. rewrite map_app, (Wv e He). destruct T as [-> | ->]; cbn [ext_bits]; rewrite map_length; easy. }
  destruct v as [w z|c|t|l]; cbn [is_bin v_width] in *.
  - destruct St as [-> W1]. destruct (hWires b) as [|w0 l] eqn:E; [cbn in Sw; lia|]. rewrite <- E in *.
    assert (N : hWires b <> []) by now rewrite E. exists (hWires b ++ repeat (last (hWires b) 0) (W - length (hWires b))), s.
    split; [easy|]. split; [easy|]. split; [apply grows_refl|]. split; [|split].
    + intros y. rewrite in_app_iff. intros [I|I]; [now apply Hw|]. apply repeat_spec in I. subst y. apply Hw. now apply last_in.
    + rewrite app_length, repeat_length. lia.
    + intros e He. rewrite map_app, map_repeat. cbn [ext_bits]. rewrite map_length, (last_map _ 0) by easy. easy.
  - rewrite St in *. apply Z; [now left|easy].
  - rewrite St in *. apply Z; [now right|easy].
  - assert (T : forall A B C : outcome (list nat * pst), match hType b with 0 => A | 1 | 2 => B | _ => C end = C)
      by (intros; destruct (hType b) as [|[|[|k]]]; try lia; easy).
    destruct (hType b) as [|[|[|k]]] eqn:Et; try lia. exists (hWires b), s. split; [easy|]. split; [easy|]. split; [apply grows_refl|]. split; [easy|]. split; [easy|].
    intros e He. easy.
Qed.
Lemma both_ok a b va vb s : good s -> holds s a va -> holds s b vb -> widen va vb = true ->
  let W := Nat.max (v_width va) (v_width vb) in
  exists ws wt s', both a b s = Ok (ws, wt, s') /\ good s' /\ grows s s' /\
    (forall w, In w ws \/ In w wt -> w < pNext s' /\ w <> nin) /\ length ws = W /\ length wt = W /\ build_ok ws wt = Ok tt /\
    forall e, agree e s' -> map (run (pOps s') e) ws = ext_bits (hType a) (map (run (pOps s') e) (hWires a)) W /\
                            map (run (pOps s') e) wt = ext_bits (hType b) (map (run (pOps s') e) (hWires b)) W.
Proof.
  intros G Ha Hb Wd W. destruct (widen_facts Wd) as (W1 & Ba & Bb). fold W in W1, Ba, Bb.
  destruct (get_bundle_ok W G Ha) as (ws & s1 & E1 & G1 & R1 & B1 & L1 & V1).
  destruct (get_bundle_ok W G1 (grows_holds R1 Hb)) as (wt & s2 & E2 & G2 & R2 & B2 & L2 & V2).
  assert (Ls : length ws = W) by (rewrite L1; destruct (is_bin va) eqn:Ea; [now apply Ba|unfold W; lia]).
  assert (Lt : length wt = W) by (rewrite L2; destruct (is_bin vb) eqn:Eb; [now apply Bb|unfold W; lia]).
  exists ws, wt, s2. unfold both. replace (length (hWires a)) with (v_width va) by apply Ha. replace (length (hWires b)) with (v_width vb) by apply Hb.
  fold W. rewrite E1. cbn [bind fst snd]. rewrite E2. cbn [bind fst snd]. split; [easy|]. split; [easy|]. split; [now apply grows_trans with (b := s1)|].
  split; [|split; [easy|split; [easy|split]]].
  - intros w [I|I]; [|now apply B2]. destruct (B1 w I), R2 as (_ & R2 & _). split; [lia|easy].
  - unfold build_ok. rewrite Ls, Lt, Nat.eqb_refl. destruct (Nat.eqb_spec W 0); [lia|easy].
  - intros e He. split; [|now apply V2]. pose proof (V1 e (grows_agree R2 He)) as V. destruct R2 as (-> & _). exact V.
Qed.

(* one more wire is written *)
Definition writes1 (os : list op) (o : nat) (f : (nat -> bool) -> bool) : Prop :=
  forall e w, run os e w = if w =? o then f e else e w.
Lemma run_app l m e : run (l ++ m) e = run m (run l e). Proof. apply fold_left_app. Qed.
Lemma finish_bool lst s bs vs o s2 os f b : good s -> sound s bs vs -> bool_out lst nin s = (o, s2) -> writes1 os o f ->
  (forall e, agree e s -> f (run (pOps s) e) = b) ->
  let s3 := PSt (pNext s2) (pConst s2) (pOps s2 ++ os) in
  (lst = false -> good s3 /\ sound s3 (bs ++ [WhB [o] 1]) (vs ++ [VBool b])) /\
  (lst = true -> cst_ok s3 /\ forall e, agree e s3 -> run (pOps s3) e nin = b).
Proof.
  intros G Sd E Wr Hf s3. split; intros ->; cbn [bool_out] in E.
  - destruct (temps s 1) as [ws s'] eqn:Et. injection E as <- <-. destruct (temps_good G Et) as (G' & Gr & _ & Ln).
    destruct G' as (A & B & C). destruct Gr as (R1 & R2 & R3). unfold s3.
    assert (Pc : pConst s' = pConst s) by (injection Et as _ <-; easy).
    split; [split; [easy|split; [|easy]]|].
    + intros e w Hw. cbn [pOps pNext] in *. rewrite run_app, Wr. destruct (Nat.eqb_spec w (pNext s)); [lia|]. now apply B.
    + assert (Ag : forall e, agree e (PSt (pNext s') (pConst s') (pOps s' ++ os)) -> agree e s).
      { intros e [P Q]. split; [easy|]. cbn [pConst] in Q. now rewrite Pc in Q. }
      destruct G as (G0 & _). apply Forall2_app.
      * eapply F2_impl; [|exact Sd]. intros bb v (Hw & Hs & Hr). split; [|split; [easy|]]; cbn [pNext pOps].
        -- intros w I. destruct (Hw w I). split; [lia|easy].
        -- intros e He. specialize (Hr e (Ag e He)). rewrite (map_ext_in _ (run (pOps s) e)); [easy|]. intros w I. rewrite run_app, Wr, R1.
           destruct (Hw w I). destruct (Nat.eqb_spec w (pNext s)); [lia|easy].
      * constructor; [|constructor]. split; [|split; [easy|]]; cbn [pNext pOps hWires hType].
        -- intros w [<-|[]]. lia.
        -- intros e He. cbn [map repr]. rewrite run_app, Wr, Nat.eqb_refl, R1. rewrite (Hf e (Ag e He)). easy.
  - injection E as <- <-. unfold s3. destruct G as (_ & _ & G). split; [easy|]. intros e He. cbn [pOps]. rewrite run_app, Wr, Nat.eqb_refl. apply Hf. exact He.
Qed.

(* what a gate does *)
Lemma w1_op o f opn : (forall e, do_op e opn = put e o (f e)) -> writes1 [opn] o f.
Proof. intros H e w. unfold run. cbn [fold_left]. rewrite H. easy. Qed.
Definition gate_post (lst : bool) (bs : list whb) (vs : list value) (v : value) (r : list whb * pst) : Prop :=
  (lst = false -> good (snd r) /\ sound (snd r) (fst r) (vs ++ [v])) /\
  (lst = true -> forall b, v = VBool b -> cst_ok (snd r) /\ forall e, agree e (snd r) -> run (pOps (snd r)) e nin = b).
Lemma post_bool lst s s0 bs vs o s2 os f b : good s -> grows s0 s -> sound s0 bs vs -> bool_out lst nin s = (o, s2) -> writes1 os o f ->
  (forall e, agree e s -> f (run (pOps s) e) = b) ->
  gate_post lst bs vs (VBool b) (bs ++ [WhB [o] 1], PSt (pNext s2) (pConst s2) (pOps s2 ++ os)).
Proof.
  intros G Gr Sd E Wr Hf. destruct (finish_bool G (grows_sound Gr Sd) E Wr Hf) as [P Q]. split; [easy|]. intros L b' Hb. injection Hb as <-. cbn [fst snd]. now apply Q.
Qed.

Lemma puts_other ws : forall vs e w, ~ In w ws -> puts e ws vs w = e w.
Proof.
  induction ws as [|a ws IH]; intros [|v vs] e w H; cbn [puts]; try easy. rewrite IH by (intro I; apply H; now right).
  unfold put. destruct (Nat.eqb_spec w a) as [->|]; [exfalso; apply H; now left|easy].
Qed.
Lemma puts_map ws : forall vs e, NoDup ws -> length ws = length vs -> map (puts e ws vs) ws = vs.
Proof.
  induction ws as [|a ws IH]; intros [|v vs] e H L; cbn [length] in L; try easy. inversion H; subst. cbn [puts map]. f_equal.
  - rewrite puts_other by easy. unfold put. now rewrite Nat.eqb_refl.
  - apply IH; [easy|lia].
Qed.

Lemma stat_bool b v s : holds s b (VBool v) -> exists w, hWires b = [w] /\ hType b = 1 /\ w < pNext s /\ w <> nin /\ forall e, agree e s -> run (pOps s) e w = v.
Proof.
  intros (A & (B & T) & C). cbn [v_width] in B. destruct (hWires b) as [|w [|w' l]] eqn:E; cbn in B; try lia. exists w. split; [easy|]. split; [easy|].
  destruct (A w (or_introl eq_refl)). split; [easy|]. split; [easy|]. intros e He. specialize (C e He). cbn in C. destruct C as [_ C]. now injection C.
Qed.

Lemma gate_ok lst bs vs g s a b v : good s -> sound s bs vs ->
  nth_error vs (aIn0 g) = Some a -> nth_error vs (aIn1 g) = Some b -> aOut g = length vs -> v_op_mod (aType g) a b = Some v ->
  (lst = true -> exists c, v = VBool c) ->
  exists r, parse_gate lst nin bs g s = Ok r /\ gate_post lst bs vs v r.
Proof.
  intros G Sd Ea Eb Eo Ev Hl. pose proof (Forall2_length Sd) as Len.
  assert (Ia : aIn0 g < length vs) by (apply nth_error_Some; congruence). assert (Ib : aIn1 g < length vs) by (apply nth_error_Some; congruence).
  destruct (nth_error bs (aIn0 g)) as [ba|] eqn:Fa; [|apply nth_error_None in Fa; lia].
  destruct (nth_error bs (aIn1 g)) as [bb|] eqn:Fb; [|apply nth_error_None in Fb; lia].
  assert (Nth : forall i p q, nth_error bs i = Some p -> nth_error vs i = Some q -> holds s p q).
  { clear - Sd. induction Sd as [|y z l m Hyz _ IH]; intros [|i] p q; cbn; try easy; [congruence|]. apply IH. }
  pose proof (Nth _ _ _ Fa Ea) as Ha. pose proof (Nth _ _ _ Fb Eb) as Hb. clear Nth.
  unfold parse_gate. rewrite Len, Eo, Nat.eqb_refl. destruct (Nat.leb_spec (length vs) (aIn0 g)); [lia|]. destruct (Nat.leb_spec (length vs) (aIn1 g)); [lia|].
  cbn [orb negb throw_if bind]. rewrite (get_some Fa), (get_some Fb). cbn [bind].
  destruct (aType g) as [|[|[|[|[|[|[|[|[|t]]]]]]]]] eqn:Ty; cbn [v_op_mod v_op] in Ev; try discriminate Ev.
  - (* = *) destruct (widen a b) eqn:C; [|easy]. injection Ev as <-.
    destruct (both_ok G Ha Hb C) as (ws & wt & s1 & E1 & G1 & R1 & B1 & L1 & L2 & BO & V1). rewrite E1. cbn [bind]. rewrite BO. cbn [bind].
    destruct (bool_out lst nin s1) as [o s2] eqn:Eo2. cbn [Nat.eqb]. eexists. split; [reflexivity|].
    apply (post_bool (s := s1) (s0 := s) (f := fun e => eq_bits (map e ws) (map e wt))); try easy; try (now apply w1_op).
    intros e He. destruct (V1 e He) as [-> ->].
    destruct (grows_holds R1 Ha) as (_ & _ & Pa). destruct (grows_holds R1 Hb) as (_ & _ & Pb). now apply cmp_eq; [apply Pa|apply Pb|].
  - (* != *) destruct (widen a b) eqn:C; [|easy]. injection Ev as <-.
    destruct (both_ok G Ha Hb C) as (ws & wt & s1 & E1 & G1 & R1 & B1 & L1 & L2 & BO & V1). rewrite E1. cbn [bind]. rewrite BO. cbn [bind].
    destruct (bool_out lst nin s1) as [o s2] eqn:Eo2. cbn [Nat.eqb]. eexists. split; [unfold add_op; cbn [pOps pNext pConst]; rewrite <- app_assoc; reflexivity|].
    apply (post_bool (s := s1) (s0 := s) (f := fun e => negb (eq_bits (map e ws) (map e wt)))); try easy.
    + intros e w. unfold run. cbn [app fold_left do_op]. unfold put. rewrite Nat.eqb_refl. destruct (w =? o); easy.
    + intros e He. destruct (V1 e He) as [-> ->]. f_equal.
      destruct (grows_holds R1 Ha) as (_ & _ & Pa). destruct (grows_holds R1 Hb) as (_ & _ & Pb). now apply cmp_eq; [apply Pa|apply Pb|].
  - (* and *) destruct a as [|ca| |], b as [|cb| |]; try discriminate Ev. injection Ev as <-.
    destruct (stat_bool Ha) as (wa & Wa & Ta & _ & _ & Va). destruct (stat_bool Hb) as (wb & Wb & Tb & _ & _ & Vb). rewrite Wa, Wb. cbn [length Nat.eqb negb orb throw_if bind nth].
    destruct (bool_out lst nin s) as [o s2] eqn:Eo2. eexists. split; [reflexivity|].
    apply (post_bool (s := s) (s0 := s) (f := fun e => e wa && e wb)); try easy; try apply grows_refl; try (now apply w1_op). intros e He. now rewrite (Va e He), (Vb e He).
  - (* or *) destruct a as [|ca| |], b as [|cb| |]; try discriminate Ev. injection Ev as <-.
    destruct (stat_bool Ha) as (wa & Wa & Ta & _ & _ & Va). destruct (stat_bool Hb) as (wb & Wb & Tb & _ & _ & Vb). rewrite Wa, Wb. cbn [length Nat.eqb negb orb throw_if bind nth].
    destruct (bool_out lst nin s) as [o s2] eqn:Eo2. eexists. split; [reflexivity|].
    apply (post_bool (s := s) (s0 := s) (f := fun e => e wa || e wb)); try easy; try apply grows_refl; try (now apply w1_op). intros e He. now rewrite (Va e He), (Vb e He).
  - (* + *) destruct (widen a b) eqn:Wd; [|easy]. injection Ev as <-. destruct lst; [destruct (Hl eq_refl) as [c X]; discriminate X|].
    destruct (both_ok G Ha Hb Wd) as (ws & wt & s1 & E1 & G1 & R1 & B1 & L1 & L2 & BO & V1). rewrite E1. cbn [bind throw_if]. rewrite BO. cbn [bind].
    set (W := Nat.max (v_width a) (v_width b)) in *. rewrite L1.
    destruct (temps s1 W) as [o s2] eqn:Et. destruct (temps_good G1 Et) as (G2 & Gr2 & -> & N2). destruct (temps s2 W) as [o' s3] eqn:Et'. destruct (temps_good G2 Et') as (G3 & Gr3 & _ & N3).
    pose proof (grows_trans (grows_trans R1 Gr2) Gr3) as GR. assert (O3 : pOps s3 = pOps s1) by (destruct Gr2 as (X & _), Gr3 as (Y & _); congruence).
    eexists. split; [reflexivity|]. split; [intros _|easy]. cbn [fst snd]. unfold add_op.
    assert (Wf : 1 <= W) by apply (widen_facts Wd).
    assert (Ag : forall e, agree e (PSt (pNext s3) (pConst s3) (pOps s3 ++ [OAdd ws wt (seq (pNext s1) W)])) -> agree e s3) by (intros e He; exact He).
    destruct G1 as (G10 & G1B & G1C). destruct G3 as (G30 & G3B & G3C).
    split; [split; [easy|split; [|easy]]|].
    + intros e w Hw. cbn [pOps pNext] in *. rewrite run_app. unfold run at 1. cbn [fold_left do_op]. rewrite puts_other by (rewrite in_seq; lia). now apply G3B.
    + apply Forall2_app.
      * eapply F2_impl; [|exact (grows_sound R1 Sd)]. intros p v (Hw & Hs & Hr). split; [|split; [easy|]]; cbn [pNext pOps].
        -- intros w I. destruct (Hw w I). split; [lia|easy].
        -- intros e He. specialize (Hr e (grows_agree (grows_trans Gr2 Gr3) (Ag e He))).
           rewrite (map_ext_in _ (run (pOps s1) e)); [easy|]. intros w I. rewrite run_app, O3. unfold run at 1. cbn [fold_left do_op]. apply puts_other.
           rewrite in_seq. destruct (Hw w I). lia.
      * constructor; [|constructor]. split; [|split].
        -- cbn [hWires pNext]. intros w. rewrite in_seq. lia.
        -- split; [cbn [v_width hWires]; now rewrite seq_length|]. split; easy.
        -- intros e He. cbn [hWires hType pOps]. rewrite run_app. unfold run at 1. cbn [fold_left do_op].
           destruct (V1 e (grows_agree (grows_trans Gr2 Gr3) (Ag e He))) as [Va Vb]. rewrite O3, Va, Vb.
           destruct (grows_holds R1 Ha) as (_ & _ & Pa). destruct (grows_holds R1 Hb) as (_ & _ & Pb).
           specialize (Pa e (grows_agree (grows_trans Gr2 Gr3) (Ag e He))). specialize (Pb e (grows_agree (grows_trans Gr2 Gr3) (Ag e He))).
           rewrite puts_map; [now apply add_repr|apply seq_NoDup|]. rewrite seq_length. destruct (cmp_len Pa Pb Wd) as (X & Y & _). rewrite add_bits_length; fold W in X, Y; congruence.
  - (* < *) destruct (widen a b && (is_int a || is_int b)) eqn:C; [|easy]. apply andb_true_iff in C as [C I]. injection Ev as <-.
    assert (TI : negb (hType ba =? 0) && negb (hType bb =? 0) = false).
    { destruct Ha as (_ & (_ & Ta) & _), Hb as (_ & (_ & Tb) & _). destruct a; [destruct Ta as [-> _]; easy| | |];
        (destruct b; [destruct Tb as [-> _]; now rewrite andb_false_r|discriminate I..]). }
    rewrite TI. cbn [throw_if bind].
    destruct (both_ok G Ha Hb C) as (ws & wt & s1 & E1 & G1 & R1 & B1 & L1 & L2 & BO & V1). rewrite E1. cbn [bind]. rewrite BO. cbn [bind].
    destruct (bool_out lst nin s1) as [o s2] eqn:Eo2. cbn [Nat.eqb]. eexists. split; [reflexivity|].
    apply (post_bool (s := s1) (s0 := s) (f := fun e => lt_bits false (map e ws) (map e wt))); try easy; try (now apply w1_op).
    intros e He. destruct (V1 e He) as [-> ->].
    destruct (grows_holds R1 Ha) as (_ & _ & Pa). destruct (grows_holds R1 Hb) as (_ & _ & Pb). now apply cmp_lt; [apply Pa|apply Pb|].
  - (* >= *) destruct (widen a b && (is_int a || is_int b)) eqn:C; [|easy]. apply andb_true_iff in C as [C I]. injection Ev as <-.
    assert (TI : negb (hType ba =? 0) && negb (hType bb =? 0) = false).
    { destruct Ha as (_ & (_ & Ta) & _), Hb as (_ & (_ & Tb) & _). destruct a; [destruct Ta as [-> _]; easy| | |];
        (destruct b; [destruct Tb as [-> _]; now rewrite andb_false_r|discriminate I..]). }
    rewrite TI. cbn [throw_if bind].
    destruct (both_ok G Ha Hb C) as (ws & wt & s1 & E1 & G1 & R1 & B1 & L1 & L2 & BO & V1). rewrite E1. cbn [bind]. rewrite BO. cbn [bind].
    destruct (bool_out lst nin s1) as [o s2] eqn:Eo2. cbn [Nat.eqb]. eexists. split; [reflexivity|].
    apply (post_bool (s := s1) (s0 := s) (f := fun e => negb (lt_bits false (map e ws) (map e wt)))); try easy; try (now apply w1_op).
    intros e He. destruct (V1 e He) as [-> ->].
    destruct (grows_holds R1 Ha) as (_ & _ & Pa). destruct (grows_holds R1 Hb) as (_ & _ & Pb). rewrite (cmp_lt (Pa e He) (Pb e He) C).
    rewrite Z.ltb_antisym, negb_involutive. easy.
  - (* xor *) destruct a as [|ca| |], b as [|cb| |]; try discriminate Ev. injection Ev as <-.
    destruct (stat_bool Ha) as (wa & Wa & Ta & _ & _ & Va). destruct (stat_bool Hb) as (wb & Wb & Tb & _ & _ & Vb). rewrite Wa, Wb. cbn [length Nat.eqb negb orb throw_if bind nth].
    destruct (bool_out lst nin s) as [o s2] eqn:Eo2. eexists. split; [reflexivity|].
    apply (post_bool (s := s) (s0 := s) (f := fun e => xorb (e wa) (e wb))); try easy; try apply grows_refl; try (now apply w1_op). intros e He. now rewrite (Va e He), (Vb e He).
Qed.

Lemma gates_ok b vs' gs : forall bs vs s, good s -> sound s bs vs -> v_run_mod vs gs = Some vs' -> gs <> [] -> last vs' (VBin []) = VBool b ->
  exists r, parse_gates nin bs gs s = Ok r /\ cst_ok (snd r) /\ forall e, agree e (snd r) -> run (pOps (snd r)) e nin = b.
Proof.
  induction gs as [|g gs IH]; intros bs vs s G Sd H N L; [easy|]. unfold v_run_mod in H. cbn [v_runs] in H.
  destruct (nth_error vs (aIn0 g)) as [a|] eqn:Ea; [|easy]. destruct (nth_error vs (aIn1 g)) as [c|] eqn:Eb; [|easy].
  destruct (Nat.eqb_spec (aOut g) (length vs)) as [Eo|]; [|easy]. destruct (v_op_mod (aType g) a c) as [v|] eqn:Ev; [|easy].
  set (lst := match gs with [] => true | _ => false end).
  assert (Lv : lst = true -> v = VBool b).
  { unfold lst. destruct gs; [|easy]. intros _. cbn [v_runs] in H. injection H as <-. now rewrite last_last in L. }
  destruct (gate_ok (lst := lst) G Sd Ea Eb Eo Ev) as (r & Er & Pf & Pt); [intro X; exists b; now apply Lv|].
  cbn [parse_gates]. fold lst. rewrite Er. cbn [bind]. destruct gs as [|g' gs].
  - cbn [parse_gates]. rewrite <- surjective_pairing. exists r. split; [easy|]. apply Pt; [easy|now apply Lv].
  - destruct (Pf eq_refl) as [G' Sd']. apply (IH _ _ _ G' Sd' H); easy.
Qed.

(* literals *)
Lemma literal_ok ty t v : lit_value ty t v -> exists l, literal ty t = Ok l /\ repr v ty l.
Proof using.
  clear nin x.
  destruct ty as [|[|[|ty]]]; cbn [lit_value].
  - intros (z & w & E & -> & W & F & M). destruct (literal_int E) as (l & El & N & T & z' & w' & E' & Ev & W' & F' & M'). exists l. split; [easy|].
    injection Ev as <- <-. cbn [repr]. split; [easy|]. split; [easy|]. split; [|easy].
    apply Nat.le_antisymm; [apply M|apply M']; try easy; lia.
  - intros [[[-> | ->] ->]|[[-> | ->] ->]]; eexists; (split; [reflexivity|easy]).
  - intros [B ->]. eexists. split; [reflexivity|easy].
  - easy.
Qed.
Lemma repr_stat v ty l ws : repr v ty l -> length ws = length l -> stat v (WhB ws ty).
Proof using.
  clear nin x.
  intros R L. split; [rewrite (repr_width R); easy|]. destruct v; cbn [repr hType] in *; try apply R.
  destruct R as (T & N & Lw & _). split; [easy|]. rewrite Lw. destruct l; [easy|cbn; lia].
Qed.
Lemma lits_ok lits vl : Forall2 (fun l v => lit_value (fst l) (snd l) v) lits vl -> forall bs vs s, good s -> sound s bs vs ->
  exists bs' s', parse_lits bs lits s = Ok (bs', s') /\ good s' /\ sound s' bs' (vs ++ vl).
Proof.
  induction 1 as [|l v lits vl Hv _ IH]; intros bs vs s G Sd; cbn [parse_lits]; [exists bs, s; rewrite app_nil_r; easy|].
  destruct (literal_ok Hv) as (bits & El & R). rewrite El. cbn [bind]. destruct (consts s bits) as [ws s1] eqn:Ec.
  destruct (consts_good G Ec) as (G1 & Gr & Wb & Wl & Wv). destruct (IH (bs ++ [WhB ws (fst l)]) (vs ++ [v]) s1 G1) as (bs' & s' & E & G' & Sd').
  - apply Forall2_app; [now apply (grows_sound Gr)|]. constructor; [|constructor]. split; [|split].
    + cbn [hWires]. intros w I. specialize (Wb w I). destruct G. lia.
    + now apply repr_stat with (l := bits).
    + intros e He. cbn [hWires hType]. rewrite (Wv e He). easy.
  - exists bs', s'. rewrite <- app_assoc in Sd'. easy.
Qed.

(* the columns *)
Lemma col_repr ty l v : col_value ty l v -> repr v ty l.
Proof using.
  clear nin x.
  destruct ty as [|[|[|ty]]]; cbn [col_value]; [intros [N ->]|intros (b & -> & ->)|intros (s & B & -> & ->)|intros ->]; cbn [repr]; try easy.
  split; [lia|easy].
Qed.
Lemma ins_ok cs : forall rows vc off, Forall2 (fun c l => length l = iBits c) cs rows ->
  Forall2 (fun cl v => col_value (iType (fst cl)) (snd cl) v) (combine cs rows) vc ->
  off + fold_right (fun c n => iBits c + n) 0 cs <= nin ->
  (forall i, i < length (concat rows) -> x (off + i) = nth i (concat rows) false) ->
  sound (PSt (nin + 1) [] []) (in_bundles off cs) vc.
Proof.
  induction cs as [|c cs IH]; intros rows vc off HL HV Le Hx; [inversion HV; constructor|].
  inversion HL as [|c' l cs' rows' El HL']; subst. cbn [combine] in HV. inversion HV as [|p v ps vc' Hv HV']; subst. cbn [fst snd] in Hv. cbn [in_bundles fold_right] in *.
  pose proof (col_repr Hv) as R. constructor.
  - split; [|split].
    + cbn [hWires pNext]. intros w. rewrite in_seq. lia.
    + apply repr_stat with (l := l); [easy|]. now rewrite seq_length.
    + intros e [He _]. cbn [hWires hType pOps]. replace (map (run [] e) (seq off (iBits c))) with l; [easy|].
      apply nth_ext with (d := false) (d' := run [] e 0); [now rewrite map_length, seq_length|]. intros i Hi.
      rewrite (@map_nth _ _ (run [] e)). rewrite seq_nth by lia. change (run [] e (off + i)) with (e (off + i)). rewrite He by lia.
      rewrite Hx by (cbn [concat]; rewrite app_length; lia). cbn [concat]. rewrite app_nth1 by easy. apply nth_indep. easy.
  - apply IH with (rows := rows'); try easy; [lia|]. intros i Hi. rewrite <- El. replace (off + length l + i) with (off + (length l + i)) by lia.
    rewrite Hx by (cbn [concat]; rewrite app_length; lia). cbn [concat]. rewrite app_nth2 by lia. f_equal. lia.
Qed.
Lemma env_other cs : forall e w, ~ In w (map fst cs) -> fold_left (fun e k => put e (fst k) (snd k)) cs e w = e w.
Proof.
  induction cs as [|[a v] cs IH]; intros e w H; [easy|]. cbn [fold_left fst snd]. rewrite IH by (intro I; apply H; now right). unfold put.
  destruct (Nat.eqb_spec w a) as [->|]; [exfalso; apply H; now left|easy].
Qed.
Lemma env_in cs : NoDup (map fst cs) -> forall e w v, In (w, v) cs -> fold_left (fun e k => put e (fst k) (snd k)) cs e w = v.
Proof.
  induction cs as [|[a c] cs IH]; intros Nd e w v H; [easy|]. inversion Nd; subst. cbn [fold_left fst snd]. destruct H as [H|H].
  - injection H as -> ->. rewrite env_other by easy. unfold put. now rewrite Nat.eqb_refl.
  - now apply IH.
Qed.
End Run.

Lemma find_col_ok st name c : first_named st name c -> find_col st name = Ok c.
Proof.
  intros (p & q & -> & <- & F). unfold find_col. induction F as [|d p Hd _ IH]; cbn [app find].
  - now rewrite bytes_eq_refl.
  - destruct (bytes_eq (iName d) (iName c)) eqn:E; [apply bytes_eq_iff in E; congruence|]. exact IH.
Qed.
Lemma find_cols_ok st ins cs : Forall2 (first_named st) ins cs -> mapM (find_col st) ins = Ok cs.
Proof. induction 1 as [|n c ins cs H _ IH]; [easy|]. cbn [mapM]. rewrite (find_col_ok H). cbn [bind]. rewrite IH. easy. Qed.

Theorem parse_mod st gates ins lits types cs rows vc vl vs b :
  Forall2 (first_named st) ins cs -> Forall2 (fun c l => length l = iBits c) cs rows ->
  Forall2 (fun cl v => col_value (iType (fst cl)) (snd cl) v) (combine cs rows) vc ->
  length lits = length types -> Forall2 (fun l v => lit_value (fst l) (snd l) v) (combine types lits) vl ->
  gates <> [] -> v_run_mod (vc ++ vl) gates = Some vs -> last vs (VBin []) = VBool b ->
  exists c, parse st gates ins lits types = Ok c /\ cSizes c = map iBits cs /\ cir_eval c rows = b.
Proof.
  intros HF HL HC LT HV N HR Lb. unfold parse. rewrite (find_cols_ok HF). cbn [bind]. rewrite LT, Nat.eqb_refl. cbn [negb throw_if bind].
  set (nin := fold_right (fun c n => iBits c + n) 0 cs). set (x := fun i => nth i (concat rows) false). set (s0 := PSt (nin + 1) [] []).
  assert (Ln : length (concat rows) = nin).
  { unfold nin. clear - HL. induction HL as [|c l cs rows E _ IH]; [easy|]. cbn [concat fold_right]. rewrite app_length. lia. }
  assert (G0 : good nin s0) by (unfold s0; split; [cbn; lia|]; split; [easy|]; split; [constructor|easy]).
  assert (S0 : sound nin x s0 (in_bundles 0 cs) vc) by (apply ins_ok with (rows := rows); try easy).
  destruct (lits_ok HV G0 S0) as (bs1 & s1 & E1 & G1 & S1). rewrite E1. cbn [bind fst snd].
  destruct (gates_ok G1 S1 HR N Lb) as (r & Er & (Nd & Cr) & Hr). rewrite Er. cbn [bind].
  eexists. split; [reflexivity|]. split; [easy|]. unfold cir_eval, cir_env. cbn [cOps cConst cOut]. apply Hr. split.
  - intros i Hi. rewrite env_other; [easy|]. intro I. specialize (Cr i I). lia.
  - intros w v I. now apply env_in.
Qed.

(* what is rejected *)
Lemma parse_gates_order out gs : forall bs s r, parse_gates out bs gs s = Ok r -> gates_in_order (length bs) gs /\ length (fst r) = length bs + length gs.
Proof.
  induction gs as [|g gs IH]; intros bs s r H; cbn [parse_gates] in H; [injection H as <-; split; [intros [|i] g; easy|cbn; lia]|].
  destruct (parse_gate _ out bs g s) as [[bs' s']| | |] eqn:E; try discriminate H. cbn [bind fst snd] in H.
  assert (P : aIn0 g < length bs /\ aIn1 g < length bs /\ aOut g = length bs /\ 1 <= aType g <= 8 /\ length bs' = S (length bs)).
  { unfold parse_gate in E. destruct (Nat.leb_spec (length bs) (aIn0 g)); [discriminate E|]. destruct (Nat.leb_spec (length bs) (aIn1 g)); [discriminate E|].
    destruct (Nat.eqb_spec (aOut g) (length bs)) as [->|]; [|discriminate E]. cbn [orb negb throw_if bind] in E.
    destruct (get bs (aIn0 g)) as [a| | |]; try discriminate E. destruct (get bs (aIn1 g)) as [b| | |]; try discriminate E. cbn [bind] in E.
    assert (X : 1 <= aType g <= 8 /\ exists o, bs' = bs ++ [o]); [|destruct X as (X & o & ->); rewrite app_length; cbn; lia].
    destruct (aType g) as [|[|[|[|[|[|[|[|[|t]]]]]]]]]; try discriminate E; (split; [lia|]).
    all: repeat match type of E with
      | context [both ?u ?v ?w] => destruct (both u v w) as [[[? ?] ?]| | |]; try discriminate E; cbn [bind] in E
      | context [build_ok ?u ?v] => destruct (build_ok u v) as [[]| | |]; try discriminate E; cbn [bind] in E
      | context [bool_out ?u ?v ?w] => destruct (bool_out u v w)
      | context [throw_if ?u] => destruct u; cbn [throw_if bind] in E; try discriminate E
      | context [temps ?u ?v] => destruct (temps u v)
      end; injection E as <- _; eexists; reflexivity. }
  destruct P as (P1 & P2 & P3 & P4 & P5). destruct (IH _ _ _ H) as [Q1 Q2]. rewrite P5 in *. split; [|cbn [length]; lia].
  intros [|i] g' Hi; cbn in Hi; [injection Hi as <-; lia|]. specialize (Q1 i g' Hi). lia.
Qed.
Lemma parse_lits_length lits : forall bs s r, parse_lits bs lits s = Ok r -> length (fst r) = length bs + length lits.
Proof.
  induction lits as [|l lits IH]; intros bs s r H; cbn [parse_lits] in H; [injection H as <-; cbn; lia|].
  destruct (literal (fst l) (snd l)) as [v| | |]; try discriminate H. cbn [bind] in H. destruct (consts s v) as [ws s']. rewrite (IH _ _ _ H), app_length. cbn. lia.
Qed.
Lemma in_bundles_length cs : forall k, length (in_bundles k cs) = length cs.
Proof. induction cs as [|c cs IH]; intro k; cbn; [easy|]. now rewrite IH. Qed.
Theorem parse_rejects st gates ins lits types c : parse st gates ins lits types = Ok c ->
  gates_in_order (length ins + length lits) gates /\ length lits = length types /\
  Forall (fun name => exists d, In d st /\ iName d = name) ins.
Proof.
  unfold parse. destruct (mapM (find_col st) ins) as [cs| | |] eqn:E; cbn [bind]; try easy.
  destruct (Nat.eqb_spec (length lits) (length types)) as [L|]; cbn [negb throw_if bind]; [|easy].
  destruct (parse_lits _ _ _) as [[bs s]| | |] eqn:E1; cbn [bind fst snd]; try easy.
  destruct (parse_gates _ _ _ _) as [r| | |] eqn:E2; cbn [bind]; try easy. intros _.
  apply parse_gates_order in E2 as [E2 _]. apply parse_lits_length in E1. cbn [fst] in E1. rewrite in_bundles_length, combine_length in E1.
  pose proof (mapM_length E) as Lc. replace (length bs) with (length ins + length lits) in E2 by lia. split; [easy|]. split; [easy|].
  clear - E. revert cs E. induction ins as [|n ins IH]; intros cs E; [constructor|]. cbn [mapM] in E.
  destruct (find_col st n) as [d| | |] eqn:Ef; cbn [bind] in E; try discriminate E. destruct (mapM (find_col st) ins) as [cs'| | |] eqn:Em; cbn [bind] in E; try discriminate E.
  constructor; [|now apply IH with (cs := cs')]. unfold find_col in Ef. destruct (find _ st) as [d'|] eqn:Efd; [|discriminate Ef]. apply find_some in Efd as [I B].
  exists d'. split; [easy|]. now apply bytes_eq_iff.
Qed.

Lemma find_col_first st name c : find_col st name = Ok c -> first_named st name c.
Proof.
  unfold find_col. induction st as [|d st IH]; cbn [find]; [discriminate|]. destruct (bytes_eq (iName d) name) eqn:E.
  - intros [= <-]. exists [], st. split; [reflexivity|]. split; [now apply bytes_eq_iff|constructor].
  - intros H. destruct (IH H) as (p & q & -> & N & F). exists (d :: p), q. split; [reflexivity|]. split; [exact N|].
    constructor; [|exact F]. intros X. apply bytes_eq_iff in X. congruence.
Qed.
Definition kind (w : whb) : nat * nat := (hType w, length (hWires w)).
Lemma get_bundle_len b size s r : length (hWires b) <= size -> get_bundle b size s = Ok r -> length (fst r) = size \/ length (fst r) = length (hWires b).
Proof.
  intros L. unfold get_bundle. destruct (hType b) as [|[|[|t]]].
  - destruct (hWires b) as [|w ws] eqn:E; cbn [length] in *.
    + destruct (size - 0 =? 0); [|discriminate]. intros [= <-]. cbn. auto.
    + intros [= <-]. left. cbn [fst app length]. rewrite app_length, repeat_length. lia.
  - unfold consts. intros [= <-]. left. cbn [fst]. rewrite app_length, seq_length, repeat_length. lia.
  - unfold consts. intros [= <-]. left. cbn [fst]. rewrite app_length, seq_length, repeat_length. lia.
  - intros [= <-]. auto.
Qed.
Lemma both_len a b s x y s' : both a b s = Ok (x, y, s') -> length x = length y -> length x = Nat.max (length (hWires a)) (length (hWires b)).
Proof.
  unfold both. intros H L. set (size := Nat.max _ _) in *.
  destruct (get_bundle a size s) as [r| | |] eqn:E1; try discriminate H. cbn [bind] in H.
  destruct (get_bundle b size (snd r)) as [t| | |] eqn:E2; try discriminate H. cbn [bind] in H. injection H as <- <- <-.
  apply get_bundle_len in E1; [|unfold size; lia]. apply get_bundle_len in E2; [|unfold size; lia]. unfold size in *. lia.
Qed.
Lemma parse_gates_typed out gs : forall bs s r, parse_gates out bs gs s = Ok r -> well_typed (map kind bs) gs.
Proof.
  induction gs as [|g gs IH]; intros bs s r H; cbn [parse_gates] in H; [exact I|].
  destruct (parse_gate _ out bs g s) as [[bs' s']| | |] eqn:E; try discriminate H. cbn [bind fst snd] in H. cbn [well_typed].
  unfold parse_gate in E. destruct (Nat.leb_spec (length bs) (aIn0 g)); [discriminate E|]. destruct (Nat.leb_spec (length bs) (aIn1 g)); [discriminate E|].
  destruct (Nat.eqb_spec (aOut g) (length bs)) as [_|]; [|discriminate E]. cbn [orb negb throw_if bind] in E.
  unfold get in E. rewrite !nth_error_map.
  destruct (nth_error bs (aIn0 g)) as [a|]; try discriminate E. destruct (nth_error bs (aIn1 g)) as [b|]; try discriminate E. cbn [bind option_map] in *.
  exists (kind a), (kind b). split; [reflexivity|]. split; [reflexivity|]. cbn [kind fst snd].
  assert (X : exists o, bs' = bs ++ [o] /\ kind o = match aType g with 5 => (0, Nat.max (length (hWires a)) (length (hWires b))) | _ => (1, 1) end /\
    match aType g with 3 | 4 | 8 => length (hWires a) = 1 /\ length (hWires b) = 1 | 5 => gs <> [] | 6 | 7 => hType a = 0 \/ hType b = 0 | _ => True end).
  { destruct (aType g) as [|[|[|[|[|[|[|[|[|t]]]]]]]]]; try discriminate E.
    all: repeat match type of E with
      | context [both ?u ?v ?w] => destruct (both u v w) as [[[? ?] ?]| | |] eqn:?; try discriminate E; cbn [bind] in E
      | context [build_ok ?u ?v] => destruct (build_ok u v) as [[]| | |] eqn:?; try discriminate E; cbn [bind] in E
      | context [bool_out ?u ?v ?w] => destruct (bool_out u v w)
      | context [throw_if ?u] => destruct u eqn:?; cbn [throw_if bind] in E; try discriminate E
      | context [temps ?u ?v] => destruct (temps u v) eqn:?
      end; injection E as <- _; eexists; (split; [reflexivity|]); cbn [kind hType hWires length]; (split; [try reflexivity|]); try exact I.
    all: try (repeat match goal with H : _ || _ = false |- _ => apply Bool.orb_false_iff in H as [? ?] | H : negb _ = false |- _ => apply Bool.negb_false_iff, Nat.eqb_eq in H end; split; assumption).
    all: try (match goal with H : negb _ && negb _ = false |- _ => apply Bool.andb_false_iff in H as [H|H]; apply Bool.negb_false_iff, Nat.eqb_eq in H; auto end).
    - match goal with H : build_ok ?u ?v = Ok _, H2 : both _ _ _ = Ok _, H3 : temps _ _ = (?o, _) |- _ =>
        unfold build_ok in H; destruct (Nat.eqb_spec (length u) (length v)) as [Q|]; [|discriminate H]; apply (both_len H2) in Q end.
      repeat match goal with H : temps _ _ = _ |- _ => unfold temps in H; injection H as <- _ end. unfold kind. cbn [hWires hType]. rewrite seq_length. congruence.
    - intros ->. discriminate. }
  destruct X as (o & -> & K & X). split; [exact X|]. specialize (IH _ _ _ H). rewrite map_app in IH. cbn [map] in IH. rewrite K in IH. exact IH.
Qed.
Lemma parse_lits_kinds lits : forall bs s r, parse_lits bs lits s = Ok r ->
  exists ks, map kind (fst r) = map kind bs ++ ks /\ Forall2 (fun l k => exists v, literal (fst l) (snd l) = Ok v /\ k = (fst l, length v)) lits ks.
Proof.
  induction lits as [|l lits IH]; intros bs s r H; cbn [parse_lits] in H; [injection H as <-; exists []; rewrite app_nil_r; auto|].
  destruct (literal (fst l) (snd l)) as [v| | |] eqn:E; try discriminate H. cbn [bind] in H. unfold consts in H.
  destruct (IH _ _ _ H) as (ks & K & F). exists ((fst l, length v) :: ks). rewrite K, map_app, <- app_assoc. cbn [map app].
  split; [f_equal; f_equal; unfold kind; cbn [hType hWires]; rewrite seq_length; reflexivity|]. constructor; [eauto|exact F].
Qed.
Lemma in_bundles_kinds cs : forall n, map kind (in_bundles n cs) = map (fun c => (iType c, iBits c)) cs.
Proof. induction cs as [|c cs IH]; intros n; cbn [in_bundles map]; [reflexivity|]. rewrite IH. unfold kind. cbn. rewrite seq_length. reflexivity. Qed.
Theorem parse_typed st gates ins lits types c : parse st gates ins lits types = Ok c ->
  exists ks0 ks1, Forall2 (fun name k => exists d, first_named st name d /\ k = (iType d, iBits d)) ins ks0 /\
    Forall2 (fun l k => exists v, literal (fst l) (snd l) = Ok v /\ k = (fst l, length v)) (combine types lits) ks1 /\
    well_typed (ks0 ++ ks1) gates.
Proof.
  unfold parse. destruct (mapM (find_col st) ins) as [cs| | |] eqn:E; cbn [bind]; try easy.
  destruct (Nat.eqb_spec (length lits) (length types)) as [L|]; cbn [negb throw_if bind]; [|easy].
  destruct (parse_lits _ _ _) as [[bs s]| | |] eqn:E1; cbn [bind fst snd]; try easy.
  destruct (parse_gates _ _ _ _) as [r| | |] eqn:E2; cbn [bind]; try easy. intros _.
  apply parse_gates_typed in E2. destruct (parse_lits_kinds E1) as (ks & K & F). cbn [fst] in K. rewrite in_bundles_kinds in K. rewrite K in E2.
  exists (map (fun c => (iType c, iBits c)) cs), ks. split; [|split; [exact F|exact E2]].
  clear - E. revert cs E. induction ins as [|n ins IH]; intros cs E; cbn [mapM] in E; [injection E as <-; constructor|].
  destruct (find_col st n) as [d| | |] eqn:Ef; cbn [bind] in E; try discriminate E. destruct (mapM (find_col st) ins) as [cs'| | |] eqn:Em; cbn [bind] in E; try discriminate E.
  injection E as <-. cbn [map]. constructor; [|now apply IH]. exists d. split; [|reflexivity]. now apply find_col_first.
Qed.


(* the operators on numbers *)
Definition v_ok (v : value) : Prop := match v with VInt w z => 1 <= w /\ fits w z | VStr s => bytes s | _ => True end.
Lemma unsigned_bound v : v_ok v -> is_int v = false -> (0 <= v_num v < 2 ^ Z.of_nat (v_width v))%Z.
Proof.
  destruct v as [w z|b|s|l]; cbn [v_ok is_int v_num v_width]; intros H I; try easy.
  - destruct b; cbn; lia.
  - now apply str_num_bound.
  - apply bits_num_bound.
Qed.
Lemma wrap_exact v W : v_ok v -> v_width v <= W -> 1 <= W -> (is_int v = false -> v_width v < W) -> wrap W (v_num v) = v_num v.
Proof.
  intros H L W1 N. apply wrap_id; [easy|]. destruct (is_int v) eqn:I.
  - destruct v as [w z| | |]; try discriminate I. cbn [v_ok v_num v_width] in *. destruct H. now apply fits_mono with (a := w).
  - pose proof (unsigned_bound H I) as B. specialize (N eq_refl). unfold fits.
    assert (2 ^ Z.of_nat (v_width v) <= 2 ^ (Z.of_nat W - 1))%Z by (apply Z.pow_le_mono_r; lia). lia.
Qed.
Lemma cmp_exact a b : v_ok a -> v_ok b -> comparable a b = true -> is_int a || is_int b = true ->
  wrap (Nat.max (v_width a) (v_width b)) (v_num a) = v_num a /\ wrap (Nat.max (v_width a) (v_width b)) (v_num b) = v_num b.
Proof.
  intros Ha Hb C I. unfold comparable in C. apply andb_true_iff in C as [Wd C]. destruct (widen_facts Wd) as (W1 & _).
  split; (apply wrap_exact; [easy|lia|easy|]); intro X; rewrite X in *.
  - cbn [orb] in I. rewrite I in C. apply Nat.ltb_lt in C. lia.
  - rewrite orb_false_r in I. rewrite I in C. apply Nat.ltb_lt in C. lia.
Qed.
Lemma eq_exact a b : v_ok a -> v_ok b -> comparable a b = true ->
  (wrap (Nat.max (v_width a) (v_width b)) (v_num a) =? wrap (Nat.max (v_width a) (v_width b)) (v_num b))%Z = (v_num a =? v_num b)%Z.
Proof.
  intros Ha Hb C. destruct (is_int a || is_int b) eqn:I; [destruct (cmp_exact Ha Hb C I) as [-> ->]; easy|].
  apply orb_false_iff in I as [Ia Ib]. pose proof (unsigned_bound Ha Ia) as Ba. pose proof (unsigned_bound Hb Ib) as Bb. set (W := Nat.max _ _).
  apply eq_true_iff_eq. rewrite !Z.eqb_eq. split; [|congruence]. intro E.
  pose proof (pow2mono (a := v_width a) (b := W) ltac:(lia)). pose proof (pow2mono (a := v_width b) (b := W) ltac:(lia)).
  rewrite <- (Z.mod_small (v_num a) (2 ^ Z.of_nat W)), <- (Z.mod_small (v_num b) (2 ^ Z.of_nat W)) by lia. rewrite <- wrap_mod, E, wrap_mod. easy.
Qed.
Lemma v_op_exact t a b v : v_ok a -> v_ok b -> v_op t a b = Some v -> v_op_mod t a b = Some v /\ v_ok v.
Proof.
  intros Ha Hb H. assert (CW : comparable a b = true -> widen a b = true) by (unfold comparable; rewrite andb_true_iff; easy).
  destruct t as [|[|[|[|[|[|[|[|[|t]]]]]]]]]; cbn [v_op v_op_mod] in *; try discriminate H.
  - destruct (comparable a b) eqn:C; [|easy]. rewrite (CW eq_refl), eq_exact by easy. injection H as <-. easy.
  - destruct (comparable a b) eqn:C; [|easy]. rewrite (CW eq_refl), eq_exact by easy. injection H as <-. easy.
  - split; [easy|]. destruct a, b; try discriminate H. injection H as <-. easy.
  - split; [easy|]. destruct a, b; try discriminate H. injection H as <-. easy.
  - split; [easy|]. destruct (widen a b) eqn:W; [|easy]. injection H as <-. destruct (widen_facts W) as (W1 & _). split; [easy|]. now apply wrap_fits.
  - destruct (comparable a b) eqn:C; [|easy]. cbn [andb] in H. rewrite (CW eq_refl). cbn [andb]. destruct (is_int a || is_int b) eqn:I; [|easy].
    destruct (cmp_exact Ha Hb C I) as [-> ->]. injection H as <-. easy.
  - destruct (comparable a b) eqn:C; [|easy]. cbn [andb] in H. rewrite (CW eq_refl). cbn [andb]. destruct (is_int a || is_int b) eqn:I; [|easy].
    destruct (cmp_exact Ha Hb C I) as [-> ->]. injection H as <-. easy.
  - split; [easy|]. destruct a, b; try discriminate H. injection H as <-. easy.
Qed.
Lemma v_run_exact gs : forall vs r, Forall v_ok vs -> v_run vs gs = Some r -> v_run_mod vs gs = Some r.
Proof.
  unfold v_run, v_run_mod. induction gs as [|g gs IH]; intros vs r F H; cbn [v_runs] in *; [easy|].
  destruct (nth_error vs (aIn0 g)) as [a|] eqn:Ea; [|easy]. destruct (nth_error vs (aIn1 g)) as [b|] eqn:Eb; [|easy]. destruct (aOut g =? length vs); [|easy].
  destruct (v_op (aType g) a b) as [v|] eqn:Ev; [|easy]. rewrite Forall_forall in F.
  destruct (v_op_exact (F a (nth_error_In _ _ Ea)) (F b (nth_error_In _ _ Eb)) Ev) as [-> Hv]. apply IH; [|easy].
  apply Forall_app. split; [now apply Forall_forall|now constructor].
Qed.
Lemma repr_ok v ty l : repr v ty l -> v_ok v.
Proof.
  destruct v; cbn [repr v_ok]; try easy. intros (_ & N & -> & ->). split; [destruct l; [now contradict N|cbn; lia]|now apply two_comp_fits].
Qed.
Theorem parse_ok st gates ins lits types cs rows vc vl vs b :
  Forall2 (first_named st) ins cs -> Forall2 (fun c l => length l = iBits c) cs rows ->
  Forall2 (fun cl v => col_value (iType (fst cl)) (snd cl) v) (combine cs rows) vc ->
  length lits = length types -> Forall2 (fun l v => lit_value (fst l) (snd l) v) (combine types lits) vl ->
  gates <> [] -> v_run (vc ++ vl) gates = Some vs -> last vs (VBin []) = VBool b ->
  exists c, parse st gates ins lits types = Ok c /\ cSizes c = map iBits cs /\ cir_eval c rows = b.
Proof.
  intros HF HL HC LT HV N HR Lb. apply (parse_mod (vc := vc) (vl := vl) (vs := vs)); try easy. apply v_run_exact; [|easy]. apply Forall_app. split.
  - clear - HC. induction HC as [|p v ps vc H _ IH]; constructor; [|easy]. exact (repr_ok (col_repr H)).
  - clear - HV. induction HV as [|p v ps vl H _ IH]; constructor; [|easy]. destruct (literal_ok H) as (l & _ & R). exact (repr_ok R).
Qed.
