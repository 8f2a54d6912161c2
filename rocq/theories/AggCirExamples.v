(* Builders that meet the contracts of AggCirSpec: a multiplexer and a ripple carry adder.  They only
   serve to show that the contracts can be met; the code uses those of BetaLibrary. *)
From Verif Require Import Base GmwModel GmwSpec AggModel AggCirModel AggCirSpec AggCirProofs AggCirBuild AggCirAdd.

(* temp = ifFalse xor ifTrue, temp = temp and choice, out = ifFalse xor temp *)
Definition lib_mux : multiplexer := fun c t f ch out temp =>
  do c <- each (length temp) (fun i c => do a <- get f i; do b <- get t i; do o <- get temp i; Ok (cir_gate a b GXor o c)) c;
  do c <- each (length temp) (fun i c => do a <- get temp i; do b <- get ch 0; do o <- get temp i; Ok (cir_gate a b GAnd o c)) c;
  each (length out) (fun i c => do a <- get f i; do b <- get temp i; do o <- get out i; Ok (cir_gate a b GXor o c)) c.
Lemma lib_mux_ok k : multiplexer_ok k lib_mux.
Proof.
  intros c t f ch out temp L1 L2 L3 L4 W1 W2 W3 W4 W5 ND.
  pose proof (nodup_app_apart ND) as A1. pose proof (nodup_app_r ND) as ND2. pose proof (nodup_app_apart ND2) as A2.
  pose proof (nodup_app_r ND2) as ND3. pose proof (nodup_app_apart ND3) as A3. pose proof (nodup_app_r ND3) as ND4. pose proof (nodup_app_apart ND4) as A4.
  assert (Q : forall w, In w t -> ~ (In w f \/ In w [ch] \/ In w out \/ In w temp)) by (intros w H; specialize (A1 w H); rewrite !in_app_iff in A1; exact A1).
  assert (Q2 : forall w, In w f -> ~ (In w [ch] \/ In w out \/ In w temp)) by (intros w H; specialize (A2 w H); rewrite !in_app_iff in A2; exact A2).
  assert (Q3 : forall w, In w [ch] -> ~ (In w out \/ In w temp)) by (intros w H; specialize (A3 w H); rewrite !in_app_iff in A3; exact A3).
  assert (Hc : In ch [ch]) by (left; reflexivity).
  pose proof (nodup_app_l ND4) as No. pose proof (nodup_app_r ND4) as Nm.
  destruct (@mux_rows c t f ch out temp temp k) as (A & B); auto.
  - intros w H K. apply (Q w K). tauto.
  - intros w H K. apply (Q2 w K). tauto.
  - intros K. apply (Q3 ch Hc). tauto.
  - intros w H K. apply (Q2 w K). tauto.
  - intros K. apply (Q3 ch Hc). tauto.
  - intros w H K. apply (Q2 w K). tauto.
  - do 3 eexists. split; [|split; [|exact B]].
    + unfold lib_mux.
      rewrite (@each_row GXor (get f) (get t) (get temp) f t temp c) by (try lia; intros i Hi; rewrite !(@get_nth _ _ _ 0) by lia; auto). cbn [bind].
      set (c1 := Circuit _ _ _ _).
      rewrite (@each_row GAnd (get temp) (fun _ => get [ch] 0) (get temp) temp (repeat ch k) temp c1).
      * cbn [bind]. set (c2 := Circuit (cWires c1) _ _ _).
        rewrite (@each_row GXor (get f) (get temp) (get out) f temp out c2) by (try lia; intros i Hi; rewrite !(@get_nth _ _ _ 0) by lia; auto).
        unfold c2, c1. cbn [cWires cIns cOuts cGates]. rewrite <- !app_assoc. reflexivity.
      * reflexivity.
      * rewrite repeat_length. lia.
      * intros i Hi. rewrite !(@get_nth _ _ _ 0) by (cbn [length]; lia). split; [reflexivity|]. split; [|reflexivity]. cbn [nth]. f_equal. symmetry. eapply repeat_spec, nth_In. rewrite repeat_length. lia.
    + apply frag_appends.
      * apply (frag_weaken A); [auto|]. intros x Hx. left. rewrite !in_app_iff in *. tauto.
      * intros w Hw. rewrite !in_app_iff in Hw. destruct Hw as [Hw|[Hw|Hw]]; auto.
      * intros w Hw K. rewrite !in_app_iff in *. destruct K as [K|[K|K]]; [apply (Q w K)|apply (Q2 w K)|apply (Q3 w K)]; tauto.
Qed.

(* ripple carry: x = a xor c, o = b xor c, y = (x and o) xor c is the next carry, o = a xor o *)
Fixpoint ripple (cy : nat) (a b o t1 t2 : list nat) : list gate :=
  match a, b, o, t1, t2 with
  | a :: a', b :: b', o :: o', x :: t1', y :: t2' =>
    [Gate a cy GXor x; Gate b cy GXor o; Gate x o GAnd y; Gate y cy GXor y; Gate a o GXor o] ++ ripple y a' b' o' t1' t2'
  | _, _, _, _, _ => []
  end.
Definition ripple_adder : adder := fun c a b out t =>
  match a with
  | [] => Ok c
  | a0 :: _ => Ok (Circuit (cWires c + 1) (cIns c) (cOuts c) (cGates c ++ Gate a0 a0 GXor (cWires c) ::
      ripple (cWires c) a b out (firstn (length out) t) (skipn (length out) t)))
  end.

Lemma ripple_in g : forall a b o t1 t2 cy, In g (ripple cy a b o t1 t2) ->
  gType g <> GOther /\ (In (gIn0 g) (a ++ b ++ t1 ++ t2)) /\ (In (gIn1 g) (cy :: o ++ t2)) /\ In (gOut g) (o ++ t1 ++ t2).
Proof.
  induction a as [|a l IH]; intros [|b b'] [|o o'] [|x t1] [|y t2] cy H; cbn [ripple] in H; try contradiction.
  apply in_app_or in H. destruct H as [H|H].
  - destruct H as [<-|[<-|[<-|[<-|[<-|[]]]]]]; cbn [gType gIn0 gIn1 gOut]; (split; [discriminate|]); repeat rewrite in_app_iff; cbn [In]; repeat rewrite in_app_iff; cbn [In]; tauto.
  - apply IH in H. destruct H as (T & H1 & H2 & H3). split; [exact T|]. cbn [In] in *. repeat rewrite in_app_iff in *. cbn [In]. repeat rewrite in_app_iff in *. tauto.
Qed.
Lemma ripple_written : forall a b o t1 t2 cy, length b = length a -> length o = length a -> length t1 = length a -> length t2 = length a ->
  forall w, In w o -> written (ripple cy a b o t1 t2) w.
Proof.
  induction a as [|a l IH]; intros [|b b'] [|o o'] [|x t1] [|y t2] cy L1 L2 L3 L4 w Hw; try discriminate; [destruct Hw|]. cbn [ripple length] in *.
  destruct Hw as [->|Hw].
  - exists (Gate b cy GXor w). split; [right; left; reflexivity|reflexivity].
  - destruct (IH b' o' t1 t2 y) with (w := w) as (g & Hg & E); try lia; auto. exists g. split; [apply in_or_app; right; exact Hg|exact E].
Qed.
Lemma ripple_def I : forall a b o t1 t2 cy E, (forall w, In w (a ++ b) -> In w E) -> In cy E -> (forall w, In w (o ++ t1 ++ t2) -> ~ In w I) ->
  well_def I E (ripple cy a b o t1 t2).
Proof.
  induction a as [|a l IH]; intros [|b b'] [|o o'] [|x t1] [|y t2] cy E HE Hcy HI; cbn [ripple]; try exact Logic.I.
  cbn [app well_def gOut].
  assert (Ha : In a E) by (apply HE; left; reflexivity). assert (Hb : In b E) by (apply HE; apply in_or_app; right; left; reflexivity).
  assert (Hx : ~ In x I) by (apply HI; apply in_or_app; right; left; reflexivity). assert (Ho : ~ In o I) by (apply HI; left; reflexivity).
  assert (Hy : ~ In y I) by (apply HI; apply in_or_app; right; right; apply in_or_app; right; left; reflexivity).
  split; [intros i [->|[_ ->]]; assumption|]. split; [exact Hx|].
  split; [intros i [->|[_ ->]]; right; assumption|]. split; [exact Ho|].
  split; [intros i [->|[_ ->]]; cbn [gIn0 gIn1 In]; auto 9|]. split; [exact Hy|].
  split; [intros i [->|[_ ->]]; cbn [gIn0 gIn1 In]; auto 9|]. split; [exact Hy|].
  split; [intros i [->|[_ ->]]; cbn [gIn0 gIn1 In]; auto 9|]. split; [exact Ho|].
  apply IH.
  - intros w Hw. do 5 right. apply HE. cbn [app]. right. apply in_app_or in Hw. apply in_or_app. destruct Hw; [left|right; right]; assumption.
  - right. left. reflexivity.
  - intros w Hw. apply HI. cbn [app]. right. rewrite !in_app_iff in *. repeat (progress (cbn [In]; repeat rewrite in_app_iff)); tauto.
Qed.
Lemma ripple_eval : forall a b o t1 t2 cy e, length b = length a -> length o = length a -> length t1 = length a -> length t2 = length a ->
  NoDup (a ++ b ++ o ++ t1 ++ t2) -> ~ In cy (a ++ b ++ o ++ t1 ++ t2) ->
  map (eval (ripple cy a b o t1 t2) e) o = nbits (length o) (bnum (map e a) + bnum (map e b) + N.b2n (e cy)).
Proof.
  induction a as [|a l IH]; intros [|b b'] [|o o'] [|x t1] [|y t2] cy e L1 L2 L3 L4 ND NC; try discriminate; [reflexivity|]. cbn [length] in *.
  assert (P : forall (w : nat) l1 l2, NoDup (l1 ++ w :: l2) -> ~ In w (l1 ++ l2)) by (intros; apply NoDup_remove_2; assumption).
  cbn [app] in ND.
  pose proof (P a [] _ ND) as Pa. cbn [app] in Pa.
  pose proof (P b (a :: l) _ ND) as Pb.
  assert (ND2 : NoDup ((a :: l ++ b :: b') ++ o :: o' ++ (x :: t1) ++ y :: t2)) by (cbn [app] in *; rewrite <- app_assoc; exact ND).
  pose proof (P o _ _ ND2) as Po.
  assert (ND3 : NoDup ((a :: l ++ b :: b' ++ o :: o') ++ x :: t1 ++ y :: t2)) by (cbn [app] in *; rewrite <- app_assoc; cbn [app]; rewrite <- app_assoc; exact ND).
  pose proof (P x _ _ ND3) as Px.
  assert (ND4 : NoDup ((a :: l ++ b :: b' ++ o :: o' ++ x :: t1) ++ y :: t2)).
  { cbn [app] in *. rewrite <- app_assoc. cbn [app]. rewrite <- app_assoc. cbn [app]. rewrite <- app_assoc. exact ND. }
  pose proof (P y _ _ ND4) as Py.
  repeat (progress (repeat rewrite in_app_iff in *; cbn [In app] in * )).
  assert (N1 : a <> x /\ a <> o /\ a <> y /\ b <> x /\ b <> o /\ b <> y) by (refine (conj _ (conj _ (conj _ (conj _ (conj _ _))))); intros E; first [solve [apply Pa; rewrite E; auto 15]|solve [apply Pb; rewrite E; auto 15]]).
  assert (N2 : cy <> x /\ cy <> o /\ cy <> y /\ x <> o /\ x <> y /\ o <> y) by (refine (conj _ (conj _ (conj _ (conj _ (conj _ _))))); intros E; first [solve [apply NC; rewrite E; auto 15]|solve [apply Px; rewrite E; auto 15]|solve [apply Py; rewrite <- E; auto 15]|solve [apply Po; rewrite E; auto 15]]).
  cbn [ripple]. rewrite eval_app.
  set (e1 := eval [Gate a cy GXor x; Gate b cy GXor o; Gate x o GAnd y; Gate y cy GXor y; Gate a o GXor o] e).
  assert (FR : forall w, w <> x -> w <> o -> w <> y -> e1 w = e w).
  { intros w H1 H2 H3. apply eval_frame. intros g [<-|[<-|[<-|[<-|[<-|[]]]]]]; cbn [gOut]; auto. }
  assert (Eo : e1 o = xorb (e a) (xorb (e b) (e cy))).
  { unfold e1, eval. cbn [fold_left]. unfold step, put. cbn [gOut gIn0 gIn1 gType gfun]. rewrite !Nat.eqb_refl.
    clear -N1 N2. destruct N1 as (? & ? & ? & ? & ? & ?), N2 as (? & ? & ? & ? & ? & ?).
    repeat match goal with |- context [?u =? ?v] => destruct (Nat.eqb_spec u v); [exfalso; congruence|] end. reflexivity. }
  assert (Ey : e1 y = xorb (xorb (e a) (e cy) && xorb (e b) (e cy)) (e cy)).
  { unfold e1, eval. cbn [fold_left]. unfold step, put. cbn [gOut gIn0 gIn1 gType gfun]. rewrite !Nat.eqb_refl.
    clear -N1 N2. destruct N1 as (? & ? & ? & ? & ? & ?), N2 as (? & ? & ? & ? & ? & ?).
    repeat match goal with |- context [?u =? ?v] => destruct (Nat.eqb_spec u v); [exfalso; congruence|] end. reflexivity. }
  cbn [map]. rewrite nbits_S. apply (f_equal2 cons).
  - rewrite eval_frame.
    + rewrite Eo. cbn [bnum]. rewrite <- N.bit0_odd. rewrite !N.add_bit0. rewrite !N.testbit_even_0. destruct (e a), (e b), (e cy); reflexivity.
    + intros g Hg K. apply ripple_in in Hg. destruct Hg as (_ & _ & _ & Hg). rewrite K in Hg. rewrite !in_app_iff in Hg. apply Po. clear -Hg. tauto.
  - rewrite (IH b' o' t1 t2 y e1 (eq_add_S _ _ L1) (eq_add_S _ _ L2) (eq_add_S _ _ L3) (eq_add_S _ _ L4)).
    + rewrite Ey. f_equal. rewrite (map_ext_in e1 e l), (map_ext_in e1 e b').
      * cbn [bnum]. rewrite N.div2_div. set (A := bnum (map e l)). set (B := bnum (map e b')).
        destruct (e a), (e b), (e cy); cbn [N.b2n xorb andb negb];
        clearbody A B; clear; match goal with |- (?u = ?v / 2)%N => first [apply (N.div_unique v 2 u 0); lia | apply (N.div_unique v 2 u 1); lia] end.
      * intros w Hw. apply FR; intros ->; [apply Px|apply Po|apply Py]; clear -Hw; tauto.
      * intros w Hw. apply FR; intros ->; [apply Px|apply Po|apply Py]; clear -Hw; tauto.
    + clear -ND.
      apply NoDup_cons_iff in ND. destruct ND as (_ & ND). apply NoDup_remove_1 in ND.
      rewrite app_assoc in ND. apply NoDup_remove_1 in ND. rewrite <- app_assoc in ND.
      rewrite !app_assoc in ND. rewrite <- !app_assoc in ND.
      replace (l ++ b' ++ o' ++ x :: t1 ++ y :: t2) with ((l ++ b' ++ o') ++ x :: t1 ++ y :: t2) in ND by (rewrite <- !app_assoc; reflexivity).
      apply NoDup_remove_1 in ND. rewrite app_assoc in ND. apply NoDup_remove_1 in ND. rewrite <- !app_assoc in ND. exact ND.
    + intros K. repeat rewrite in_app_iff in K. apply Py. clear -K. tauto.
Qed.

Lemma ripple_adder_ok : adder_ok ripple_adder.
Proof.
  intros n c a b out t L1 L2 L3 L4 W1 W2 W3 W4 ND. unfold ripple_adder. destruct a as [|a0 a'] eqn:Ea.
  - exists [], 0, c. cbn [length] in L1. subst n. destruct b; [|discriminate]. destruct out; [|discriminate]. split; [reflexivity|]. split; [|reflexivity].
    split; [rewrite Nat.add_0_r, app_nil_r; destruct c; reflexivity|]. split; [intros g []|]. split; [exact Logic.I|]. intros w [].
  - rewrite <- Ea in *. assert (Ha0 : In a0 a) by (rewrite Ea; left; reflexivity). clear Ea a'.
    set (t1 := firstn (length out) t). set (t2 := skipn (length out) t). set (gs := Gate a0 a0 GXor (cWires c) :: ripple (cWires c) a b out t1 t2).
    assert (Et : t = t1 ++ t2) by (symmetry; apply firstn_skipn). assert (Lt1 : length t1 = n) by (unfold t1; rewrite firstn_length; lia).
    assert (Lt2 : length t2 = n) by (unfold t2; rewrite skipn_length; lia).
    rewrite Et in ND, W4 |- *. clearbody t1 t2. clear Et t L4.
    exists gs, 1. eexists. split; [reflexivity|]. assert (HW : forall w, In w (a ++ b ++ out ++ t1 ++ t2) -> w < cWires c).
    { intros w Hw. rewrite in_app_iff in Hw. destruct Hw as [Hw|Hw]; [apply W1, Hw|]. rewrite in_app_iff in Hw. destruct Hw as [Hw|Hw]; [apply W2, Hw|]. rewrite in_app_iff in Hw. destruct Hw as [Hw|Hw]; [apply W3, Hw|apply W4, Hw]. }
    split; [|].
    + split; [reflexivity|]. split; [|split].
      * intros g [<-|Hg]; cbn [gType gIn0 gIn1 gOut].
        -- specialize (W1 a0 Ha0). split; [discriminate|]. split; [lia|]. right. lia.
        -- apply ripple_in in Hg. destruct Hg as (T & H1 & H2 & H3). split; [exact T|]. split; [split|left; exact H3].
           ++ assert (gIn0 g < cWires c); [apply HW; rewrite !in_app_iff in *; tauto|lia].
           ++ destruct H2 as [<-|H2]; [lia|]. assert (gIn1 g < cWires c); [apply HW; rewrite !in_app_iff in *; tauto|lia].
      * unfold gs. cbn [well_def gOut]. split; [intros i [->|[_ ->]]; cbn [gIn0 gIn1]; apply in_or_app; left; exact Ha0|].
        split; [intros K; specialize (HW (cWires c)); rewrite !in_app_iff in *; assert (cWires c < cWires c); [apply HW; tauto|lia]|].
        apply ripple_def; [intros w Hw; right; exact Hw|left; reflexivity|].
        intros w Hw K. rewrite app_assoc in ND. exact (nodup_app_apart ND K Hw).
      * intros w Hw. destruct (@ripple_written a b out t1 t2 (cWires c)) with (w := w) as (g & Hg & E); try lia; auto. exists g. split; [right; exact Hg|exact E].
    + intros e. unfold gs. change (eval (?g :: ?l) ?x) with (eval l (step x g)). 
      assert (NC : ~ In (cWires c) (a ++ b ++ out ++ t1 ++ t2)) by (intros K; apply HW in K; lia).
      change (map (eval (ripple (cWires c) a b out t1 t2) (step e (Gate a0 a0 GXor (cWires c)))) out = nbits n (bnum (map e a) + bnum (map e b))).
      rewrite ripple_eval; try lia; auto. rewrite L3. f_equal. unfold step, put. cbn [gOut gType gIn0 gIn1 gfun]. rewrite Nat.eqb_refl, xorb_nilpotent. cbn [N.b2n].
      rewrite N.add_0_r. f_equal; f_equal; apply map_ext_in; intros w Hw; (destruct (Nat.eqb_spec w (cWires c)) as [->|]; [exfalso; apply NC; rewrite !in_app_iff; tauto|reflexivity]).
Qed.
