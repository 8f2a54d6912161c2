From Verif Require Import Base GmwModel GmwSpec AggModel AggCirModel AggCirSpec.

Lemma eval_app gs hs e : eval (gs ++ hs) e = eval hs (eval gs e).
Proof. unfold eval. apply fold_left_app. Qed.

Lemma eval_frame gs : forall e w, (forall g, In g gs -> gOut g <> w) -> eval gs e w = e w.
Proof.
  induction gs as [|g gs IH]; intros e w H; [reflexivity|].
  change (eval (g :: gs) e) with (eval gs (step e g)). rewrite IH by (intros; apply H; right; assumption).
  unfold step, put. destruct (Nat.eqb_spec w (gOut g)) as [E|]; [|reflexivity].
  exfalso. apply (H g); [left; reflexivity|congruence].
Qed.

Definition written (gs : list gate) (w : nat) : Prop := exists g, In g gs /\ gOut g = w.

(* what holds of the circuit built so far: I are its inputs, D the wires with a value *)
Definition inv (I : list nat) (c : circuit) (D : list nat) : Prop :=
  well_def I I (cGates c) /\ (forall w, In w D -> In w I \/ written (cGates c) w) /\ (forall w, In w I -> w < cWires c) /\
  (forall g, In g (cGates c) -> gType g <> GOther /\ gIn0 g < cWires c /\ gIn1 g < cWires c /\ gOut g < cWires c).

Lemma well_def_grow gs : forall J I D E, well_def J D gs -> (forall w, In w D -> In w E) ->
  (forall g, In g gs -> ~ In (gOut g) I) -> well_def I E gs.
Proof.
  induction gs as [|g gs IH]; intros J I D E H HD HI; cbn [well_def] in *; [exact Logic.I|].
  destruct H as (H1 & _ & H3). split; [intros i Hi; apply HD, H1, Hi|]. split; [apply HI; left; reflexivity|].
  apply (IH J I (gOut g :: D)); [exact H3| |intros; apply HI; right; assumption].
  intros w [->|Hw]; [left; reflexivity|right; apply HD, Hw].
Qed.
Lemma well_def_app gs : forall I D hs, well_def I D gs ->
  (forall E, (forall w, In w D \/ written gs w -> In w E) -> well_def I E hs) -> well_def I D (gs ++ hs).
Proof.
  induction gs as [|g gs IH]; intros I D hs H K; cbn [app well_def] in *.
  - apply K. intros w [Hw|(g & [] & _)]. exact Hw.
  - destruct H as (H1 & H2 & H3). split; [exact H1|]. split; [exact H2|]. apply IH; [exact H3|].
    intros E HE. apply K. intros w [Hw|(h & [->|Hh] & Eh)].
    + apply HE. left. right. exact Hw.
    + apply HE. left. left. exact Eh.
    + apply HE. right. exists h. split; assumption.
Qed.

(* gates appended to a circuit that may also write wires they read before *)
Definition frag (c c' : circuit) (gs : list gate) (m : nat) (ins outs writes : list nat) : Prop :=
  c' = Circuit (cWires c + m) (cIns c) (cOuts c) (cGates c ++ gs) /\
  (forall g, In g gs -> gType g <> GOther /\ (gIn0 g < cWires c + m /\ gIn1 g < cWires c + m) /\
     (In (gOut g) writes \/ cWires c <= gOut g < cWires c + m)) /\
  (forall I E, (forall w, In w ins -> In w E) -> (forall w, In w writes -> ~ In w I) -> (forall w, In w I -> w < cWires c) -> well_def I E gs) /\
  (forall w, In w outs -> written gs w).
Lemma appends_frag c c' gs m ins outs writes : appends c c' gs m ins outs writes -> frag c c' gs m ins outs writes.
Proof.
  intros (-> & A1 & A2 & A3). split; [reflexivity|]. split; [exact A1|]. split; [|exact A3].
  intros I E HE HW HI. apply (@well_def_grow gs ins I ins); [exact A2|exact HE|].
  intros g Hg K. destruct (A1 g Hg) as (_ & _ & [H|H]); [exact (HW _ H K)|]. apply HI in K. lia.
Qed.

Lemma inv_frag I c D c' gs m ins outs writes : inv I c D -> frag c c' gs m ins outs writes ->
  (forall w, In w ins -> In w D) -> (forall w, In w writes -> ~ In w I /\ w < cWires c) -> inv I c' (outs ++ D).
Proof.
  intros (H1 & H2 & H3 & H4) (-> & A1 & A2 & A3) HI HW. unfold inv. cbn [cGates cWires]. split; [|split; [|split]].
  - apply well_def_app; [exact H1|]. intros E HE. apply A2; [|intros w Hw; apply HW, Hw|exact H3].
    intros w Hw. apply HE. apply H2, HI, Hw.
  - intros w Hw. apply in_app_or in Hw. destruct Hw as [Hw|Hw].
    + right. destruct (A3 w Hw) as (g & Hg & Eg). exists g. split; [apply in_or_app; right; exact Hg|exact Eg].
    + destruct (H2 w Hw) as [K|(g & Hg & Eg)]; [left; exact K|right; exists g; split; [apply in_or_app; left; exact Hg|exact Eg]].
  - intros w Hw. apply H3 in Hw. lia.
  - intros g Hg. apply in_app_or in Hg. destruct Hg as [Hg|Hg].
    + destruct (H4 g Hg) as (? & ? & ? & ?). repeat split; auto; lia.
    + destruct (A1 g Hg) as (T & (R1 & R2) & [K|K]); [apply HW in K|]; repeat split; auto; lia.
Qed.

(* values outside the written wires stay *)
Lemma frag_frame c c' gs m ins outs writes : frag c c' gs m ins outs writes ->
  forall e l, (forall w, In w l -> w < cWires c /\ ~ In w writes) -> map (eval gs e) l = map e l.
Proof.
  intros (_ & A & _) e l H. apply map_ext_in. intros w Hw. apply eval_frame. intros g Hg E.
  destruct (H w Hw) as (H1 & H2). destruct (A g Hg) as (_ & _ & [K|K]); [rewrite E in K; contradiction|lia].
Qed.

(* a single gate *)
Lemma gate_appends a b t o c : t <> GOther -> a < cWires c -> b < cWires c -> o <> a -> o <> b ->
  appends c (cir_gate a b t o c) [Gate a b t o] 0 [a; b] [o] [o].
Proof.
  intros Ht Ha Hb Hoa Hob. split; [unfold cir_gate; f_equal; lia|]. split; [|split].
  - intros g [<-|[]]. cbn [gType gIn0 gIn1 gOut]. rewrite Nat.add_0_r. repeat split; auto. left. left. reflexivity.
  - cbn [well_def gOut]. split; [|split; [|exact Logic.I]].
    + intros i [->|[_ ->]]; cbn; auto.
    + cbn. intuition.
  - intros w [<-|[]]. eexists. split; [left; reflexivity|reflexivity].
Qed.

Lemma nodup_app_apart {A} (l m : list A) : NoDup (l ++ m) -> forall x, In x l -> ~ In x m.
Proof.
  induction l as [|a l IH]; intros H x Hx; [destruct Hx|]. cbn [app] in H. inversion H as [|? ? N1 N2]; subst.
  destruct Hx as [->|Hx]; [|apply IH; assumption]. intros K. apply N1. apply in_or_app. right. exact K.
Qed.
Lemma nodup_app_l {A} (l m : list A) : NoDup (l ++ m) -> NoDup l.
Proof. induction l as [|a l IH]; intros H; [constructor|]. inversion H; subst. constructor; [|apply IH; assumption]. intros K. apply H2. apply in_or_app. left. exact K. Qed.
Lemma nodup_app_r {A} (l m : list A) : NoDup (l ++ m) -> NoDup m.
Proof. induction l as [|a l IH]; intros H; [exact H|]. inversion H; subst. apply IH. assumption. Qed.

(* a loop of one gate per position: a_i (t) b_i -> o_i, for a, b, o read from lists *)
Definition row_gates (t : gate_type) (a b o : list nat) : list gate :=
  map (fun i => Gate (nth i a 0) (nth i b 0) t (nth i o 0)) (seq 0 (length o)).

Lemma each_row t (fa fb fo : nat -> outcome nat) a b o c : length a = length o -> length b = length o ->
  (forall i, i < length o -> fa i = Ok (nth i a 0) /\ fb i = Ok (nth i b 0) /\ fo i = Ok (nth i o 0)) ->
  each (length o) (fun i c => do x <- fa i; do y <- fb i; do z <- fo i; Ok (cir_gate x y t z c)) c =
  Ok (Circuit (cWires c) (cIns c) (cOuts c) (cGates c ++ row_gates t a b o)).
Proof.
  intros La Lb H. unfold each, row_gates.
  assert (G : forall n s c, s + n <= length o ->
    forN s n (fun i c => do x <- fa i; do y <- fb i; do z <- fo i; Ok (cir_gate x y t z c)) c =
    Ok (Circuit (cWires c) (cIns c) (cOuts c) (cGates c ++ map (fun i => Gate (nth i a 0) (nth i b 0) t (nth i o 0)) (seq s n)))).
  { induction n as [|n IH]; intros s d Hs; cbn [forN seq map].
    - rewrite app_nil_r. destruct d; reflexivity.
    - destruct (H s) as (E1 & E2 & E3); [lia|]. rewrite E1, E2, E3. cbn [bind]. rewrite IH by lia.
      cbn [cir_gate cWires cIns cOuts cGates]. rewrite <- app_assoc, Nat.add_1_r. reflexivity. }
  apply G. lia.
Qed.

Lemma get_nth {A} (l : list A) i d : i < length l -> get l i = Ok (nth i l d).
Proof. intros H. unfold get. rewrite (nth_error_nth' l d H). reflexivity. Qed.


(* evaluating a row of gates: no gate writes what another one reads *)
Lemma eval_row t a b o e n : n <= length o -> NoDup o ->
  (forall i j, i < j -> j < length o -> nth i o 0 <> nth j a 0 /\ nth i o 0 <> nth j b 0) ->
  forall i, i < n -> eval (map (fun i => Gate (nth i a 0) (nth i b 0) t (nth i o 0)) (seq 0 n)) e (nth i o 0) =
    gfun t (e (nth i a 0)) (e (nth i b 0)).
Proof.
  intros Hn ND HD. revert Hn. induction n as [|n IH]; intros Hn i Hi; [lia|]. rewrite seq_S, map_app, eval_app. cbn [Nat.add map].
  set (gs := map _ (seq 0 n)) in *.
  assert (FR : forall w, (forall j, j < n -> nth j o 0 <> w) -> eval gs e w = e w).
  { intros w Hw. apply eval_frame. intros g Hg. unfold gs in Hg. apply in_map_iff in Hg. destruct Hg as (j & <- & Hj). apply in_seq in Hj. cbn [gOut]. apply Hw. lia. }
  match goal with |- eval ?h ?e1 _ = _ => set (e' := e1) end.
  unfold eval. cbn [fold_left]. unfold step, put. cbn [gOut gType gIn0 gIn1].
  destruct (Nat.eqb_spec (nth i o 0) (nth n o 0)) as [E|E].
  - assert (i = n) by (apply (proj1 (NoDup_nth o 0) ND); [lia|lia|exact E]). subst i.
    unfold e'. rewrite !FR; [reflexivity| |]; intros j Hj; apply (HD j n); lia.
  - unfold e'. apply IH; [lia|]. assert (i <> n) by (intros ->; apply E; reflexivity). lia.
Qed.
Lemma row_eval t a b o : NoDup o ->
  (forall i j, i < j -> j < length o -> nth i o 0 <> nth j a 0 /\ nth i o 0 <> nth j b 0) ->
  forall e i, i < length o -> eval (row_gates t a b o) e (nth i o 0) = gfun t (e (nth i a 0)) (e (nth i b 0)).
Proof. intros ND HD e i Hi. unfold row_gates. apply eval_row; auto. Qed.
Lemma row_frame t a b o e w : ~ In w o -> eval (row_gates t a b o) e w = e w.
Proof.
  intros H. apply eval_frame. intros g Hg E. apply H. unfold row_gates in Hg. apply in_map_iff in Hg.
  destruct Hg as (j & <- & Hj). apply in_seq in Hj. cbn [gOut] in E. subst w. apply nth_In. lia.
Qed.
Lemma row_written t a b o w : In w o -> written (row_gates t a b o) w.
Proof.
  intros H. apply (In_nth _ _ 0) in H. destruct H as (i & Hi & <-). exists (Gate (nth i a 0) (nth i b 0) t (nth i o 0)). split; [|reflexivity].
  unfold row_gates. apply in_map_iff. exists i. split; [reflexivity|apply in_seq; lia].
Qed.
Lemma row_well_def t a b o I D : length a = length o -> length b = length o ->
  (forall w, In w a -> In w D) -> (forall w, In w b -> In w D) -> (forall w, In w o -> ~ In w I) ->
  well_def I D (row_gates t a b o).
Proof.
  intros La Lb HA HB HO. unfold row_gates.
  assert (G : forall n s D, s + n <= length o -> (forall w, In w a -> In w D) -> (forall w, In w b -> In w D) ->
    well_def I D (map (fun i => Gate (nth i a 0) (nth i b 0) t (nth i o 0)) (seq s n))).
  { induction n as [|n IH]; intros s E Hs KA KB; cbn [seq map well_def]; [exact Logic.I|]. cbn [gOut]. split; [|split].
    - intros i [->|[_ ->]]; cbn [gIn0 gIn1]; [apply KA|apply KB]; apply nth_In; lia.
    - apply HO, nth_In. lia.
    - apply IH; [lia| |]; intros w Hw; right; auto. }
  apply G; auto.
Qed.
Lemma row_in t a b o g : length a = length o -> length b = length o -> In g (row_gates t a b o) ->
  gType g = t /\ In (gIn0 g) a /\ In (gIn1 g) b /\ In (gOut g) o.
Proof.
  intros La Lb H. unfold row_gates in H. apply in_map_iff in H. destruct H as (j & <- & Hj). apply in_seq in Hj. cbn [gType gIn0 gIn1 gOut].
  split; [reflexivity|]. split; [|split]; apply nth_In; lia.
Qed.

Lemma list_eq_nth {A} (d : A) l m : length l = length m -> (forall i, i < length l -> nth i l d = nth i m d) -> l = m.
Proof.
  revert m. induction l as [|a l IH]; intros [|b m] L H; try discriminate L; [reflexivity|]. f_equal.
  - apply (H 0). cbn. lia.
  - apply IH; [cbn in L; lia|]. intros i Hi. apply (H (S i)). cbn. lia.
Qed.
Lemma nth_map' {A B} (f : A -> B) l i d d' : i < length l -> nth i (map f l) d' = f (nth i l d).
Proof. intros H. rewrite (nth_indep _ d' (f d)) by (rewrite map_length; exact H). apply map_nth. Qed.

(* copies *)
Lemma copies_ok c a o : length a = length o -> wires_in c a -> NoDup (a ++ o) ->
  exists gs c', cir_copies a o c = Ok c' /\ appends c c' gs 0 a o o /\ forall e, map (eval gs e) o = map e a.
Proof.
  intros L Wa ND. pose proof (nodup_app_apart ND) as AP. exists (row_gates GCopy a a o). eexists. split; [|split].
  - unfold cir_copies, cir_copy.
    assert (E := @each_row GCopy (get a) (get a) (get o) a a o c L L). rewrite <- L in E at 1.
    assert (F : forall (x : circuit), each (length a) (fun i c => do a0 <- get a i; do o0 <- get o i; Ok (cir_gate a0 a0 GCopy o0 c)) x =
      each (length a) (fun i c => do x <- get a i; do y <- get a i; do z <- get o i; Ok (cir_gate x y GCopy z c)) x).
    { intros x. unfold each. generalize 0 as s, (length a) as n. intros s n. revert s x. induction n as [|n IH]; intros s x; cbn [forN]; [reflexivity|].
      destruct (get a s); cbn [bind]; try reflexivity. destruct (get o s); cbn [bind]; try reflexivity. apply IH. }
    rewrite F. apply E. intros i Hi. rewrite !(@get_nth _ _ _ 0) by lia. auto.
  - split; [rewrite Nat.add_0_r; reflexivity|]. split; [|split].
    + intros g Hg. apply (row_in L L) in Hg. destruct Hg as (-> & H1 & H2 & H3). rewrite Nat.add_0_r. split; [discriminate|]. split; [split; apply Wa; assumption|left; exact H3].
    + apply row_well_def; auto. intros w Hw K. apply (AP w K Hw).
    + intros w Hw. apply row_written. exact Hw.
  - intros e. apply (@list_eq_nth _ false); rewrite !map_length; [lia|]. intros i Hi.
    rewrite !(@nth_map' _ _ _ _ _ 0) by lia. rewrite row_eval; [reflexivity|exact (nodup_app_r ND)| |exact Hi].
    intros p q Hp Hq. assert (~ In (nth p o 0) a) by (intros K; apply (AP _ K), nth_In; lia).
    split; intros K; apply H; rewrite K; apply nth_In; lia.
Qed.

Lemma nodup_app_intro {A} (l m : list A) : NoDup l -> NoDup m -> (forall x, In x l -> ~ In x m) -> NoDup (l ++ m).
Proof.
  induction l as [|a l IH]; intros H1 H2 H3; [exact H2|]. inversion H1; subst. cbn [app]. constructor.
  - intros K. apply in_app_or in K. destruct K as [K|K]; [contradiction|]. apply (H3 a); [left; reflexivity|exact K].
  - apply IH; auto. intros x Hx. apply H3. right. exact Hx.
Qed.

Lemma dup_ok k : operator_ok k (fun a b => a) dup_circuit.
Proof.
  intros c a b out La Lb Lo Wa Wb Wo ND.
  assert (ND' : NoDup (a ++ out)).
  { apply nodup_app_intro; [exact (nodup_app_l ND)|exact (nodup_app_r (nodup_app_r ND))|].
    intros x Hx K. apply (nodup_app_apart ND Hx). apply in_or_app. right. exact K. }
  destruct (@copies_ok c a out) as (gs & c' & E & A & S); [lia|exact Wa|exact ND'|].
  exists gs, 0, c'. split; [exact E|]. split; [|exact S]. destruct A as (A1 & A2 & A3 & A4). split; [exact A1|]. split; [exact A2|]. split; [|exact A4].
  apply (@well_def_grow gs a (a ++ b) a); [exact A3|intros w Hw; apply in_or_app; left; exact Hw|].
  intros g Hg K. destruct (A2 g Hg) as (_ & _ & [H|H]).
  - rewrite app_assoc in ND. apply (nodup_app_apart ND K H).
  - lia.
Qed.

(* three rows of gates: temp = f xor t, p = temp and choice, out = f xor p, where p may be temp or t *)
Lemma mux_rows c t f ch out temp p k : length t = k -> length f = k -> length out = k -> length temp = k -> length p = k ->
  wires_in c t -> wires_in c f -> wires_in c [ch] -> wires_in c out -> wires_in c temp -> wires_in c p ->
  NoDup temp -> NoDup p -> NoDup out ->
  apart temp t -> apart temp f -> ~ In ch temp -> apart p f -> ~ In ch p -> p = temp \/ apart p temp -> apart out f -> apart out p ->
  let gs := row_gates GXor f t temp ++ row_gates GAnd temp (repeat ch k) p ++ row_gates GXor f p out in
  frag c (Circuit (cWires c) (cIns c) (cOuts c) (cGates c ++ gs)) gs 0 (t ++ f ++ [ch]) out (temp ++ p ++ out) /\
  forall e, map (eval gs e) out = if e ch then map e t else map e f.
Proof.
  intros Lt Lf Lo Lm Lp Wt Wf Wc Wo Wm Wp Nm Np No D1 D2 D3 D4 D5 D6 D7 D8 gs.
  assert (Lr : length (repeat ch k) = length p) by (rewrite repeat_length; lia).
  assert (Wch : ch < cWires c) by (apply Wc; left; reflexivity).
  split.
  - split; [rewrite Nat.add_0_r; reflexivity|]. rewrite Nat.add_0_r. split; [|split].
    + intros g Hg. unfold gs in Hg. apply in_app_or in Hg. destruct Hg as [Hg|Hg]; [|apply in_app_or in Hg; destruct Hg as [Hg|Hg]].
      * apply row_in in Hg; [|lia|lia]. destruct Hg as (-> & H1 & H2 & H3). split; [discriminate|]. split; [split; [apply Wf|apply Wt]; assumption|left; apply in_or_app; left; exact H3].
      * apply row_in in Hg; [|lia|lia]. destruct Hg as (-> & H1 & H2 & H3). apply repeat_spec in H2. split; [discriminate|]. split; [split; [apply Wm; assumption|rewrite H2; exact Wch]|].
        left. apply in_or_app. right. apply in_or_app. left. exact H3.
      * apply row_in in Hg; [|lia|lia]. destruct Hg as (-> & H1 & H2 & H3). split; [discriminate|]. split; [split; [apply Wf|apply Wp]; assumption|].
        left. apply in_or_app. right. apply in_or_app. right. exact H3.
    + intros I E HE HW HI. unfold gs. apply well_def_app; [|intros E1 HE1; apply well_def_app; [|intros E2 HE2]]; apply row_well_def; try lia.
      * intros w Hw. apply HE. apply in_or_app. right. apply in_or_app. left. exact Hw.
      * intros w Hw. apply HE. apply in_or_app. left. exact Hw.
      * intros w Hw. apply HW. apply in_or_app. left. exact Hw.
      * intros w Hw. apply HE1. right. apply row_written. exact Hw.
      * intros w Hw. apply repeat_spec in Hw. subst w. apply HE1. left. apply HE. apply in_or_app. right. apply in_or_app. right. left. reflexivity.
      * intros w Hw. apply HW. apply in_or_app. right. apply in_or_app. left. exact Hw.
      * intros w Hw. apply HE2. left. apply HE1. left. apply HE. apply in_or_app. right. apply in_or_app. left. exact Hw.
      * intros w Hw. apply HE2. right. apply row_written. exact Hw.
      * intros w Hw. apply HW. apply in_or_app. right. apply in_or_app. right. exact Hw.
    + intros w Hw. destruct (@row_written GXor f p out w Hw) as (g & Hg & Eg). exists g. split; [|exact Eg].
      unfold gs. apply in_or_app. right. apply in_or_app. right. exact Hg.
  - intros e. assert (E : map (eval gs e) out = map (fun i => if e ch then e (nth i t 0) else e (nth i f 0)) (seq 0 k)).
    + apply (@list_eq_nth _ false); rewrite !map_length; [rewrite seq_length; lia|]. intros i Hi.
      rewrite (@nth_map' _ _ _ out i 0) by lia. rewrite (@nth_map' _ _ _ (seq 0 k) i 0) by (rewrite seq_length; lia). rewrite seq_nth by lia. cbn [Nat.add].
      unfold gs. rewrite !eval_app.
      assert (Inf : In (nth i f 0) f) by (apply nth_In; lia). assert (Inp : In (nth i p 0) p) by (apply nth_In; lia).
      assert (Inm : In (nth i temp 0) temp) by (apply nth_In; lia).
      rewrite row_eval; [|exact No| |lia].
      2:{ intros a b Ha Hb. split; intros K; [apply (D7 (nth a out 0)); [apply nth_In; lia|]|apply (D8 (nth a out 0)); [apply nth_In; lia|]]; rewrite K; apply nth_In; lia. }
      rewrite (@row_frame GAnd temp (repeat ch k) p _ (nth i f 0)) by (intros K; exact (D4 _ K Inf)).
      rewrite (@row_frame GXor f t temp e (nth i f 0)) by (intros K; exact (D2 _ K Inf)).
      rewrite row_eval; [|exact Np| |lia].
      2:{ intros a b Ha Hb. split; intros K.
          - destruct D6 as [->|D6]; [apply (proj1 (NoDup_nth temp 0) Nm) in K; lia|]. apply (D6 (nth a p 0)); [apply nth_In; lia|]. rewrite K. apply nth_In. lia.
          - apply D5. assert (nth b (repeat ch k) 0 = ch) as <-; [|rewrite <- K; apply nth_In; lia]. eapply repeat_spec, nth_In. rewrite repeat_length. lia. }
      assert (nth i (repeat ch k) 0 = ch) as -> by (eapply repeat_spec, nth_In; rewrite repeat_length; lia).
      rewrite (@row_frame GXor f t temp e ch) by exact D3.
      rewrite row_eval; [|exact Nm| |lia].
      2:{ intros a b Ha Hb. split; intros K; [apply (D2 (nth a temp 0)); [apply nth_In; lia|]|apply (D1 (nth a temp 0)); [apply nth_In; lia|]]; rewrite K; apply nth_In; lia. }
      cbn [gfun]. destruct (e ch), (e (nth i f 0)), (e (nth i t 0)); reflexivity.
    + rewrite E. destruct (e ch); apply (@list_eq_nth _ false); rewrite !map_length, seq_length; try lia; intros i Hi;
        rewrite (@nth_map' _ _ _ (seq 0 k) i 0) by (rewrite seq_length; lia); rewrite seq_nth by lia; rewrite (@nth_map' _ _ _ _ i 0) by lia; reflexivity.
Qed.

(* the multiplexer written out in downstreamCir *)
Lemma down_mux_ok c t f ch out temp k : length t = k -> length f = k -> length out = k -> length temp = k ->
  wires_in c t -> wires_in c f -> wires_in c [ch] -> wires_in c out -> wires_in c temp ->
  NoDup t -> NoDup out -> NoDup temp -> apart temp t -> apart temp f -> ~ In ch temp -> apart t f -> ~ In ch t -> apart out f -> apart out t ->
  exists gs c', down_mux c t f [ch] out temp = Ok c' /\ frag c c' gs 0 (t ++ f ++ [ch]) out (temp ++ t ++ out) /\
    forall e, map (eval gs e) out = if e ch then map e t else map e f.
Proof.
  intros Lt Lf Lo Lm Wt Wf Wc Wo Wm Nt No Nm D1 D2 D3 D4 D5 D6 D7.
  destruct (@mux_rows c t f ch out temp t k) as (A & B); auto; [right; intros w H K; exact (D1 w K H)|].
  do 2 eexists. split; [|split; [exact A|exact B]].
  unfold down_mux.
  assert (E1 := @each_row GXor (get f) (get t) (get temp) f t temp c ltac:(lia) ltac:(lia)). replace (length temp) with (length out) in E1 by lia.
  rewrite E1 by (intros i Hi; rewrite !(@get_nth _ _ _ 0) by lia; auto). cbn [bind]. clear E1.
  set (c1 := Circuit _ _ _ _).
  assert (E2 := @each_row GAnd (get temp) (fun _ => get [ch] 0) (get t) temp (repeat ch k) t c1 ltac:(lia) ltac:(rewrite repeat_length; lia)). replace (length t) with (length out) in E2 by lia.
  rewrite E2.
  2:{ intros i Hi. rewrite !(@get_nth _ _ _ 0) by (cbn [length]; lia). split; [reflexivity|]. split; [|reflexivity]. cbn [nth]. f_equal. symmetry. eapply repeat_spec, nth_In. rewrite repeat_length. lia. }
  cbn [bind]. clear E2. set (c2 := Circuit (cWires c1) _ _ _).
  rewrite (@each_row GXor (get f) (get t) (get out) f t out c2 ltac:(lia) ltac:(lia)) by (intros i Hi; rewrite !(@get_nth _ _ _ 0) by lia; auto).
  unfold c2, c1. cbn [cWires cIns cOuts cGates]. rewrite <- !app_assoc. reflexivity.
Qed.
