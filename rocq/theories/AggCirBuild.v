From Verif Require Import Base GmwModel GmwSpec AggModel AggCirModel AggCirSpec AggCirProofs.

Ltac ws := unfold wires_in, apart in *; intros; repeat rewrite in_app_iff in *; repeat rewrite in_seq in *; cbn [In] in *; lia.
Ltac nd := repeat first [apply seq_NoDup | apply nodup_app_intro | (constructor; [solve [intros []]|]) | constructor | solve [ws]].

Section Steps.
Variable k : nat.
Variable f : list bool -> list bool -> list bool.
Variable op : operator.
Variable mux : multiplexer.
Hypothesis OP : operator_ok k f op.
Hypothesis MX : multiplexer_ok k mux.

(* the effect of one step of a builder: the wires outs get the values sem, writes may change *)
Definition stepped (I : list nat) (c : circuit) (D : list nat) (c' : circuit) (gs : list gate) (outs writes : list nat)
  (sem : env -> list bool) : Prop :=
  inv I c' (outs ++ D) /\ cWires c <= cWires c' /\ cIns c' = cIns c /\ cOuts c' = cOuts c /\ cGates c' = cGates c ++ gs /\
  (forall e, map (eval gs e) outs = sem e) /\
  (forall e l, (forall w, In w l -> w < cWires c /\ ~ In w writes) -> map (eval gs e) l = map e l).

Lemma frag_step I c D c' gs m ins outs writes sem : inv I c D -> frag c c' gs m ins outs writes ->
  (forall w, In w ins -> In w D) -> (forall w, In w writes -> ~ In w I /\ w < cWires c) ->
  (forall e, map (eval gs e) outs = sem e) -> stepped I c D c' gs outs writes sem.
Proof.
  intros HI HF H1 H2 HS. split; [exact (inv_frag HI HF H1 H2)|]. pose proof (frag_frame HF) as FR. destruct HF as (-> & _). cbn [cWires cIns cOuts cGates].
  split; [lia|]. repeat split; auto.
Qed.

Lemma op_step I c D a b out : inv I c D -> length a = k -> length b = k -> length out = k ->
  wires_in c a -> wires_in c b -> wires_in c out -> NoDup (a ++ b ++ out) ->
  (forall w, In w (a ++ b) -> In w D) -> (forall w, In w out -> ~ In w I) ->
  exists c' gs, op c a b out = Ok c' /\ stepped I c D c' gs out out (fun e => f (map e a) (map e b)).
Proof.
  intros HI La Lb Lo Wa Wb Wo ND HD HO. destruct (OP La Lb Lo Wa Wb Wo ND) as (gs & m & c' & E & A & S).
  exists c', gs. split; [exact E|]. apply (frag_step HI (appends_frag A)); auto.
Qed.
Lemma mux_step I c D t g ch out temp : inv I c D -> length t = k -> length g = k -> length out = k -> length temp = k ->
  wires_in c t -> wires_in c g -> wires_in c [ch] -> wires_in c out -> wires_in c temp -> NoDup (t ++ g ++ [ch] ++ out ++ temp) ->
  (forall w, In w (t ++ g ++ [ch]) -> In w D) -> (forall w, In w (out ++ temp) -> ~ In w I) ->
  exists c' gs, mux c t g [ch] out temp = Ok c' /\
    stepped I c D c' gs out (out ++ temp) (fun e => if hd false (map e [ch]) then map e t else map e g).
Proof.
  intros HI L1 L2 L3 L4 W1 W2 W3 W4 W5 ND HD HO. destruct (MX L1 L2 L3 L4 W1 W2 W3 W4 W5 ND) as (gs & m & c' & E & A & S).
  exists c', gs. split; [exact E|]. apply (frag_step HI (appends_frag A)); auto.
  intros w Hw. split; [apply HO, Hw|]. apply in_app_or in Hw. destruct Hw; auto.
Qed.
Lemma dmux_step I c D t g ch out temp : inv I c D -> length t = k -> length g = k -> length out = k -> length temp = k ->
  wires_in c t -> wires_in c g -> wires_in c [ch] -> wires_in c out -> wires_in c temp -> NoDup (t ++ g ++ [ch] ++ out ++ temp) ->
  (forall w, In w (t ++ g ++ [ch]) -> In w D) -> (forall w, In w (temp ++ t ++ out) -> ~ In w I) ->
  exists c' gs, down_mux c t g [ch] out temp = Ok c' /\
    stepped I c D c' gs out (temp ++ t ++ out) (fun e => if hd false (map e [ch]) then map e t else map e g).
Proof.
  intros HI L1 L2 L3 L4 W1 W2 W3 W4 W5 ND HD HO.
  pose proof (nodup_app_apart ND) as A1. pose proof (nodup_app_r ND) as ND2. pose proof (nodup_app_apart ND2) as A2.
  pose proof (nodup_app_r ND2) as ND3. pose proof (nodup_app_apart ND3) as A3. pose proof (nodup_app_r ND3) as ND4. pose proof (nodup_app_apart ND4) as A4.
  assert (Q : forall w, In w t -> ~ (In w g \/ In w [ch] \/ In w out \/ In w temp)) by (intros w H; specialize (A1 w H); rewrite !in_app_iff in A1; exact A1).
  assert (Q2 : forall w, In w g -> ~ (In w [ch] \/ In w out \/ In w temp)) by (intros w H; specialize (A2 w H); rewrite !in_app_iff in A2; exact A2).
  assert (Q3 : forall w, In w [ch] -> ~ (In w out \/ In w temp)) by (intros w H; specialize (A3 w H); rewrite !in_app_iff in A3; exact A3).
  assert (Hc : In ch [ch]) by (left; reflexivity).
  destruct (@down_mux_ok c t g ch out temp k) as (gs & c' & E & A & S); auto.
  - exact (nodup_app_l ND).
  - exact (nodup_app_l ND4).
  - exact (nodup_app_r ND4).
  - intros w H K. apply (Q w K). tauto.
  - intros w H K. apply (Q2 w K). tauto.
  - intros K. apply (Q3 ch Hc). tauto.
  - intros w H K. apply (Q w H). tauto.
  - intros K. apply (Q ch K). tauto.
  - intros w H K. apply (Q2 w K). tauto.
  - intros w H K. apply (Q w K). tauto.
  - exists c', gs. split; [exact E|]. apply (frag_step HI A); auto.
    intros w Hw. split; [apply HO, Hw|]. apply in_app_or in Hw. destruct Hw as [Hw|Hw]; [auto|]. apply in_app_or in Hw. destruct Hw; auto.
Qed.
Lemma copy_step I c D a out : inv I c D -> length a = k -> length out = k -> wires_in c a -> wires_in c out -> NoDup (a ++ out) ->
  (forall w, In w a -> In w D) -> (forall w, In w out -> ~ In w I) ->
  exists c' gs, cir_copies a out c = Ok c' /\ stepped I c D c' gs out out (fun e => map e a).
Proof.
  intros HI La Lo Wa Wo ND HD HO. destruct (@copies_ok c a out) as (gs & c' & E & A & S); auto; [lia|].
  exists c', gs. split; [exact E|]. apply (frag_step HI (appends_frag A)); auto.
Qed.
Lemma and_step I c D a b o : inv I c D -> a < cWires c -> b < cWires c -> o < cWires c -> o <> a -> o <> b -> In a D -> In b D -> ~ In o I ->
  exists gs, stepped I c D (cir_gate a b GAnd o c) gs [o] [o] (fun e => [hd false (map e [a]) && hd false (map e [b])]).
Proof.
  intros HI Ha Hb Ho Na Nb Da Db No. exists [Gate a b GAnd o].
  apply (frag_step HI (appends_frag (@gate_appends a b GAnd o c ltac:(discriminate) Ha Hb Na Nb))).
  - intros w [<-|[<-|[]]]; assumption.
  - intros w [<-|[]]. split; assumption.
  - intros e. cbn [map eval fold_left step put gOut gType gIn0 gIn1 gfun hd]. unfold step, put. cbn [gOut gType gIn0 gIn1 gfun]. rewrite Nat.eqb_refl. reflexivity.
Qed.

(* side conditions: memberships in ranges of wires *)
Ltac side := intros; repeat match goal with H : In _ _ |- _ => progress (repeat (progress (repeat rewrite in_app_iff in H; repeat rewrite in_seq in H; cbn [In] in H))) end;
  repeat (progress (repeat rewrite in_app_iff; repeat rewrite in_seq; cbn [In])); lia.
Ltac wsd := unfold wires_in; side.
Ltac ndup := repeat (first [apply seq_NoDup | apply NoDup_nil | (apply NoDup_cons; [intros []|]) | (apply nodup_app_intro; [| |side])]).
Ltac fin := first [solve [rewrite ?seq_length; lia] | solve [wsd] | solve [ndup] | assumption].
Ltac opened K := let HI := fresh "HI" in let W := fresh "W" in let I1 := fresh "I" in let O1 := fresh "O" in let G := fresh "G" in
  let S := fresh "S" in let F := fresh "F" in destruct K as (HI & W & I1 & O1 & G & S & F).
Ltac next E K := rewrite E; cbn [bind]; opened K.
Ltac do_op := match goal with |- context [op ?c ?a ?b ?o] => match goal with HI : inv ?I c ?D |- _ =>
  let c' := fresh "c" in let gs := fresh "gs" in let E := fresh "E" in let K := fresh "K" in
  destruct (@op_step I c D a b o HI) as (c' & gs & E & K); [fin..|next E K] end end.
Ltac do_mux := match goal with |- context [mux ?c ?t ?g [?ch] ?o ?m] => match goal with HI : inv ?I c ?D |- _ =>
  let c' := fresh "c" in let gs := fresh "gs" in let E := fresh "E" in let K := fresh "K" in
  destruct (@mux_step I c D t g ch o m HI) as (c' & gs & E & K); [fin..|next E K] end end.
Ltac do_dmux := match goal with |- context [down_mux ?c ?t ?g [?ch] ?o ?m] => match goal with HI : inv ?I c ?D |- _ =>
  let c' := fresh "c" in let gs := fresh "gs" in let E := fresh "E" in let K := fresh "K" in
  destruct (@dmux_step I c D t g ch o m HI) as (c' & gs & E & K); [fin..|next E K] end end.
Ltac do_copy := match goal with |- context [cir_copies ?a ?o ?c] => match goal with HI : inv ?I c ?D |- _ =>
  let c' := fresh "c" in let gs := fresh "gs" in let E := fresh "E" in let K := fresh "K" in
  destruct (@copy_step I c D a o HI) as (c' & gs & E & K); [fin..|next E K] end end.
Ltac do_and := cbn [get nth_error bind]; match goal with |- context [cir_gate ?a ?b GAnd ?o ?c] => match goal with HI : inv ?I c ?D |- _ =>
  let c' := fresh "c" in let gs := fresh "gs" in let E := fresh "E" in let K := fresh "K" in
  destruct (@and_step I c D a b o HI) as (gs & K); [fin..|];
  set (c' := cir_gate a b GAnd o c) in *; clearbody c'; opened K end end.

Lemma inv_new W ins outs : (forall w, In w (concat ins) -> w < W) -> inv (concat ins) (Circuit W ins outs []) (concat ins).
Proof. intros H. split; [exact Logic.I|]. split; [intros w Hw; left; exact Hw|]. split; [exact H|]. intros g []. Qed.

Definition good (c : circuit) (ins outs : list nat) (F : list (list bool) -> list (list bool)) : Prop := runnable c ins outs /\ computes c F.

Lemma good_intro I c D ins outs F : inv I c D -> I = concat (cIns c) -> map (@length nat) (cIns c) = ins -> map (@length nat) (cOuts c) = outs ->
  concat (cIns c) ++ concat (cOuts c) = seq 0 (fold_right plus 0 ins + fold_right plus 0 outs) ->
  (forall w, In w (concat (cOuts c)) -> In w D /\ ~ In w I) -> computes c F -> good c ins outs F.
Proof.
  intros (H1 & H2 & H3 & H4) -> L1 L2 E HO HF. split; [|exact HF]. split; [exact L1|]. split; [exact L2|]. split; [exact E|]. split; [exact H1|]. split; [exact H4|].
  intros w Hw. destruct (HO w Hw) as (K1 & K2). destruct (H2 w K1) as [K|K]; [contradiction|exact K].
Qed.

(* the start of a construction: all bundles declared *)
Ltac start := cbv beta iota zeta delta [has_pre has_suf when cir_input cir_output cir_temp cir_new cWires cIns cOuts cGates app]; cbn [seq bind];
  match goal with |- context [Circuit ?W ?ins ?outs []] => let H := fresh "HI" in
    assert (H : inv (concat ins) (Circuit W ins outs []) (concat ins)) by (apply inv_new; cbn [concat]; side);
    set (c0 := Circuit W ins outs []) in *; cbn [concat app] in H;
    assert (cWires c0 = W) by reflexivity; assert (cIns c0 = ins) by reflexivity; assert (cOuts c0 = outs) by reflexivity; assert (cGates c0 = []) by reflexivity;
    clearbody c0 end.


Fixpoint bundles (s : nat) (sizes : list nat) : list (list nat) :=
  match sizes with [] => [] | n :: r => seq s n :: bundles (s + n) r end.
Lemma concat_bundles' sizes : forall s, concat (bundles s sizes) = seq s (fold_right plus 0 sizes).
Proof. induction sizes as [|n r IH]; intros s; [reflexivity|]. cbn [bundles concat fold_right]. rewrite IH, <- seq_app. reflexivity. Qed.
Lemma consecutive ins outs (li lo : list (list nat)) : li ++ lo = bundles 0 (ins ++ outs) ->
  concat li ++ concat lo = seq 0 (fold_right plus 0 ins + fold_right plus 0 outs).
Proof.
  intros H. rewrite <- concat_app, H, concat_bundles'. f_equal. induction ins as [|n r IH] in |- *; [reflexivity|]. cbn [app fold_right]. rewrite IH by idtac. lia.
Qed.

Ltac chain := repeat match goal with H : cIns ?c = _ |- context [cIns ?c] => rewrite H end; repeat match goal with H : cOuts ?c = _ |- context [cOuts ?c] => rewrite H end.
Ltac peel g := repeat match goal with S : forall e, map (eval g e) ?o = _ |- context [map (eval g ?x) ?o] => rewrite (S x) end;
  repeat match goal with F : forall e l, _ -> map (eval g e) l = _, S : forall e, map (eval g e) ?o = _ |- context [map (eval g ?x) ?l] => rewrite (F x l) by side end.
Ltac peels := repeat match goal with |- context [eval ?g _] => progress peel g end.
Ltac finish H := apply (good_intro H);
  [chain; reflexivity | chain; cbn [map]; rewrite ?seq_length; reflexivity | chain; cbn [map]; rewrite ?seq_length; reflexivity
  | chain; apply consecutive; reflexivity | chain; cbn [concat app]; side
  | intros e; chain; cbn [map]; repeat match goal with G : cGates ?c = _ |- context [cGates ?c] => rewrite G end; cbn [app]; rewrite ?eval_app;
    repeat match goal with |- context [[eval ?g ?x ?w]] => change [eval g x w] with (map (eval g x) [w]) end; peels; reflexivity ].


Lemma up_good ty : exists c, upstream_cir op mux k ty = Ok c /\ good c (up_ins k ty) (up_outs k ty) (up_fun f ty).
Proof.
  destruct ty; unfold upstream_cir; start.
  - do_op. do_mux. do_and. exists c2. split; [reflexivity|]. finish HI2.
  - do_op. do_mux. do_and. exists c2. split; [reflexivity|]. finish HI2.
  - do_op. do_mux. do_and. do_op. do_mux. do_and. exists c5. split; [reflexivity|]. finish HI5.
Qed.
Lemma down_good o o' ty : exists c, downstream_cir op k ty = Ok c /\ good c (down_ins k ty) (down_outs k ty) (down_fun f o o' ty).
Proof.
  destruct ty; unfold downstream_cir; start.
  - do_op. do_dmux. do_copy. exists c2. split; [reflexivity|]. finish HI2.
  - do_op. do_dmux. do_copy. exists c2. split; [reflexivity|]. finish HI2.
  - do_op. do_dmux. do_copy. do_op. do_dmux. do_copy. exists c5. split; [reflexivity|]. finish HI5.
Qed.
Lemma leaf_good ty : exists c, leaf_cir op mux k ty = Ok c /\ good c (leaf_ins k ty) (leaf_outs k) (leaf_fun f ty).
Proof.
  destruct ty; unfold leaf_cir; start.
  - do_op. do_op. do_mux. do_mux. exists c3. split; [reflexivity|]. finish HI3.
  - do_op. do_op. do_mux. do_mux. exists c3. split; [reflexivity|]. finish HI3.
  - do_op. do_op. do_mux. do_mux. do_op. do_op. do_mux. do_mux. exists c7. split; [reflexivity|]. finish HI7.
Qed.
End Steps.
