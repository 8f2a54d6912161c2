(* The circuits of the join can be run by Gmw. *)
From Verif Require Import Base Words KeyMultModel ShuffleModel ShuffleSpec GmwModel GmwSpec GmwProofs CircuitProofs BitInjProofs AggCirModel AggCirSpec AggCirProofs CtrlProofs OmJoinModel WhereProofs PermCorProofs.

Lemma par_wd I gs : forall D, (forall g, In g gs -> In (gIn0 g) D /\ In (gIn1 g) D /\ ~ In (gOut g) I) -> well_def I D gs.
Proof.
  induction gs as [|g gs IH]; intros D H; cbn [well_def]; [exact Logic.I|]. destruct (H g (or_introl eq_refl)) as (A & B & C).
  split; [intros i [->|[_ ->]]; assumption|]. split; [exact C|]. apply IH. intros h Hh. destruct (H h (or_intror Hh)) as (A' & B' & C'). repeat split; try (right; assumption). exact C'.
Qed.
Lemma get_In {A} (l : list A) i x : get l i = Ok x -> In x l.
Proof. unfold get. destruct (nth_error l i) as [y|] eqn:E; [|discriminate]. intros H. assert (y = x) as -> by congruence. apply (nth_error_In _ _ E). Qed.

Definition gate_ok (m : nat) (g : gate) : Prop := gType g <> GOther /\ gIn0 g < m /\ gIn1 g < m /\ gOut g < m.

Lemma and_levels_wd bits out I lo : (forall w, In w I -> w < lo) -> lo <= out -> forall k i next temp gs m, and_levels k i bits out next temp = Ok (gs, m) ->
  (forall w, In w temp -> w < next) -> out < next -> lo <= next ->
  next <= m /\ (forall D, (forall w, In w temp -> In w D) -> well_def I D gs) /\ (forall g, In g gs -> gate_ok m g) /\
  (Nat.log2_up bits <= i + k -> 2 <= bits / 2 ^ i -> exists g, In g gs /\ gOut g = out).
Proof.
  intros HI Ho. induction k as [|k IH]; intros i next temp gs m E Ht Hn Hlo; cbn [and_levels] in E.
  - assert (gs = []) as -> by congruence. assert (m = next) as -> by congruence. split; [lia|]. split; [intros; exact Logic.I|]. split; [intros g []|].
    intros Hk Hd. exfalso. assert (bits <= 2 ^ i).
    { destruct (Nat.le_gt_cases bits 1) as [L|L]; [assert (2 ^ i <> 0) by (apply Nat.pow_nonzero; lia); lia|].
      transitivity (2 ^ Nat.log2_up bits); [apply Nat.log2_log2_up_spec; lia|apply Nat.pow_le_mono_r; lia]. }
    assert (bits / 2 ^ i <= 1); [|lia]. apply Nat.div_le_upper_bound; [apply Nat.pow_nonzero; lia|lia].
  - set (size := bits / 2 / 2 ^ i) in *. set (temp2 := if size =? 1 then [out] else seq next size) in *. set (next' := if size =? 1 then next else next + size) in *.
    destruct (mapM _ (seq 0 size)) as [l| | |] eqn:EM; cbn [bind] in E; try discriminate. destruct (and_levels k (i + 1) bits out next' temp2) as [[gs2 m2]| | |] eqn:E2; cbn [bind fst snd] in E; try discriminate.
    assert (gs = l ++ gs2) as -> by congruence. assert (m2 = m) as -> by congruence. clear E.
    assert (T2 : forall w, In w temp2 -> lo <= w < next').
    { unfold temp2, next'. intros w Hw. destruct (size =? 1); [destruct Hw as [<-|[]]; lia|]. apply in_seq in Hw. lia. }
    assert (Hnn : next <= next') by (unfold next'; destruct (size =? 1); lia).
    destruct (IH (i + 1) next' temp2 gs2 m E2 (fun w Hw => proj2 (T2 w Hw)) ltac:(lia) ltac:(lia)) as (Hm & HW & HG & HO).
    apply mapM_inv in EM.
    assert (HL : forall g, In g l -> In (gIn0 g) temp /\ In (gIn1 g) temp /\ In (gOut g) temp2 /\ gType g = GAnd).
    { clear - EM. intros g Hg. revert Hg. induction EM as [|j h ls gs E EM IH]; [intros []|]. intros [->|Hg]; [|exact (IH Hg)].
      destruct (get temp (2 * j)) as [a| | |] eqn:Ea; cbn [bind] in E; try discriminate. destruct (get temp (2 * j + 1)) as [b| | |] eqn:Eb; cbn [bind] in E; try discriminate.
      destruct (get temp2 j) as [o| | |] eqn:Eo; cbn [bind] in E; try discriminate. assert (g = Gate a b GAnd o) as -> by congruence. cbn [gIn0 gIn1 gOut gType].
      repeat split; eapply get_In; eassumption. }
    assert (HWr : forall w, In w temp2 -> exists g, In g l /\ gOut g = w).
    { assert (L2 : length temp2 = size) by (unfold temp2; destruct (Nat.eqb_spec size 1) as [Es|Es]; [cbn; lia|apply seq_length]).
      intros w Hw. apply In_nth_error in Hw. destruct Hw as [j Hj]. assert (j < size) by (rewrite <- L2; apply nth_error_Some; congruence).
      destruct (nth_error l j) as [g|] eqn:Eg.
      - exists g. split; [apply (nth_error_In _ _ Eg)|]. assert (K : forall a ls gs, Forall2 (fun j b => (do a <- get temp (2 * j); do b <- get temp (2 * j + 1); do o <- get temp2 j; Ok (Gate a b GAnd o)) = Ok b) (seq a ls) gs -> forall j g, nth_error gs j = Some g -> get temp2 (a + j) = Ok (gOut g)).
        { clear. intros a ls. revert a. induction ls as [|ls IH]; intros a gs H; inversion H as [|? h ? gs' E H' E1 E2]; subst; intros j g Eg; [destruct j; discriminate|]. destruct j as [|j].
          - assert (h = g) as -> by (cbn in Eg; congruence). rewrite Nat.add_0_r. destruct (get temp (2 * a)) as [x| | |]; cbn [bind] in E; try discriminate. destruct (get temp (2 * a + 1)) as [y| | |]; cbn [bind] in E; try discriminate. destruct (get temp2 a) as [z| | |]; cbn [bind] in E; try discriminate.
            assert (Gate x y GAnd z = g) as <- by congruence. reflexivity.
          - replace (a + S j) with (a + 1 + j) by lia. apply (IH (a + 1) gs'); [rewrite Nat.add_1_r; exact H'|exact Eg]. }
        specialize (K 0 size l EM j g Eg). cbn [Nat.add] in K. unfold get in K. rewrite Hj in K. congruence.
      - exfalso. apply nth_error_None in Eg. assert (length l = size); [|lia]. clear - EM. rewrite <- (seq_length size 0). induction EM; cbn [length]; congruence. }
    split; [lia|]. split; [|split].
    + intros D HD. apply well_def_app.
      * apply par_wd. intros g Hg. destruct (HL g Hg) as (A & B & C & _). split; [apply HD, A|]. split; [apply HD, B|]. intros X. apply HI in X. apply T2 in C. lia.
      * intros D' HD'. apply HW. intros w Hw. apply HD'. right. destruct (HWr w Hw) as (g & Hg & Eg). exists g. split; assumption.
    + intros g Hg. apply in_app_or in Hg. destruct Hg as [Hg|Hg]; [|apply HG, Hg]. destruct (HL g Hg) as (A & B & C & T). unfold gate_ok. rewrite T. apply Ht in A. apply Ht in B. apply T2 in C. split; [discriminate|]. lia.
    + intros Hk Hd.
      assert (Hs : size = bits / 2 ^ i / 2) by (unfold size; rewrite !Nat.div_div by (try apply Nat.pow_nonzero; lia); f_equal; lia).
      assert (Hs' : bits / 2 ^ (i + 1) = size) by (rewrite Hs, Nat.div_div by (try apply Nat.pow_nonzero; lia); f_equal; rewrite Nat.add_1_r, Nat.pow_succ_r'; lia).
      destruct (Nat.eq_dec size 1) as [E1|E1].
      * destruct (HWr out) as (g & Hg & Eg); [unfold temp2; rewrite E1; left; reflexivity|]. exists g. split; [apply in_or_app; left; exact Hg|exact Eg].
      * destruct HO as (g & Hg & Eg); [lia|rewrite Hs'; assert (1 <= size) by (rewrite Hs; apply Nat.div_le_lower_bound; lia); lia|]. exists g. split; [apply in_or_app; right; exact Hg|exact Eg].
Qed.

(* what the control circuit computes, on the values of its two inputs *)
Definition same_low (bits : nat) (xs : list (list bool)) : list (list bool) :=
  match xs with [a; b] => [[forallb (fun t => Bool.eqb (nth t a false) (nth t b false)) (seq 0 (2 ^ Nat.log2 bits))]] | _ => [] end.

Lemma control_runnable bits c : 0 < bits -> control_circuit bits = Ok c -> runnable c [bits; bits] [1] /\ computes c (same_low bits) /\ cOuts c = [[2 * bits]] /\ cIns c = [seq 0 bits; seq bits bits].
Proof.
  intros Hb E. destruct (control_circuit_ok Hb) as (gs & m & E' & Hm & HE). rewrite E in E'. assert (c = Circuit m [seq 0 bits; seq bits bits] [[2 * bits]] gs) as -> by congruence. clear E'.
  assert (P : 2 ^ Nat.log2 bits <= bits) by (apply Nat.log2_spec; lia).
  split; [|split; [|split; reflexivity]].
  - unfold runnable. cbn [cIns cOuts cGates cWires map]. rewrite !seq_length. split; [reflexivity|]. split; [reflexivity|].
    assert (EC : concat [seq 0 bits; seq bits bits] = seq 0 (2 * bits)) by (cbn [concat]; rewrite app_nil_r, <- seq_app; f_equal; lia). rewrite EC.
    split; [cbn [concat app fold_right]; replace (bits + (bits + 0) + (1 + 0)) with (2 * bits + 1) by lia; rewrite seq_app; reflexivity|].
    unfold control_circuit in E. set (temp := if bits =? 1 then [2 * bits] else seq (2 * bits + 1) bits) in *. set (next := if bits =? 1 then 2 * bits + 1 else 3 * bits + 1) in *.
    assert (Lt : length temp = bits) by (unfold temp; destruct (Nat.eqb_spec bits 1); [cbn; lia|apply seq_length]).
    assert (Tr : forall w, In w temp -> 2 * bits <= w < next).
    { intros w Hw. unfold temp, next in *. destruct (bits =? 1); [destruct Hw as [<-|[]]; lia|apply in_seq in Hw; lia]. }
    set (gf := fun i => Gate i (bits + i) GNxor (nth i temp 0)) in *.
    rewrite (@mapM_ok _ _ _ gf) in E by (intros i Hi; apply in_seq in Hi; rewrite (@get_ok _ _ _ 0) by lia; reflexivity). cbn [bind] in E.
    destruct (and_levels (Nat.log2_up bits) 0 bits (2 * bits) next temp) as [[gs2 m2]| | |] eqn:EA; cbn [bind fst snd] in E; try discriminate.
    assert (gs = map gf (seq 0 bits) ++ gs2) as -> by congruence. assert (m2 = m) as -> by congruence. clear E.
    assert (Hn : 2 * bits < next) by (unfold next; destruct (bits =? 1); lia).
    destruct (@and_levels_wd bits (2 * bits) (seq 0 (2 * bits)) (2 * bits) ltac:(intros w Hw; apply in_seq in Hw; lia) (le_n _) _ _ _ _ _ _ EA ltac:(intros w Hw; apply (proj2 (Tr w Hw))) Hn ltac:(lia)) as (Hmm & HW & HG & HO).
    assert (Hgf : forall g, In g (map gf (seq 0 bits)) -> exists j, j < bits /\ g = gf j).
    { intros g Hg. apply in_map_iff in Hg. destruct Hg as (j & <- & Hj). apply in_seq in Hj. exists j. split; [lia|reflexivity]. }
    split; [|split].
    + apply well_def_app.
      * apply par_wd. intros g Hg. destruct (Hgf g Hg) as (j & Hj & ->). cbn [gf gIn0 gIn1 gOut]. rewrite !in_seq. assert (In (nth j temp 0) temp) as X by (apply nth_In; lia). apply Tr in X. lia.
      * intros D HD. apply HW. intros w Hw. apply HD. right. apply In_nth with (d := 0) in Hw. destruct Hw as (j & Hj & <-). exists (gf j). split; [apply in_map, in_seq; lia|reflexivity].
    + intros g Hg. apply in_app_or in Hg. destruct Hg as [Hg|Hg]; [|apply (HG g Hg)]. destruct (Hgf g Hg) as (j & Hj & ->). cbn [gf gIn0 gIn1 gOut gType]. split; [discriminate|]. assert (In (nth j temp 0) temp) as X by (apply nth_In; lia). apply Tr in X. lia.
    + cbn [concat app]. intros w [<-|[]]. destruct (Nat.eq_dec bits 1) as [E1|E1].
      * exists (gf 0). split; [apply in_or_app; left; apply in_map, in_seq; lia|]. cbn [gf gOut]. unfold temp. rewrite E1. reflexivity.
      * destruct HO as (g & Hg & Eg); [lia|rewrite Nat.pow_0_r, Nat.div_1_r; lia|]. exists g. split; [apply in_or_app; right; exact Hg|exact Eg].
  - intros e. cbn [cGates cOuts cIns map]. rewrite HE. unfold same_low, eqs. do 2 f_equal.
    assert (FE : forall (f g : nat -> bool) l, (forall t, In t l -> f t = g t) -> forallb f l = forallb g l).
    { clear. intros f g l H. induction l as [|a l IH]; [reflexivity|]. cbn [forallb]. rewrite (H a (or_introl eq_refl)), IH; [reflexivity|]. intros t Ht. apply H. right. exact Ht. }
    apply FE. intros t Ht. apply in_seq in Ht. rewrite !(@nth_map_d _ _ _ _ t 0) by (rewrite seq_length; lia). rewrite !seq_nth by lia. reflexivity.
Qed.
