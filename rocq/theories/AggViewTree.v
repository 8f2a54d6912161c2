(* What a party receives in the aggregation tree hides the other party's shares, if it does in
   every Gmw run. *)
From Verif Require Import Base GmwModel AggModel AggCirModel AggCirSpec AggTwoModel AggTwoSpec AggTwoRel AggTwoTree AggTwoDown AggTwoLeaf AggRunModel AggViewModel AggViewSpec AggViewHide AggViewLanes.

(* a run without its messages that insists on the shape of the lanes *)
Definition shapedb (n : nat) (ins : list nat) (x : list lane_in) : bool := (length x =? n) && forallb (fun l => if list_eq_dec Nat.eq_dec (map (@length bool) l) ins then true else false) x.
Lemma shapedb_ok n ins x : shapedb n ins x = true <-> lanes_shaped n ins x.
Proof.
  unfold shapedb, lanes_shaped. rewrite andb_true_iff, Nat.eqb_eq, forallb_forall, Forall_forall.
  split; intros [A B]; (split; [exact A|]); intros l Hl; specialize (B l Hl); destruct (list_eq_dec Nat.eq_dec (map (@length bool) l) ins); congruence.
Qed.
Definition strict (n : nat) (ins : list nat) (run : mrun) : grun := fun x0 x1 => if shapedb n ins x0 && shapedb n ins x1 then do y <- run x0 x1; Ok (fst y) else UB.
Lemma strict_ok n ins outs F run : run_ok n ins outs F (fun x0 x1 => do y <- run x0 x1; Ok (fst y)) -> run_ok n ins outs F (strict n ins run).
Proof.
  intros H x0 x1 x L HX. destruct (H x0 x1 x L HX) as (y0 & y1 & E & HY). exists y0, y1. split; [|exact HY]. unfold strict. destruct (shares_shaped L HX) as [S0 S1].
  rewrite (proj2 (shapedb_ok _ _ _) S0), (proj2 (shapedb_ok _ _ _) S1). exact E.
Qed.
Lemma strict_inv n ins run x0 x1 y : strict n ins run x0 x1 = Ok y -> lanes_shaped n ins x0 /\ lanes_shaped n ins x1 /\ exists t, run x0 x1 = Ok (y, t).
Proof.
  unfold strict. destruct (shapedb n ins x0) eqn:E0; [|discriminate]. destruct (shapedb n ins x1) eqn:E1; [|discriminate]. intros E. apply bind_inv in E. destruct E as ((y' & t) & E & E').
  split; [apply shapedb_ok; exact E0|]. split; [apply shapedb_ok; exact E1|]. exists t. cbn [fst] in E'. congruence.
Qed.

Lemma hiding_ext {P Q R T V} b (view : T -> V) (valid : R -> Prop) (I : P * P -> Prop) (O : Q * Q -> Prop) p p' : (forall r s, p r s = p' r s) -> hiding b view valid I O p -> hiding b view valid I O p'.
Proof.
  intros E [A B]. split.
  - intros r s Hr Hs. rewrite <- E. apply A; assumption.
  - intros r s s' q t Hr Hs Hs' Eo H. rewrite <- E in H. destruct (B r s s' q t Hr Hs Hs' Eo H) as (r' & q' & K1 & K2 & K3 & K4). exists r', q'. split; [exact K1|]. split; [rewrite <- E; exact K2|]. split; [exact K3|].
    intros r2 q2 t2 H2 E2. rewrite <- E in E2. exact (K4 r2 q2 t2 H2 E2).
Qed.
Lemma steps_same {P R R'} (body : nat -> R -> P -> outcome (P * messages)) (body' : nat -> R' -> P -> outcome (P * messages)) : forall l l' i,
  length l = length l' -> (forall j x x', nth_error l j = Some x -> nth_error l' j = Some x' -> forall s, body (i + j) x s = body' (i + j) x' s) -> forall s, steps body i l s = steps body' i l' s.
Proof.
  induction l as [|x l IH]; intros [|x' l'] i L H s; try discriminate; [reflexivity|]. cbn [steps].
  specialize (H 0 x x' eq_refl eq_refl s) as H0. rewrite Nat.add_0_r in H0. rewrite H0. destruct (body' i x' s) as [y| | |]; try reflexivity. cbn [bind].
  rewrite (IH l' (i + 1)); [reflexivity|cbn [length] in L; lia|]. intros j z z' Hz Hz' t. replace (i + 1 + j) with (i + S j) by lia. exact (H (S j) z z' Hz Hz' t).
Qed.

Section K.
Variable k : nat.
Let RV := word_shares k.
Let RE : vent -> vent -> vent -> Prop := P3 RV bit_shares.
Let RS : @split (list bool) -> @split (list bool) -> @split (list bool) -> Prop := P3 (F3 RE) (F3 RE).
Let zero := repeat false k.
Variables f g : list bool -> list bool -> list bool.
Hypothesis FG : forall a b, length a = k -> length b = k -> g a b = f a b.
Hypothesis FL : forall a b, length a = k -> length b = k -> length (f a b) = k.
Variables o o' : list bool * bool.
Variables (ty : agg_type) (sh : shape) (b : bool).
Let top := length (sSizes sh) - 1.
Let sz := fun lvl => nth lvl (sSizes sh) 0 / 2.

(* the runs, with the randomness of the party that is not looking *)
Variable R : Type.
Variables (ups downs : nat -> R -> mrun) (leaf : R -> mrun).
Variables (vu vd : nat -> R -> Prop) (vl : R -> Prop).
Definition good_run (n : nat) (ins outs : list nat) (F : list (list bool) -> list (list bool)) (valid : R -> Prop) (run : R -> mrun) : Prop :=
  (forall r, valid r -> run_ok n ins outs F (fun x0 x1 => do y <- run r x0 x1; Ok (fst y))) /\ run_hiding b n ins valid run.
Hypothesis HU : forall lvl, lvl < top -> good_run (sz lvl) (up_ins k ty) (up_outs k ty) (up_fun f ty) (vu lvl) (ups lvl).
Hypothesis HD : forall i, i < top -> good_run (sz (top - i - 1)) (down_ins k ty) (down_outs k ty) (down_fun f o o' ty) (vd i) (downs i).
Hypothesis HLf : good_run (sN16 sh / 2) (leaf_ins k ty) (leaf_outs k) (leaf_fun f ty) vl leaf.

Notation leaves := (@split (list bool) * @split (list bool))%type.
Notation pup := (leaves * (side * side))%type.
Notation pdown := (leaves * ((list (@split (list bool)) * list (@split (list bool))) * (dside * dside)))%type.
Definition RLeaves (p q : leaves) (a c : @split (list bool)) : Prop := RS (fst p) (fst q) a /\ RS (snd p) (snd q) c.
Definition levels_at (u : side * side) := (fst (fst u), fst (snd u)).
(* on the way down before step j, and on the way up before step j: the states are shares of a plain
   computation that goes through *)
Definition JD (j : nat) (s : pdown * pdown) : Prop := exists a c lv st d res, RLeaves (fst (fst s)) (fst (snd s)) a c /\
  RLv k (fst (snd (fst s))) (fst (snd (snd s))) lv /\ RDP k (snd (snd (fst s))) (snd (snd (snd s))) st /\
  forN j (top - j) (fun i => plain_down k g ty sh lv (top - i - 1)) st = Ok d /\ plain_leaf k g ty sh a c d res.
Definition JU (j : nat) (s : pup * pup) : Prop := exists a c st u d res, RLeaves (fst (fst s)) (fst (snd s)) a c /\
  RParty k (snd (fst s)) (snd (snd s)) st /\ forN j (top - j) (plain_up k g ty sh) st = Ok u /\
  forN 0 top (fun i => plain_down k g ty sh (levels_at u) (top - i - 1)) (down_start u) = Ok d /\ plain_leaf k g ty sh a c d res.

Lemma up_hiding j : j < top -> hiding b (got b) (vu j) (JU j) (JU (j + 1)) (fun r s => up_msg zero ty sh j (ups j r) s).
Proof using All.
  intros Hj. destruct (HU Hj) as [RO RH]. unfold up_msg. apply (exchange_hiding RH). intros r s Hr (a & c & st & u & d & res & HA & HP & EU & ED & HLp).
  replace (top - j) with (S (top - (j + 1))) in EU by lia. cbn [forN] in EU. apply bind_inv in EU. destruct EU as (st' & ES & EU).
  destruct (@up_step k f g FG ty sh (strict (sz j) (up_ins k ty) (ups j r)) j (snd (fst s), snd (snd s)) st st' (strict_ok (RO r Hr)) HP ES) as (x0 & x1 & y0 & y1 & s' & E0 & E1 & E2 & E3 & E4 & HF).
  cbn [fst snd] in *. apply strict_inv in E2. destruct E2 as (S0 & S1 & t & E2).
  exists x0, x1, (y0, y1), t, (fst (fst s), fst s'), (fst (snd s), snd s'). do 5 (split; [assumption|]). cbn [fst snd]. unfold zero. rewrite E3, E4. do 2 (split; [reflexivity|]).
  exists a, c, st', u, d, res. cbn [fst snd]. auto.
Qed.
Lemma down_hiding j : j < top -> hiding b (got b) (vd j) (JD j) (JD (j + 1)) (fun r s => down_msg zero ty sh j (downs j r) s).
Proof using All.
  intros Hj. destruct (HD Hj) as [RO RH]. unfold down_msg. cbv zeta. apply (exchange_hiding RH). intros r s Hr (a & c & lv & st & d & res & HA & HV & HP & ED & HLp).
  replace (top - j) with (S (top - (j + 1))) in ED by lia. cbn [forN] in ED. apply bind_inv in ED. destruct ED as (st' & ES & ED).
  destruct (@down_step k f g FG o o' ty sh (strict (sz (top - j - 1)) (down_ins k ty) (downs j r)) (top - j - 1) (fst (snd (fst s))) (fst (snd (snd s))) lv (snd (snd (fst s)), snd (snd (snd s))) st st' (strict_ok (RO r Hr)) HV HP ES)
    as (x0 & x1 & y0 & y1 & s' & E0 & E1 & E2 & E3 & E4 & HF).
  cbn [fst snd] in *. apply strict_inv in E2. destruct E2 as (S0 & S1 & t & E2).
  exists x0, x1, (y0, y1), t, (fst (fst s), (fst (snd (fst s)), fst s')), (fst (snd s), (fst (snd (snd s)), snd s')). do 5 (split; [assumption|]). cbn [fst snd]. fold top. unfold zero. rewrite E3, E4. do 2 (split; [reflexivity|]).
  exists a, c, lv, st', d, res. cbn [fst snd]. auto 6.
Qed.
Lemma leaf_hiding : hiding b (got b) vl (JD top) (fun _ => True) (fun r s => leaf_msg zero ty sh (leaf r) s).
Proof using All.
  destruct HLf as [RO RH]. unfold leaf_msg. apply (exchange_hiding RH). intros r s Hr (a & c & lv & st & d & res & (HA & HC) & _ & HP & ED & HLp).
  rewrite Nat.sub_diag in ED. cbn [forN] in ED. assert (st = d) by congruence. subst d.
  destruct (@leaf_step k f g FG FL ty sh (strict (sN16 sh / 2) (leaf_ins k ty) (leaf r)) (fst (fst (fst s))) (fst (fst (snd s))) a (snd (fst (fst s))) (snd (fst (snd s))) c (snd (snd (fst s)), snd (snd (snd s))) st res (strict_ok (RO r Hr)) HA HC HP HLp)
    as (x0 & x1 & y0 & y1 & o0 & o1 & E0 & E1 & E2 & E3 & E4 & _).
  cbn [fst snd] in *. rewrite <- surjective_pairing in E0, E1. apply strict_inv in E2. destruct E2 as (S0 & S1 & t & E2).
  exists x0, x1, (y0, y1), t, o0, o1. do 5 (split; [assumption|]). auto.
Qed.

Definition valid_tree (r : (list R * list R) * R) : Prop :=
  ((length (fst (fst r)) = top /\ forall j x, nth_error (fst (fst r)) j = Some x -> vu (0 + j) x) /\
   (length (snd (fst r)) = top /\ forall j x, nth_error (snd (fst r)) j = Some x -> vd (0 + j) x)) /\ vl (snd r).
Lemma turn_ok s : JU (0 + top) s -> JD 0 (turn (fst s), turn (snd s)).
Proof.
  intros (a & c & st & u & d & res & HA & HP & EU & ED & HLp). rewrite Nat.add_0_l, Nat.sub_diag in EU. cbn [forN] in EU. assert (st = u) by congruence. subst u.
  exists a, c, (levels_at st), (down_start st), d, res. destruct HP as [[P1 P2] [P3' P4]]. cbn [turn fst snd]. split; [exact HA|]. split; [split; assumption|]. split; [|rewrite Nat.sub_0_r; auto].
  split; (split; [|split; apply f3_nil]); cbn [down_start fst snd]; (eapply f3_map; [|eassumption]; intros x y z [H _]; exact H).
Qed.
Theorem tree_hiding : hiding b (fun t => (map (got b) (fst (fst t)), map (got b) (snd (fst t)), got b (snd t))) valid_tree (JU 0) (fun _ => True)
  (fun r s => do u <- steps (fun j r => up_msg zero ty sh j (ups j r)) 0 (fst (fst r)) s;
     do d <- steps (fun j r => down_msg zero ty sh j (downs j r)) 0 (snd (fst r)) (turn (fst (fst u)), turn (snd (fst u)));
     do l <- leaf_msg zero ty sh (leaf (snd r)) (fst d);
     Ok (fst l, (snd u, snd d, snd l))).
Proof using All.
  pose proof (@steps_hiding _ _ b (fun j r => up_msg zero ty sh j (ups j r)) vu JU top 0 (fun j Hj => @up_hiding j ltac:(lia))) as A1.
  pose proof (@steps_hiding _ _ b (fun j r => down_msg zero ty sh j (downs j r)) vd JD top 0 (fun j Hj => @down_hiding j ltac:(lia))) as A2.
  pose proof (@local_hiding _ _ _ _ _ _ _ _ _ _ _ _ (@turn) _ A2 turn_ok) as A3.
  pose proof (seq_hiding (seq_hiding A1 A3) leaf_hiding) as A4.
  revert A4. apply hiding_ext. intros r s. cbv beta. destruct (steps _ 0 (fst (fst r)) s) as [u| | |]; try reflexivity. cbn [bind].
  destruct (steps _ 0 (snd (fst r)) _) as [d| | |]; try reflexivity.
Qed.
End K.
