(* Hiding of one party's data in a protocol, put together from hiding in its steps. *)
From Verif Require Import Base AggTwoTree GmwModel AggCirModel AggTwoModel AggViewModel AggViewSpec.

(* a protocol p with randomness r of the party that is not looking succeeds from states in I, ends
   in O, and for any two starts with the same data of the party that looks, for each r in the one
   run there is exactly one in the other with the same messages and the same end of that party *)
Definition hiding {P Q R T V} (b : bool) (view : T -> V) (valid : R -> Prop) (I : P * P -> Prop) (O : Q * Q -> Prop) (p : R -> P * P -> outcome ((Q * Q) * T)) : Prop :=
  (forall r s, valid r -> I s -> exists q t, p r s = Ok (q, t) /\ O q) /\
  (forall r s s' q t, valid r -> I s -> I s' -> own b s = own b s' -> p r s = Ok (q, t) ->
    exists r' q', valid r' /\ p r' s' = Ok (q', t) /\ own b q' = own b q /\
      forall r2 q2 t2, valid r2 -> p r2 s' = Ok (q2, t2) -> view t2 = view t -> r2 = r').

(* hiding in one run on lanes *)
Definition lanes_shaped (n : nat) (ins : list nat) (x : list lane_in) : Prop := length x = n /\ Forall (fun l => map (@length bool) l = ins) x.
Definition run_hiding {R} (b : bool) (n : nat) (ins : list nat) (valid : R -> Prop) (run : R -> mrun) : Prop :=
  forall r x x' y t, valid r -> lanes_shaped n ins (fst x) -> lanes_shaped n ins (snd x) -> lanes_shaped n ins (fst x') -> lanes_shaped n ins (snd x') ->
    own b x = own b x' -> run r (fst x) (snd x) = Ok (y, t) ->
    exists r' y', valid r' /\ run r' (fst x') (snd x') = Ok (y', t) /\ own b y' = own b y /\
      forall r2 y2 t2, valid r2 -> run r2 (fst x') (snd x') = Ok (y2, t2) -> got b t2 = got b t -> r2 = r'.

Lemma exchange_inv {P Q} (send : P -> outcome (list lane_in)) (recv : P -> list lane_in -> outcome Q) run s q t :
  exchange send recv run s = Ok (q, t) -> exists x y, send (fst s) = Ok (fst x) /\ send (snd s) = Ok (snd x) /\ run (fst x) (snd x) = Ok (y, t) /\
    recv (fst s) (fst y) = Ok (fst q) /\ recv (snd s) (snd y) = Ok (snd q).
Proof.
  unfold exchange. intros E. apply bind_inv in E. destruct E as (x0 & E0 & E). apply bind_inv in E. destruct E as (x1 & E1 & E). apply bind_inv in E. destruct E as ((y & t') & E2 & E).
  apply bind_inv in E. destruct E as (p0 & E3 & E). apply bind_inv in E. destruct E as (p1 & E4 & E). cbn [fst snd] in *. injection E as <- <-. exists (x0, x1), y. auto.
Qed.
Lemma exchange_val {P Q} (send : P -> outcome (list lane_in)) (recv : P -> list lane_in -> outcome Q) (run : mrun) s x0 x1 y t p0 p1 :
  send (fst s) = Ok x0 -> send (snd s) = Ok x1 -> run x0 x1 = Ok (y, t) -> recv (fst s) (fst y) = Ok p0 -> recv (snd s) (snd y) = Ok p1 ->
  exchange send recv run s = Ok ((p0, p1), t).
Proof. intros E0 E1 E2 E3 E4. unfold exchange. rewrite E0. cbn [bind]. rewrite E1. cbn [bind]. rewrite E2. cbn [bind fst snd]. rewrite E3. cbn [bind]. rewrite E4. reflexivity. Qed.
Lemma own_fun {A B} b (f : A -> outcome B) (s s' : A * A) q0 q1 q0' q1' : own b s = own b s' -> f (fst s) = Ok q0 -> f (snd s) = Ok q1 -> f (fst s') = Ok q0' -> f (snd s') = Ok q1' ->
  own b (q0, q1) = own b (q0', q1').
Proof. destruct b; cbn [own fst snd]; intros E A1 A2 A3 A4; rewrite E in *; congruence. Qed.

Lemma exchange_hiding {P Q R} (send : P -> outcome (list lane_in)) (recv : P -> list lane_in -> outcome Q) b n ins (valid : R -> Prop) (run : R -> mrun) (I : P * P -> Prop) (O : Q * Q -> Prop) :
  run_hiding b n ins valid run ->
  (forall r s, valid r -> I s -> exists x0 x1 y t q0 q1, send (fst s) = Ok x0 /\ send (snd s) = Ok x1 /\ lanes_shaped n ins x0 /\ lanes_shaped n ins x1 /\
     run r x0 x1 = Ok (y, t) /\ recv (fst s) (fst y) = Ok q0 /\ recv (snd s) (snd y) = Ok q1 /\ O (q0, q1)) ->
  hiding b (got b) valid I O (fun r s => exchange send recv (run r) s).
Proof.
  intros HR HG. split.
  { intros r s Hr Hs. destruct (HG r s Hr Hs) as (x0 & x1 & y & t & q0 & q1 & E0 & E1 & _ & _ & E2 & E3 & E4 & HO). exists (q0, q1), t. split; [|exact HO]. eapply exchange_val; eassumption. }
  intros r s s' q t Hr Hs Hs' Eo E. destruct (HG r s Hr Hs) as (x0 & x1 & y & t0 & q0 & q1 & E0 & E1 & S0 & S1 & E2 & E3 & E4 & _).
  rewrite (@exchange_val _ _ _ _ _ _ _ _ _ _ _ _ E0 E1 E2 E3 E4) in E. injection E as <- <-.
  destruct (HG r s' Hr Hs') as (x0' & x1' & _ & _ & _ & _ & E0' & E1' & S0' & S1' & _).
  destruct (HR r (x0, x1) (x0', x1') y t0 Hr S0 S1 S0' S1' (@own_fun _ _ b send _ _ _ _ _ _ Eo E0 E1 E0' E1') E2) as (r' & y' & Hr' & E2' & EY & U). cbn [fst snd] in *.
  destruct (HG r' s' Hr' Hs') as (x0'' & x1'' & y'' & t'' & p0 & p1 & F0 & F1 & _ & _ & F2 & F3 & F4 & _).
  assert (x0'' = x0') by congruence. assert (x1'' = x1') by congruence. subst x0'' x1''. assert (y'' = y' /\ t'' = t0) as [-> ->] by (split; congruence).
  exists r', (p0, p1). split; [exact Hr'|]. split; [eapply exchange_val; eassumption|]. split.
  { destruct b; cbn [own fst snd] in *; rewrite Eo, <- EY in *; congruence. }
  intros r2 q2 t2 Hr2 E V. apply exchange_inv in E. destruct E as (x & y2 & G0 & G1 & G2 & _). assert (fst x = x0') by congruence. assert (snd x = x1') by congruence. rewrite H, H0 in G2. exact (U r2 y2 t2 Hr2 G2 V).
Qed.

(* two protocols one after the other *)
Lemma seq_hiding {P Q S' R1 R2 T1 T2 V1 V2} b (v1 : T1 -> V1) (v2 : T2 -> V2) (valid1 : R1 -> Prop) (valid2 : R2 -> Prop) (I : P * P -> Prop) (J : Q * Q -> Prop) (O : S' * S' -> Prop)
    (p : R1 -> P * P -> outcome ((Q * Q) * T1)) (q : R2 -> Q * Q -> outcome ((S' * S') * T2)) :
  hiding b v1 valid1 I J p -> hiding b v2 valid2 J O q ->
  hiding b (fun t => (v1 (fst t), v2 (snd t))) (fun r => valid1 (fst r) /\ valid2 (snd r)) I O
    (fun r s => do y <- p (fst r) s; do z <- q (snd r) (fst y); Ok (fst z, (snd y, snd z))).
Proof.
  intros [A1 A2] [B1 B2]. split.
  { intros [r1 r2] s [Hr1 Hr2] Hs. cbn [fst snd] in *. destruct (A1 r1 s Hr1 Hs) as (y & t1 & E1 & HJ). destruct (B1 r2 y Hr2 HJ) as (z & t2 & E2 & HO). exists z, (t1, t2). rewrite E1. cbn [bind fst snd]. rewrite E2. auto. }
  intros [r1 r2] s s' z t [Hr1 Hr2] Hs Hs' Eo E. cbn [fst snd] in *. destruct (A1 r1 s Hr1 Hs) as (y & t1 & E1 & HJ). destruct (B1 r2 y Hr2 HJ) as (z' & t2 & E2 & _).
  rewrite E1 in E. cbn [bind fst snd] in E. rewrite E2 in E. cbn [bind fst snd] in E. injection E as <- <-.
  destruct (A2 r1 s s' y t1 Hr1 Hs Hs' Eo E1) as (r1' & y' & Hr1' & E1' & Eo' & U1). destruct (A1 r1' s' Hr1' Hs') as (y'' & t'' & E1'' & HJ'). assert (y'' = y') by congruence. subst y''.
  destruct (B2 r2 y y' z' t2 Hr2 HJ HJ' (eq_sym Eo') E2) as (r2' & z2 & Hr2' & E2' & Eo2 & U2).
  exists (r1', r2'), z2. cbn [fst snd]. split; [auto|]. split; [rewrite E1'; cbn [bind fst snd]; rewrite E2'; reflexivity|]. split; [exact Eo2|].
  intros [k1 k2] w t [Hk1 Hk2] E V. cbn [fst snd] in *. apply bind_inv in E. destruct E as ((y3 & t3) & G1 & E). apply bind_inv in E. destruct E as ((z3 & t4) & G2 & E). cbn [fst snd] in *. injection E as <- <-.
  cbn [fst snd] in V. assert (V1' : v1 t3 = v1 t1) by congruence. assert (V2' : v2 t4 = v2 t2) by congruence.
  assert (k1 = r1') as -> by exact (U1 _ _ _ Hk1 G1 V1'). rewrite E1' in G1. injection G1 as <- <-. f_equal. exact (U2 _ _ _ Hk2 G2 V2').
Qed.

(* both parties go on by themselves *)
Lemma local_hiding {P P' Q R T V} b (view : T -> V) (valid : R -> Prop) (I : P * P -> Prop) (I' : P' * P' -> Prop) (O : Q * Q -> Prop) (f : P' -> P) (p : R -> P * P -> outcome ((Q * Q) * T)) :
  hiding b view valid I O p -> (forall s, I' s -> I (f (fst s), f (snd s))) -> hiding b view valid I' O (fun r s => p r (f (fst s), f (snd s))).
Proof.
  intros [A1 A2] HI. split.
  { intros r s Hr Hs. apply A1; auto. }
  intros r s s' q t Hr Hs Hs' Eo E. apply (A2 r (f (fst s), f (snd s))); auto. destruct b; cbn [own fst snd] in *; congruence.
Qed.

(* a loop *)
Lemma steps_hiding {P R} b (body : nat -> R -> P * P -> outcome ((P * P) * messages)) (valid : nat -> R -> Prop) (J : nat -> P * P -> Prop) m : forall i,
  (forall j, i <= j < i + m -> hiding b (got b) (valid j) (J j) (J (j + 1)) (body j)) ->
  hiding b (map (got b)) (fun rs => length rs = m /\ forall j r, nth_error rs j = Some r -> valid (i + j) r) (J i) (J (i + m)) (steps body i).
Proof.
  induction m as [|m IH]; intros i H.
  { split.
    - intros [|r rs] s [L _] Hs; [|discriminate]. exists s, []. rewrite Nat.add_0_r. auto.
    - intros [|r rs] s s' q t [L _] Hs Hs' Eo E; [|discriminate]. cbn [steps] in E. injection E as <- <-. exists [], s'. split; [split; [reflexivity|intros [|j] r Hj; discriminate]|]. split; [reflexivity|]. split; [auto|].
      intros [|r rs] q2 t2 [L2 _] _ _; [reflexivity|discriminate]. }
  assert (HB : hiding b (got b) (valid i) (J i) (J (i + 1)) (body i)) by (apply H; lia).
  assert (HT : hiding b (map (got b)) (fun rs => length rs = m /\ forall j r, nth_error rs j = Some r -> valid (i + 1 + j) r) (J (i + 1)) (J (i + 1 + m)) (steps body (i + 1))) by (apply IH; intros j Hj; apply H; lia).
  destruct (seq_hiding HB HT) as [C1 C2]. replace (i + 1 + m) with (i + S m) in * by lia.
  assert (VS : forall r rs, length (r :: rs) = S m /\ (forall j r0, nth_error (r :: rs) j = Some r0 -> valid (i + j) r0) <-> valid i r /\ length rs = m /\ (forall j r0, nth_error rs j = Some r0 -> valid (i + 1 + j) r0)).
  { intros r rs. split.
    - intros [L K]. split; [specialize (K 0 r eq_refl); rewrite Nat.add_0_r in K; exact K|]. split; [cbn [length] in L; lia|]. intros j r0 Hj. specialize (K (S j) r0 Hj). replace (i + 1 + j) with (i + S j) by lia. exact K.
    - intros (V & L & K). split; [cbn [length]; lia|]. intros [|j] r0 Hj; cbn [nth_error] in Hj; [rewrite Nat.add_0_r; assert (r0 = r) as -> by congruence; exact V|]. replace (i + S j) with (i + 1 + j) by lia. exact (K j r0 Hj). }
  split.
  { intros [|r rs] s HV Hs; [destruct HV; discriminate|]. apply VS in HV. destruct (C1 (r, rs) s HV Hs) as (q & t & E & HO). cbn [fst snd] in E. apply bind_inv in E. destruct E as (y & E1 & E). apply bind_inv in E. destruct E as (z & E2 & E). injection E as <- <-.
    exists (fst z), (snd y :: snd z). cbn [steps]. rewrite E1. cbn [bind]. rewrite E2. auto. }
  intros [|r rs] s s' q t HV Hs Hs' Eo E; [destruct HV; discriminate|]. apply VS in HV. cbn [steps] in E. apply bind_inv in E. destruct E as (y & E1 & E). apply bind_inv in E. destruct E as (z & E2 & E). injection E as <- <-.
  destruct (C2 (r, rs) s s' (fst z) (snd y, snd z) HV Hs Hs' Eo) as ((r' & rs') & q' & HV' & E' & Eo' & U); [cbn [fst snd]; rewrite E1; cbn [bind]; rewrite E2; reflexivity|].
  cbn [fst snd] in *. apply bind_inv in E'. destruct E' as (y' & E1' & E'). apply bind_inv in E'. destruct E' as (z' & E2' & E'). injection E' as <- A1 A2.
  exists (r' :: rs'), (fst z'). split; [apply VS; exact HV'|]. split; [cbn [steps]; rewrite E1'; cbn [bind]; rewrite E2'; cbn [bind]; rewrite A1, A2; reflexivity|]. split; [exact Eo'|].
  intros [|k ks] q2 t2 HV2 E V; [destruct HV2; discriminate|]. apply VS in HV2. cbn [steps] in E. apply bind_inv in E. destruct E as (y2 & G1 & E). apply bind_inv in E. destruct E as (z2 & G2 & E). injection E as <- <-.
  cbn [map] in V. injection V as V1 V2. specialize (U (k, ks) (fst z2) (snd y2, snd z2) HV2). cbn [fst snd] in U. rewrite G1 in U. cbn [bind] in U. rewrite G2 in U. cbn [bind] in U.
  assert (X : (k, ks) = (r', rs')) by (apply U; [reflexivity|congruence]). congruence.
Qed.
