(* The circuit of LowMC2::to_enc_circuit computes the cipher (C58). *)
From Verif Require Import Base PermCorProofs GmwModel GmwSpec GmwProofs CircuitProofs LowMCModel LowMCSpec LowMCMat LowMCProofs.

Definition gop (xor a b : bool) : bool := if xor then xorb a b else a && b.

Lemma add_gate_ok W xor a b out s : length (fst s) = W -> a < W -> b < W -> out < W ->
  exists s', add_gate xor a b out s = Ok s' /\ length (fst s') = W /\
    (forall i, nth i (fst s') true = if i =? out then false else nth i (fst s) true) /\
    (forall e i, lval s' e i = if i =? out then gop xor (lval s e a) (lval s e b) else lval s e i) /\
    (exists g, snd s' = snd s ++ [g] /\ gIn0 g = a /\ gIn1 g = b /\ gOut g = out).
Proof.
  intros HL Ha Hb Ho. destruct s as [fl gs]; cbn [fst] in HL. unfold add_gate.
  rewrite !(getn false) by lia. cbn [bind]. rewrite set_lt by lia. cbn [bind].
  eexists. split; [reflexivity|]. cbn [fst snd]. rewrite upd_length. split; auto.
  split; [|split].
  - intros i. rewrite nthu, Nat.eqb_sym. destruct (Nat.eqb_spec i out); auto.
    destruct (Nat.ltb_spec out (length fl)); [auto|lia].
  - intros e i. unfold lval; cbn [fst snd]. rewrite nthu, eval_app.
    unfold eval at 1. cbn [fold_left]. unfold step, put. cbn [gOut gType gIn0 gIn1].
    rewrite Nat.eqb_sym. destruct (Nat.eqb_spec i out) as [->|]; auto.
    destruct (Nat.ltb_spec out (length fl)); [|lia]. cbn [andb]. unfold gop.
    destruct xor, (nth a fl false), (nth b fl false), (eval gs e a), (eval gs e b); reflexivity.
  - eexists. split; [reflexivity|]. auto.
Qed.

Ltac weq := repeat match goal with |- context [?x =? ?y] =>
  first [rewrite (proj2 (Nat.eqb_neq x y)) by lia | rewrite (proj2 (Nat.eqb_eq x y)) by lia] end.

Lemma next_one_ok row : forall fuel j n, j + fuel = n -> (exists i, j <= i < n /\ bit_at row i = true) ->
  exists f, next_one fuel row j = Ok f /\ j <= f < n /\ bit_at row f = true /\ forall i, j <= i < f -> bit_at row i = false.
Proof.
  induction fuel as [|fuel IH]; intros j n Hn (i & Hi & Bi); [lia|]. cbn [next_one].
  destruct (bit_at row j) eqn:B.
  - exists j. repeat split; auto; try lia; intros; lia.
  - destruct (IH (j + 1) n) as (f & E & Hf & Bf & Zf); [lia| |].
    + exists i. split; auto. destruct (Nat.eq_dec i j); [congruence|lia].
    + exists f. split; auto. split; [lia|]. split; auto. intros t Ht. destruct (Nat.eq_dec t j) as [->|]; auto. apply Zf. lia.
Qed.

Section Circuit.
Variable p : lparams.
Variable l : lowmc.
Let B := lpBits p.
Let R := lpRounds p.
Let S0 := B * (2 + R).
Let W := B * (4 + R) + 1.
Hypothesis HS : shaped p l.
Hypothesis H2 : Forall (Forall (two_ones B)) (lmLin l).

Lemma wS i : wState p i = S0 + i. Proof. reflexivity. Qed.
Lemma wT i : wTemp p i = S0 + B + i. Proof. unfold wTemp, S0, B, R. lia. Qed.
Lemma wT2 : wTemp2 p = S0 + 2 * B. Proof. unfold wTemp2, S0, B, R. lia. Qed.
Lemma wW : W = S0 + 2 * B + 1. Proof. unfold W, S0. lia. Qed.
Lemma wK r i : r <= R -> i < B -> wKey p r i < S0.
Proof. unfold wKey, S0. fold B. intros Hr Hi. nia. Qed.

(* the input wires carry the inputs *)
Definition in_ok (s : bcir) : Prop := length (fst s) = W /\ forall e w, w < S0 -> lval s e w = e w.

(* the substitution layer *)
Lemma box_ok i s : i < lpBoxes p -> in_ok s ->
  exists s', cir_box p i s = Ok s' /\ in_ok s' /\
    forall e j, j < B -> lval s' e (S0 + j) =
      let c := lval s e (S0 + 3 * i) in let b := lval s e (S0 + (3 * i + 1)) in let a := lval s e (S0 + (3 * i + 2)) in
      if j =? 3 * i then sb_c a b c else if j =? 3 * i + 1 then sb_b a b c else if j =? 3 * i + 2 then sb_a a b c
      else lval s e (S0 + j).
Proof.
  intros Hi [HL HI]. destruct HS as (Hb & _). fold B in Hb.
  unfold cir_box. rewrite !wS, !wT, wT2. pose proof wW as HW.
  assert (Hc : i * 3 + 2 < B) by lia. clear HS H2. clearbody S0 W B.
  set (c := S0 + (i * 3 + 0)). set (b := S0 + (i * 3 + 1)). set (a := S0 + (i * 3 + 2)).
  set (aa := S0 + B + (i * 3 + 0)). set (bb := S0 + B + (i * 3 + 1)). set (cc := S0 + B + (i * 3 + 2)).
  set (t := S0 + 2 * B).
  destruct (@add_gate_ok W true a b t s HL) as (s1 & E1 & L1 & _ & V1 & _); [lia|lia|lia|]. rewrite E1. cbn [bind].
  destruct (@add_gate_ok W false b c aa s1 L1) as (s2 & E2 & L2 & _ & V2 & _); [lia|lia|lia|]. rewrite E2. cbn [bind].
  destruct (@add_gate_ok W false a c bb s2 L2) as (s3 & E3 & L3 & _ & V3 & _); [lia|lia|lia|]. rewrite E3. cbn [bind].
  destruct (@add_gate_ok W false a b cc s3 L3) as (s4 & E4 & L4 & _ & V4 & _); [lia|lia|lia|]. rewrite E4. cbn [bind].
  destruct (@add_gate_ok W true cc c cc s4 L4) as (s5 & E5 & L5 & _ & V5 & _); [lia|lia|lia|]. rewrite E5. cbn [bind].
  destruct (@add_gate_ok W true a aa a s5 L5) as (s6 & E6 & L6 & _ & V6 & _); [lia|lia|lia|]. rewrite E6. cbn [bind].
  destruct (@add_gate_ok W true t bb b s6 L6) as (s7 & E7 & L7 & _ & V7 & _); [lia|lia|lia|]. rewrite E7. cbn [bind].
  destruct (@add_gate_ok W true cc t c s7 L7) as (s8 & E8 & L8 & _ & V8 & _); [lia|lia|lia|].
  exists s8. split; auto.
  assert (K : forall e w, w <> a -> w <> b -> w <> c -> w <> aa -> w <> bb -> w <> cc -> w <> t -> lval s8 e w = lval s e w).
  { intros e w N1 N2 N3 N4 N5 N6 N7. rewrite V8. weq. rewrite V7. weq. rewrite V6. weq. rewrite V5. weq. rewrite V4. weq. rewrite V3. weq. rewrite V2. weq. rewrite V1. weq. reflexivity. }
  (* the intermediate wires *)
  assert (T : forall e, lval s5 e t = xorb (lval s e a) (lval s e b)).
  { intros e. rewrite V5. weq. rewrite V4. weq. rewrite V3. weq. rewrite V2. weq. rewrite V1. weq. reflexivity. }
  assert (AA : forall e, lval s5 e aa = lval s e b && lval s e c).
  { intros e. rewrite V5. weq. rewrite V4. weq. rewrite V3. weq. rewrite V2. weq. rewrite !V1. weq. reflexivity. }
  assert (BB : forall e, lval s5 e bb = lval s e a && lval s e c).
  { intros e. rewrite V5. weq. rewrite V4. weq. rewrite V3. weq. rewrite !V2. weq. rewrite !V1. weq. reflexivity. }
  assert (CC : forall e, lval s5 e cc = xorb (lval s e a && lval s e b) (lval s e c)).
  { intros e. rewrite V5. weq. rewrite !V4. weq. rewrite !V3. weq. rewrite !V2. weq. rewrite !V1. weq. reflexivity. }
  assert (A5 : forall e, lval s5 e a = lval s e a).
  { intros e. rewrite V5. weq. rewrite V4. weq. rewrite V3. weq. rewrite V2. weq. rewrite V1. weq. reflexivity. }
  assert (C8 : forall e, lval s8 e c = sb_c (lval s e a) (lval s e b) (lval s e c)).
  { intros e. rewrite V8. weq. rewrite !V7. weq. rewrite !V6. weq. rewrite CC, T. unfold gop, sb_c.
    destruct (lval s e a), (lval s e b), (lval s e c); reflexivity. }
  assert (B8 : forall e, lval s8 e b = sb_b (lval s e a) (lval s e b) (lval s e c)).
  { intros e. rewrite V8. weq. rewrite V7. weq. rewrite !V6. weq. rewrite BB, T. reflexivity. }
  assert (A8 : forall e, lval s8 e a = sb_a (lval s e a) (lval s e b) (lval s e c)).
  { intros e. rewrite V8. weq. rewrite V7. weq. rewrite V6. weq. rewrite AA, A5. reflexivity. }
  split.
  - split; auto. intros e w Hw. rewrite K by lia. auto.
  - intros e j Hj. cbn zeta.
    replace (S0 + 3 * i) with c by lia. replace (S0 + (3 * i + 1)) with b by lia. replace (S0 + (3 * i + 2)) with a by lia.
    destruct (Nat.eqb_spec j (3 * i)); [replace (S0 + j) with c by lia; apply C8|].
    destruct (Nat.eqb_spec j (3 * i + 1)); [replace (S0 + j) with b by lia; apply B8|].
    destruct (Nat.eqb_spec j (3 * i + 2)); [replace (S0 + j) with a by lia; apply A8|].
    apply K; lia.
Qed.

Lemma boxes_ok s : in_ok s ->
  exists s', forN 0 (lpBoxes p) (cir_box p) s = Ok s' /\ in_ok s' /\
    forall e j, j < B -> lval s' e (S0 + j) = slayer (lpBoxes p) (fun j => lval s e (S0 + j)) j.
Proof.
  intros HI. pose proof HS as (Hb & _). fold B in Hb.
  destruct (@forN_inv _ (fun k s' => in_ok s' /\ forall e j, j < B -> lval s' e (S0 + j) =
      if j <? 3 * k then slayer (lpBoxes p) (fun j => lval s e (S0 + j)) j else lval s e (S0 + j))
    (cir_box p) (lpBoxes p) 0 s) as (s' & E & I & V).
  - split; auto.
  - intros k s1 Hk [I1 V1]. destruct (@box_ok k s1) as (s2 & E2 & I2 & V2); [lia|auto|].
    exists s2. split; auto. split; auto. intros e j Hj. rewrite V2 by auto. cbn zeta.
    rewrite (V1 e (3 * k)), (V1 e (3 * k + 1)), (V1 e (3 * k + 2)), (V1 e j) by lia.
    destruct (Nat.ltb_spec (3 * k) (3 * k)), (Nat.ltb_spec (3 * k + 1) (3 * k)), (Nat.ltb_spec (3 * k + 2) (3 * k)); try lia.
    destruct (Nat.ltb_spec j (3 * k)) as [L|L].
    + weq. destruct (Nat.ltb_spec j (3 * (k + 1))); [reflexivity|lia].
    + destruct (Nat.ltb_spec j (3 * (k + 1))) as [L'|L']; [|weq; reflexivity].
      unfold slayer. destruct (Nat.ltb_spec j (3 * lpBoxes p)); [|lia]. cbn zeta.
      assert (Ed : j / 3 = k) by lia. rewrite Ed.
      assert (Em : j mod 3 = j - 3 * k) by lia. rewrite Em.
      destruct (Nat.eqb_spec j (3 * k)); [replace (j - 3 * k) with 0 by lia; reflexivity|].
      destruct (Nat.eqb_spec j (3 * k + 1)); [replace (j - 3 * k) with 1 by lia; reflexivity|].
      destruct (Nat.eqb_spec j (3 * k + 2)); [replace (j - 3 * k) with 2 by lia; reflexivity|lia].
  - exists s'. split; auto. split; auto. intros e j Hj. rewrite V by auto.
    destruct (Nat.ltb_spec j (3 * (0 + lpBoxes p))); auto. unfold slayer. destruct (Nat.ltb_spec j (3 * lpBoxes p)); [lia|auto].
Qed.

(* the linear layer *)
Lemma row_ok rw i s : two_ones B rw -> i < B -> length (fst s) = W ->
  exists s', cir_row p rw i s = Ok s' /\ length (fst s') = W /\
    forall e w, lval s' e w = if w =? S0 + B + i then xsum B (fun j => bit_at rw j && lval s e (S0 + j)) else lval s e w.
Proof.
  intros (u & v & Huv & Bu & Bv) Hi HL. unfold cir_row. fold B. pose proof wW as HW.
  destruct (@next_one_ok rw B 0 B) as (f & Ef & Hf & Bf & Zf); [lia|exists u; split; [lia|auto]|].
  rewrite Ef. cbn [bind].
  assert (Fu : f <= u). { destruct (Nat.le_gt_cases f u); auto. change (bitv rw u) with (bit_at rw u) in Bu. rewrite Zf in Bu by lia. discriminate. }
  destruct (@next_one_ok rw (B - (f + 1)) (f + 1) B) as (g & Eg & Hg & Bg & Zg); [lia|exists v; split; [lia|auto]|].
  rewrite Eg. cbn [bind]. rewrite !wS, wT.
  destruct (@add_gate_ok W true (S0 + f) (S0 + g) (S0 + B + i) s HL) as (s1 & E1 & L1 & _ & V1 & _); [lia|lia|lia|].
  rewrite E1. cbn [bind].
  destruct (@forN_inv _ (fun k s' => length (fst s') = W /\ forall e w, lval s' e w =
      if w =? S0 + B + i then xsum k (fun j => bit_at rw j && lval s e (S0 + j)) else lval s e w)
    (fun j s => if bit_at rw j then add_gate true (S0 + B + i) (wState p j) (S0 + B + i) s else Ok s)
    (B - (g + 1)) (g + 1) s1) as (s' & E & L & V).
  - split; auto. intros e w. rewrite V1. destruct (w =? S0 + B + i); auto.
    replace (g + 1) with (S g) by lia. cbn [xsum]. rewrite Bg. unfold gop. cbn [andb].
    rewrite (@xsum_single g _ f); [rewrite Bf; reflexivity|lia|].
    intros t Ht Ne. destruct (Nat.lt_ge_cases t f); [rewrite Zf by lia|rewrite Zg by lia]; reflexivity.
  - intros k s2 Hk [L2 V2]. destruct (bit_at rw k) eqn:Bk.
    + rewrite wS. destruct (@add_gate_ok W true (S0 + B + i) (S0 + k) (S0 + B + i) s2 L2) as (s3 & E3 & L3 & _ & V3 & _); [lia|lia|lia|].
      exists s3. split; auto. split; auto. intros e w. rewrite V3, !V2. weq.
      replace (k + 1) with (S k) by lia. cbn [xsum]. rewrite Bk. unfold gop. cbn [andb].
      destruct (w =? S0 + B + i); reflexivity.
    + exists s2. split; auto. split; auto. intros e w. rewrite V2. replace (k + 1) with (S k) by lia. cbn [xsum].
      rewrite Bk. cbn [andb]. rewrite xorb_false_r. reflexivity.
  - exists s'. split; [exact E|]. split; auto. intros e w. rewrite V. replace (g + 1 + (B - (g + 1))) with B by lia. reflexivity.
Qed.

Lemma linear_ok m s : square B m -> Forall (two_ones B) m -> in_ok s ->
  exists s', forN 0 B (fun i s => do row <- get m i; cir_row p row i s) s = Ok s' /\ in_ok s' /\
    forall e i, i < B -> lval s' e (S0 + B + i) = matvec B m (fun j => lval s e (S0 + j)) i.
Proof.
  intros [Lm _] Ft [HL HI].
  destruct (@forN_inv _ (fun k s' => length (fst s') = W /\
      (forall e w, w < S0 + B -> lval s' e w = lval s e w) /\
      forall e i, i < k -> lval s' e (S0 + B + i) = matvec B m (fun j => lval s e (S0 + j)) i)
    (fun i s => do row <- get m i; cir_row p row i s) B 0 s) as (s' & E & L & K & V).
  - split; auto. split; auto. intros; lia.
  - intros k s1 Hk (L1 & K1 & V1). rewrite getr by lia. cbn [bind].
    destruct (@row_ok (row m k) k s1) as (s2 & E2 & L2 & V2); [apply nth_in_forall; auto; lia|lia|auto|].
    exists s2. split; auto. split; auto. split.
    + intros e w Hw. rewrite V2. weq. auto.
    + intros e i Hi. rewrite V2. destruct (Nat.eqb_spec (S0 + B + i) (S0 + B + k)) as [Eq|Ne].
      * assert (i = k) by lia. subst i. apply xsum_ext. intros j Hj. rewrite K1 by lia. reflexivity.
      * apply V1. lia.
  - exists s'. split; auto. split; [|intros e i Hi; apply V; lia]. split; auto. intros e w Hw. rewrite K by lia. auto.
Qed.

(* the constants *)
Lemma const_ok rc s : in_ok s ->
  exists s', forN 0 B (fun i s => if bit_at rc i then add_inv (wTemp p i) s else Ok s) s = Ok s' /\ in_ok s' /\
    forall e i, i < B -> lval s' e (S0 + B + i) = xorb (lval s e (S0 + B + i)) (bit_at rc i).
Proof.
  intros [HL HI]. pose proof wW as HW.
  destruct (@forN_inv _ (fun k s' => length (fst s') = W /\
      (forall e w, w < S0 + B -> lval s' e w = lval s e w) /\
      forall e i, lval s' e (S0 + B + i) = if i <? k then xorb (lval s e (S0 + B + i)) (bit_at rc i) else lval s e (S0 + B + i))
    (fun i s => if bit_at rc i then add_inv (wTemp p i) s else Ok s) B 0 s) as (s' & E & L & K & V).
  - split; auto.
  - intros k s1 Hk (L1 & K1 & V1). destruct (bit_at rc k) eqn:Bk.
    + rewrite wT. destruct (@add_inv_ok W (S0 + B + k) s1 L1) as (s2 & E2 & L2 & _ & V2); [lia|].
      exists s2. split; auto. split; auto. split.
      * intros e w Hw. rewrite V2. weq. auto.
      * intros e i. rewrite V2. destruct (Nat.eqb_spec (S0 + B + i) (S0 + B + k)) as [Eq|Ne].
        -- assert (i = k) by lia. subst i. rewrite V1. destruct (Nat.ltb_spec k k), (Nat.ltb_spec k (k + 1)); try lia.
           rewrite Bk. destruct (lval s e (S0 + B + k)); reflexivity.
        -- rewrite V1. destruct (Nat.ltb_spec i k), (Nat.ltb_spec i (k + 1)); try lia; reflexivity.
    + exists s1. split; auto. split; auto. split; auto. intros e i. rewrite V1.
      destruct (Nat.eq_dec i k) as [->|]; [rewrite Bk, xorb_false_r; destruct (k <? k), (k <? k + 1); reflexivity|].
      destruct (Nat.ltb_spec i k), (Nat.ltb_spec i (k + 1)); try lia; reflexivity.
  - exists s'. split; auto. split.
    + split; auto. intros e w Hw. rewrite K by lia. auto.
    + intros e i Hi. rewrite V. destruct (Nat.ltb_spec i (0 + B)); [reflexivity|lia].
Qed.

(* a layer of Xor gates into the state *)
Lemma xor_state_ok (fa fb : nat -> nat) s : in_ok s ->
  (forall i, i < B -> fa i < W /\ fb i < W /\ (forall j, j < B -> fa i <> S0 + j /\ fb i <> S0 + j)) ->
  exists s', forN 0 B (fun i s => add_gate true (fa i) (fb i) (wState p i) s) s = Ok s' /\ in_ok s' /\
    (forall i, i < B -> nth (S0 + i) (fst s') true = false) /\
    forall e i, i < B -> lval s' e (S0 + i) = xorb (lval s e (fa i)) (lval s e (fb i)).
Proof.
  intros [HL HI] Hf. pose proof wW as HW.
  destruct (@forN_inv _ (fun k s' => length (fst s') = W /\
      (forall e w, (forall j, j < B -> w <> S0 + j) -> lval s' e w = lval s e w) /\
      (forall i, i < k -> nth (S0 + i) (fst s') true = false) /\
      forall e i, i < k -> lval s' e (S0 + i) = xorb (lval s e (fa i)) (lval s e (fb i)))
    (fun i s => add_gate true (fa i) (fb i) (wState p i) s) B 0 s) as (s' & E & L & K & F & V).
  - split; auto. split; auto. split; intros; lia.
  - intros k s1 Hk (L1 & K1 & F1 & V1). destruct (Hf k ltac:(lia)) as (Fa & Fb & Fd). rewrite wS.
    destruct (@add_gate_ok W true (fa k) (fb k) (S0 + k) s1 L1) as (s2 & E2 & L2 & G2 & V2 & _); [lia|lia|lia|].
    exists s2. split; auto. split; auto. split; [|split].
    + intros e w Hw. rewrite V2. pose proof (Hw k ltac:(lia)). weq. auto.
    + intros i Hi. rewrite G2. destruct (Nat.eqb_spec (S0 + i) (S0 + k)); auto. apply F1. lia.
    + intros e i Hi. rewrite V2. destruct (Nat.eqb_spec (S0 + i) (S0 + k)).
      * assert (i = k) by lia. subst i. unfold gop. rewrite !K1; auto; intros j Hj; apply Fd; auto.
      * apply V1. lia.
  - exists s'. split; auto. split; [|split; auto]. split; auto. intros e w Hw. rewrite K; auto. intros; lia.
Qed.

Definition kvec (e : env) (r : nat) : bvec := fun i => e (wKey p r i).
Definition target (k : nat) (e : env) : bvec :=
  cipher (lpBoxes p) B (lmLin l) (const_vecs l) (kvec e) k (fun i => e i).

Lemma round_ok r s : r < R -> in_ok s -> (forall e i, i < B -> lval s e (S0 + i) = target r e i) ->
  exists s', cir_round p l r s = Ok s' /\ in_ok s' /\ (forall i, i < B -> nth (S0 + i) (fst s') true = false) /\
    forall e i, i < B -> lval s' e (S0 + i) = target (S r) e i.
Proof.
  intros Hr HI HV. destruct HS as (Hb & L1 & F1 & L2 & F2). fold B R in Hb, L1, F1, L2, F2. unfold cir_round. fold B.
  destruct (boxes_ok HI) as (s1 & E1 & I1 & V1). rewrite E1. cbn [bind].
  rewrite (@getd _ (lmLin l) r []) by lia. cbn [bind]. set (M := nth r (lmLin l) []).
  assert (Sq : square B M) by (apply nth_in_forall; auto; lia).
  assert (Tw : Forall (two_ones B) M) by (apply (nth_in_forall (P := Forall (two_ones B))); auto; lia).
  destruct (linear_ok Sq Tw I1) as (s2 & E2 & I2 & V2). rewrite E2. cbn [bind].
  rewrite (@getd _ (lmConst l) r 0%N) by lia. cbn [bind]. set (rc := nth r (lmConst l) 0%N).
  destruct (const_ok rc I2) as (s3 & E3 & I3 & V3). rewrite E3. cbn [bind].
  destruct (@xor_state_ok (wTemp p) (wKey p (r + 1)) s3 I3) as (s4 & E4 & I4 & F4 & V4).
  { intros i Hi. pose proof (@wK (r + 1) i ltac:(lia) Hi). rewrite wT. pose proof wW. repeat split; intros; lia. }
  exists s4. split; [exact E4|]. split; auto. split; auto. intros e i Hi. rewrite V4 by auto.
  destruct I3 as [_ I3]. rewrite (I3 e (wKey p (r + 1) i)) by (apply wK; lia). rewrite wT, V3, V2 by auto.
  unfold target. cbn [cipher]. unfold kvec at 2. replace (S r) with (r + 1) by lia. f_equal. f_equal.
  - apply matvec_ext. intros j Hj. rewrite V1 by auto. apply (@slayer_ext _ B); [exact Hb|exact (HV e)|exact Hj].
  - unfold const_vecs. rewrite (nth_indep _ _ (bitv 0%N)) by (rewrite map_length; lia). rewrite map_nth. reflexivity.
Qed.

Theorem circuit_ok : 
  exists s, enc_circuit p l = Ok s /\ (forall i, i < B -> nth (wState p i) (fst s) true = false) /\
    forall e i, i < B -> eval (snd s) e (wState p i) = target R e i.
Proof.
  unfold enc_circuit. fold B R. fold W.
  destruct (@xor_state_ok (fun i => i) (wKey p 0) (repeat false W, [])) as (s0 & E0 & I0 & F0 & V0).
  - split; [apply repeat_length|]. intros e w _. unfold lval. cbn [fst snd eval fold_left]. rewrite nth_repeat. apply xorb_false_l.
  - intros i Hi. pose proof (@wK 0 i ltac:(lia) Hi). pose proof wW. assert (B <= S0) by (unfold S0; nia). repeat split; intros; lia.
  - rewrite E0. cbn [bind].
    assert (T0 : forall e i, i < B -> lval s0 e (S0 + i) = target 0 e i).
    { intros e i Hi. rewrite V0 by auto. unfold target. cbn [cipher]. unfold kvec, lval. cbn [fst snd eval fold_left].
      rewrite !nth_repeat, !xorb_false_l. reflexivity. }
    destruct (@forN_inv _ (fun k s => in_ok s /\ (forall i, i < B -> nth (S0 + i) (fst s) true = false) /\
        forall e i, i < B -> lval s e (S0 + i) = target k e i) (cir_round p l) R 0 s0) as (s & E & I & F & V); [auto| |].
    + intros k s1 Hk (I1 & _ & V1). destruct (@round_ok k s1 ltac:(lia) I1 V1) as (s2 & E2 & I2 & F2 & V2).
      exists s2. split; auto. replace (k + 1) with (S k) by lia. auto.
    + exists s. split; auto. split; [exact F|]. intros e i Hi. cbn [Nat.add] in V. rewrite <- V by auto.
      unfold lval. assert (Fl : nth (S0 + i) (fst s) false = false).
      { pose proof (F i Hi) as Fi. destruct I as [LI _]. pose proof wW.
        rewrite (nth_indep _ _ true); [exact Fi|]. lia. }
      rewrite Fl. symmetry. apply xorb_false_l.
Qed.
End Circuit.
