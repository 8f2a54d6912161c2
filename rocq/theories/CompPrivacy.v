(* Proofs that the messages of a composed permutation hide the inputs and the permutations. *)
From Verif Require Import Base Words PermModel PermSpec PermProofs PermCorModel PermCorSpec PermCorProofs CompPermProofs ShuffleSpec ExtractPrivacy PrivSpec PermViewModel PermPrivSpec PermPrivacy ExtractSpec.
From Coq Require Import Btauto.

Ltac xors := apply N.bits_inj; intros q; rewrite !N.lxor_spec; btauto.

(* one round with all its values *)
Lemma round_cells n c S0 R op w xs xr : 0 < n -> (N.of_nat c < 2 ^ 64)%N -> cor_rel n c S0 R -> csOff S0 + w <= c ->
  length xs = n * w -> length xr = n * w ->
  exists msg ys yr, cor_recv_apply R op (Mat n w xr) (zmat n w) = Ok (msg, (Mat n w yr, CorR (crA R) (crB R) (crOff R + w))) /\
    cor_send_apply_in S0 op (Mat n w xs) (zmat n w) msg = Ok (Mat n w ys, CorS (csPerm S0) (csDelta S0) (csOff S0 + w)) /\
    length msg = n * w /\ length ys = n * w /\ length yr = n * w /\
    (forall i j, i < n -> j < w -> cel w msg i j = N.lxor (cel c (dat (encM op R)) i (csOff S0 + j)) (cel w xr i j)) /\
    (forall i j, i < n -> j < w -> cel w yr i j = cel c (dat (outM op R)) i (csOff S0 + j)) /\
    (forall i j, i < n -> j < w -> match op with
      | Regular => cel w ys i j = N.lxor (cel w yr i j) (N.lxor (cel w xs (nth i (csPerm S0) 0) j) (cel w xr (nth i (csPerm S0) 0) j))
      | Inverse => cel w ys i j = N.lxor (cel w yr i j) (N.lxor (cel w xs (pos (csPerm S0) i) j) (cel w xr (pos (csPerm S0) i) j))
      end).
Proof.
  intros Hn Hc HR Ho Ls Lr. pose proof HR as (Hp & RD & CD & LD & RA & CA & LA & RB & CB & LB & HO & HI).
  destruct (@round_ok n c S0 R op w (Some (Mat n w xs)) (Mat n w xr) (zmat n w) (zmat n w))
    as (msg & yr & ys & E1 & E2 & L1 & L2 & H); try assumption; try reflexivity; try apply zmat_len; [auto|].
  destruct (@recv_ok n c R op w (Mat n w xr) (zmat n w)) as (msg' & yr' & E1' & Lm & Ly & Hm); try assumption; try reflexivity; [lia|apply zmat_len|].
  rewrite E1 in E1'. injection E1' as <- <-. exists msg, ys, yr. split; [exact E1|]. split; [exact E2|]. split; [exact Lm|]. split; [exact L1|]. split; [exact L2|].
  rewrite HO. split; [intros i j Hi Hj; apply (proj1 (Hm i j Hi Hj))|]. split; [intros i j Hi Hj; apply (proj2 (Hm i j Hi Hj))|].
  cbn [option_map in_or_zero dat] in H. assert (Lx : length (xors xs xr) = n * w) by (apply xors_len; assumption).
  destruct op; cbn [permuted] in H.
  - apply (gathered_cel (n := n)) in H; [|exact Hp|exact Lx]. destruct H as [_ H]. intros i j Hi Hj. specialize (H i j Hi Hj).
    rewrite !(PermCorProofs.cel_xors (n := n * w)) in H by assumption. rewrite <- H. xors.
  - apply (scattered_cel (n := n)) in H; [|exact Hp|exact Lx]. destruct H as [_ H]. intros i j Hi Hj. destruct (pos_perm Hp Hi) as [Ek Lk]. specialize (H _ j Lk Hj).
    rewrite Ek in H. rewrite !(PermCorProofs.cel_xors (n := n * w)) in H by assumption. rewrite <- H. xors.
Qed.

(* the checks pass *)
Lemma comp_apply_eq n c s0 r0 s1 r1 op w x0 x1 : (N.of_nat c < 2 ^ 64)%N -> cor_rel n c s0 r1 -> cor_rel n c s1 r0 ->
  csOff s0 + w <= c -> csOff s1 + w <= c ->
  comp_apply (Comp 0 s0 r0) (Comp 1 s1 r1) op (Mat n w x0) (Mat n w x1) (zmat n w) (zmat n w) =
  match op with
  | Regular =>
    do a <- comp_round s0 r1 op (Mat n w x0) (Mat n w x1);
    let '((y0, s0), (y1, r1)) := a in
    do b <- comp_round s1 r0 op y1 y0;
    let '((z1, s1), (z0, r0)) := b in
    Ok ((z0, Comp 0 s0 r0), (z1, Comp 1 s1 r1))
  | Inverse =>
    do a <- comp_round s1 r0 op (Mat n w x1) (Mat n w x0);
    let '((y1, s1), (y0, r0)) := a in
    do b <- comp_round s0 r1 op y0 y1;
    let '((z0, s0), (z1, r1)) := b in
    Ok ((z0, Comp 0 s0 r0), (z1, Comp 1 s1 r1))
  end.
Proof.
  intros Hc HR0 HR1 O0 O1. pose proof HR0 as (_ & RD0 & CD0 & _). pose proof HR1 as (_ & RD1 & CD1 & _).
  unfold comp_apply, comp_checks. cbn [cpIdx cpS cpR rows cols zmat].
  rewrite RD0, RD1, CD0, CD1, !Nat.eqb_refl. cbn [negb orb throw_if bind].
  change (1 <? 0) with false. change (1 <? 1) with false. cbn [throw_if bind]. rewrite !cor_left_le by lia.
  destruct (Nat.ltb_spec c (csOff s0 + w)); [lia|]. destruct (Nat.ltb_spec c (csOff s1 + w)); [lia|]. cbn [throw_if bind].
  destruct op; reflexivity.
Qed.

Lemma cround_eq n w S0 R op xs xr msg ys yr S1 R1 : cor_recv_apply R op (Mat n w xr) (zmat n w) = Ok (msg, (Mat n w yr, R1)) ->
  cor_send_apply_in S0 op (Mat n w xs) (zmat n w) msg = Ok (Mat n w ys, S1) ->
  comp_round S0 R op (Mat n w xs) (Mat n w xr) = Ok ((Mat n w ys, S1), (Mat n w yr, R1)).
Proof. intros E1 E2. unfold comp_round. cbn [rows cols]. rewrite E1. cbn [bind fst snd]. rewrite E2. reflexivity. Qed.

(* the new permutation of party 0 *)
Definition p0n (n : nat) (p1 q : list nat) : list nat := map (fun i => nth (pos p1 i) q 0) (seq 0 n).
Lemma p0n_nth n p1 q i : i < n -> nth i (p0n n p1 q) 0 = nth (pos p1 i) q 0.
Proof. intros H. unfold p0n. rewrite (@nth_map_d _ _ _ _ i 0) by (rewrite seq_length; exact H). rewrite seq_nth by exact H. reflexivity. Qed.

Definition newp (a0 a1 : list N) : list nat := map N.to_nat (xors a0 a1).

(* a derandomize with all its values *)
Lemma derand_cells n c s0 r0 s1 r1 a0 a1 : 0 < n -> (N.of_nat c < 2 ^ 64)%N -> cor_rel n c s0 r1 -> cor_rel n c s1 r0 -> csOff s1 + 4 <= c ->
  mop_ok n (MDerand a0 a1) ->
  exists msg d1 d0 delta R1,
    cor_recv_apply r0 Inverse (Mat n 4 (bytes_of_u32s a0)) (zmat n 4) = Ok (msg, (Mat n 4 d0, CorR (crA r0) (crB r0) (crOff r0 + 4))) /\
    cor_send_apply_in s1 Inverse (Mat n 4 (bytes_of_u32s a1)) (zmat n 4) msg = Ok (Mat n 4 d1, CorS (csPerm s1) (csDelta s1) (csOff s1 + 4)) /\
    cor_send_derand s0 (p0n n (csPerm s1) (newp a0 a1)) = Ok (delta, CorS (p0n n (csPerm s1) (newp a0 a1)) (csDelta s0) (csOff s0)) /\
    cor_recv_derand r1 delta = Ok R1 /\ crB R1 = crB r1 /\
    is_perm n (p0n n (csPerm s1) (newp a0 a1)) /\
    map N.to_nat (map2 N.lxor (u32s_of_bytes n d1) (u32s_of_bytes n d0)) = p0n n (csPerm s1) (newp a0 a1) /\
    comp_derand_msgs (Comp 0 s0 r0) (Comp 1 s1 r1) a0 a1 = Ok (d1, (msg, delta)) /\
    comp_derand (Comp 0 s0 r0) (Comp 1 s1 r1) a0 a1 =
      Ok (Comp 0 (CorS (p0n n (csPerm s1) (newp a0 a1)) (csDelta s0) (csOff s0)) (CorR (crA r0) (crB r0) (crOff r0 + 4)),
          Comp 1 (CorS (csPerm s1) (csDelta s1) (csOff s1 + 4)) R1) /\
    cor_rel n c (CorS (p0n n (csPerm s1) (newp a0 a1)) (csDelta s0) (csOff s0)) R1 /\
    length msg = n * 4 /\ length d1 = n * 4 /\ length d0 = n * 4 /\
    (forall i j, i < n -> j < 4 -> cel 4 msg i j = N.lxor (cel c (dat (crB r0)) i (csOff s1 + j)) (cel 4 (bytes_of_u32s a0) i j)) /\
    (forall i j, i < n -> j < 4 -> cel 4 d1 i j = N.lxor (cel 4 d0 i j) (cel 4 (bytes_of_u32s (xors a0 a1)) (pos (csPerm s1) i) j)).
Proof.
  intros Hn Hc HR0 HR1 Ho (L0 & L1 & HB & HQ). fold (newp a0 a1) in HQ. pose proof HR1 as (Hp1 & _).
  assert (LB0 : length (bytes_of_u32s a0) = n * 4) by (rewrite bytes_len; congruence).
  assert (LB1 : length (bytes_of_u32s a1) = n * 4) by (rewrite bytes_len; congruence).
  destruct (@round_cells n c s1 r0 Inverse 4 (bytes_of_u32s a1) (bytes_of_u32s a0)) as (msg & d1 & d0 & E1 & E2 & Lm & Ld1 & Ld0 & Hm & Hd0 & Hd1); try assumption.
  assert (HX : forall i j, i < n -> j < 4 -> cel 4 d1 i j = N.lxor (cel 4 d0 i j) (cel 4 (bytes_of_u32s (xors a0 a1)) (pos (csPerm s1) i) j)).
  { intros i j Hi Hj. rewrite Hd1 by assumption. f_equal. rewrite <- xors_bytes by congruence. rewrite (PermCorProofs.cel_xors (n := n * 4)) by assumption. apply N.lxor_comm. }
  destruct (@comp_derand_ok n c (Comp 0 s0 r0) (Comp 1 s1 r1) a0 a1) as (e0 & e1 & ED & (_ & _ & HRA & _) & HP & _); try assumption.
  { split; [reflexivity|]. split; [reflexivity|]. split; assumption. }
  set (p := map N.to_nat (map2 N.lxor (u32s_of_bytes n d1) (u32s_of_bytes n d0))).
  assert (G := ED). unfold comp_derand in G. rewrite L0, L1 in G. cbn [cpS cpR cpIdx] in G. rewrite E1 in G. cbn [bind fst snd] in G. rewrite E2 in G. cbn [bind fst snd dat] in G.
  rewrite u32s_len, Nat.eqb_refl in G. cbn [negb throw_if bind] in G. fold p in G.
  destruct (cor_send_derand s0 p) as [[delta s0']| | |] eqn:E3; try discriminate G. cbn [bind fst snd] in G.
  destruct (cor_recv_derand r1 delta) as [R1| | |] eqn:E4; try discriminate G. cbn [bind] in G.
  assert (S0' : s0' = CorS p (csDelta s0) (csOff s0)).
  { unfold cor_send_derand in E3. destruct (perm_inverse p) as [inv| | |]; try discriminate E3. cbn [bind] in E3. destruct (perm_compose inv (csPerm s0)) as [dd| | |]; try discriminate E3. cbn [bind] in E3. congruence. }
  subst s0'. assert (e0 = Comp 0 (CorS p (csDelta s0) (csOff s0)) (CorR (crA r0) (crB r0) (crOff r0 + 4))) as -> by congruence.
  assert (e1 = Comp 1 (CorS (csPerm s1) (csDelta s1) (csOff s1 + 4)) R1) as -> by congruence. clear G.
  cbn [cpS cpR] in HRA. unfold comp_perm in HP. cbn [cpS csPerm] in HP. fold (newp a0 a1) in HP.
  assert (Ep : p = p0n n (csPerm s1) (newp a0 a1)).
  { pose proof HRA as (Hpp & _). cbn [csPerm] in Hpp. apply (nth_ext _ _ 0 0); [rewrite (is_perm_length Hpp); unfold p0n; rewrite map_length, seq_length; reflexivity|].
    rewrite (is_perm_length Hpp). intros i Hi. rewrite p0n_nth by exact Hi. rewrite <- HP. destruct (pos_perm Hp1 Hi) as [E L].
    rewrite (@nth_map_d _ _ _ _ _ 0) by (rewrite (is_perm_length Hp1); exact L). rewrite E. reflexivity. }
  exists msg, d1, d0, delta, R1. rewrite <- Ep. split; [exact E1|]. split; [exact E2|]. split; [exact E3|]. split; [exact E4|].
  split; [|split; [|split; [|split; [|split; [|split; [|split; [|split; [|split; [|split]]]]]]]]].
  - unfold cor_recv_derand in E4. destruct (throw_if _) as [[]| | |]; try discriminate E4. cbn [bind] in E4. destruct (perm_apply _ _ _ _ _) as [a| | |]; try discriminate E4. cbn [bind] in E4. injection E4 as <-. reflexivity.
  - exact (proj1 HRA).
  - reflexivity.
  - unfold comp_derand_msgs. rewrite L0, L1. cbn [cpS cpR]. rewrite E1. cbn [bind fst snd]. rewrite E2. cbn [bind fst snd dat]. fold p. rewrite E3. reflexivity.
  - exact ED.
  - exact HRA.
  - exact Lm.
  - exact Ld1.
  - exact Ld0.
  - exact Hm.
  - exact HX.
Qed.

(* ---------------- party 0's view ---------------- *)
Fixpoint mpair (h h' : list mop) : option (list nat * list nat) :=
  match h, h' with
  | MApply _ _ _ _ :: t, MApply _ _ _ _ :: t' => mpair t t'
  | MDerand a0 a1 :: _, MDerand b0 b1 :: _ => Some (newp a0 a1, newp b0 b1)
  | _, _ => None
  end.
Lemma mpair_swap h : forall h', mpair h' h = option_map (fun q => (snd q, fst q)) (mpair h h').
Proof.
  induction h as [|o h IH]; intros h'; destruct h' as [|o' h']; try reflexivity; [destruct o'; reflexivity|destruct o; reflexivity|].
  destruct o, o'; try reflexivity. cbn [mpair]. apply IH.
Qed.
Lemma mpair_perm n h : forall h' p p', Forall (mop_ok n) h -> Forall (mop_ok n) h' -> mpair h h' = Some (p, p') -> is_perm n p /\ is_perm n p'.
Proof.
  induction h as [|o h IH]; intros h' p p' K K' E; [discriminate E|]. destruct h' as [|o' h']; [destruct o; discriminate E|].
  apply Forall_cons_iff in K. apply Forall_cons_iff in K'. destruct K as [k K], K' as [k' K']. destruct o, o'; try discriminate E; cbn [mpair] in E.
  - apply (IH h'); assumption.
  - injection E as <- <-. split; [apply k|apply k'].
Qed.
Lemma mderands_cons_d a b h : mderands (MDerand a b :: h) <= 1 -> mderands h = 0. Proof. unfold mderands. cbn [filter length]. lia. Qed.
Lemma mpair_none h : forall h', mderands h = 0 -> mpair h h' = None.
Proof.
  induction h as [|o h IH]; intros h' D; [reflexivity|]. destruct h' as [|o' h']; [destruct o; reflexivity|].
  destruct o, o'; try reflexivity; [apply IH; exact D|discriminate D].
Qed.
Definition turned (n : nat) (q : option (list nat * list nat)) (p : list nat) : list nat :=
  match q with Some (a, b) => turn n a b p | None => p end.

(* how party 1's B has to change *)
Fixpoint chg1 (n : nat) (h h' : list mop) (pi p1 p1' : list nat) (off i j : nat) : N :=
  match h, h' with
  | MApply op w x0 x1 :: t, MApply _ _ _ x1' :: t' =>
    if (off <=? j) && (j <? off + w) then
      match op with
      | Regular => N.lxor (cel w x1 (nth i pi 0) (j - off)) (cel w x1' (nth i pi 0) (j - off))
      | Inverse => N.lxor (N.lxor (cel w x1 (pos p1 i) (j - off)) (cel w x0 (pos p1 i) (j - off)))
                          (N.lxor (cel w x1' (pos p1' i) (j - off)) (cel w x0 (pos p1' i) (j - off)))
      end
    else chg1 n t t' pi p1 p1' (off + w) i j
  | MDerand a0 a1 :: t, MDerand _ _ :: t' => chg1 n t t' (p0n n p1 (newp a0 a1)) p1 p1' off i j
  | _, _ => 0%N
  end.

Lemma p0n_turn n p1 q q' : is_perm n p1 -> is_perm n q -> is_perm n q' -> p0n n (turn n q q' p1) q' = p0n n p1 q.
Proof.
  intros H Hq Hq'. assert (Ht := turn_perm Hq Hq' H). apply (nth_ext _ _ 0 0); [unfold p0n; rewrite !map_length; reflexivity|].
  intros i Hi. unfold p0n at 1 in Hi. rewrite map_length, seq_length in Hi. rewrite !p0n_nth by exact Hi.
  destruct (pos_perm Ht Hi) as [E L]. rewrite turn_nth in E by exact L. destruct (nthp Hq' L) as [_ Lq]. destruct (pos_perm Hq Lq) as [E2 L2].
  rewrite <- E2. f_equal. rewrite <- E at 2. rewrite (pos_inv H L2). reflexivity.
Qed.

Lemma chg1_sym n : forall h h' pi p1 p1' off i j, Forall2 same_for0 h h' -> Forall (mop_ok n) h -> Forall (mop_ok n) h' -> mderands h <= 1 -> is_perm n p1 ->
  match mpair h h' with Some (q, q') => p1' = turn n q q' p1 | None => True end ->
  chg1 n h' h pi p1' p1 off i j = chg1 n h h' pi p1 p1' off i j.
Proof.
  intros h h' pi p1 p1' off i j H. revert pi off. induction H as [|o o' h h' Ho H IH]; intros pi off K K' D Hp HQ; [reflexivity|].
  apply Forall_cons_iff in K. apply Forall_cons_iff in K'. destruct K as [k K], K' as [k' K'].
  destruct o as [op w x0 x1|a0 a1], o' as [op' w' x0' x1'|b0 b1]; try contradiction; cbn [same_for0] in Ho; cbn [chg1].
  - destruct Ho as (-> & -> & ->). destruct (_ && _); [destruct op; apply N.lxor_comm|apply IH; assumption].
  - cbn [mpair] in HQ.
    assert (EN : p0n n p1' (newp b0 b1) = p0n n p1 (newp a0 a1)) by (rewrite HQ; apply p0n_turn; [exact Hp|apply k|apply k']).
    rewrite EN.
    apply IH; try assumption; [rewrite (mderands_cons_d D); lia|]. rewrite (mpair_none _ (mderands_cons_d D)). exact I.
Qed.
Lemma chg1_byte n : forall h h' pi p1 p1' off i j, Forall2 same_for0 h h' -> Forall (mop_ok n) h -> Forall (mop_ok n) h' -> (chg1 n h h' pi p1 p1' off i j < 256)%N.
Proof.
  intros h h' pi p1 p1' off i j H. revert pi off. induction H as [|o o' h h' Ho H IH]; intros pi off K K'; [reflexivity|].
  apply Forall_cons_iff in K. apply Forall_cons_iff in K'. destruct K as [k K], K' as [k' K'].
  destruct o as [op w x0 x1|a0 a1], o' as [op' w' x0' x1'|b0 b1]; try contradiction; cbn [same_for0] in Ho; cbn [chg1].
  - destruct Ho as (-> & -> & ->). destruct k as (_ & _ & B0 & B1), k' as (_ & _ & _ & B1').
    destruct (_ && _); [|apply IH; assumption]. destruct op; repeat apply lxor_byte; apply cel_byte; assumption.
  - apply IH; assumption.
Qed.

Ltac comp_unf A B := destruct A as [? ? ?]; destruct B as [? ? ?]; cbn [cpIdx cpS cpR] in *; subst.
(* the tails of the two traces *)
Ltac tails H := match type of H with bind ?a _ = bind ?b _ => destruct a as [?t| | |], b as [?t| | |]; cbn [bind] in H |- *; try congruence; injection H as H; cbn [map fst snd dat]; rewrite H; reflexivity end.

Lemma mtrace0 n c : 0 < n -> (N.of_nat c < 2 ^ 64)%N -> forall h h' s0 r0 s1 r1 s1' r1', Forall2 same_for0 h h' -> Forall (mop_ok n) h -> Forall (mop_ok n) h' ->
  cor_rel n c s0 r1 -> cor_rel n c s1 r0 -> cor_rel n c s0 r1' -> cor_rel n c s1' r0 ->
  csOff s0 + mwidth0 h <= c -> csOff s1 + mwidth1 h <= c -> mderands h <= 1 ->
  match mpair h h' with Some (q, q') => csPerm s1' = turn n q q' (csPerm s1) | None => True end ->
  (forall i j, i < n -> csOff s0 <= j < c -> cel c (dat (crB r1')) i j = N.lxor (cel c (dat (crB r1)) i j) (chg1 n h h' (csPerm s0) (csPerm s1) (csPerm s1') (csOff s0) i j)) ->
  comp_view0 (Comp 0 s0 r0) (Comp 1 s1' r1') h' = comp_view0 (Comp 0 s0 r0) (Comp 1 s1 r1) h.
Proof.
  intros Hn Hc h h' s0 r0 s1 r1 s1' r1' HF. revert s0 r0 s1 r1 s1' r1'. unfold comp_view0.
  induction HF as [|o o' h h' Ho HF IH]; intros s0 r0 s1 r1 s1' r1' Hok Hok' HR0 HR1 HR0' HR1' W0 W1 HD HP HB; [reflexivity|].
  apply Forall_cons_iff in Hok. destruct Hok as [K Hok]. apply Forall_cons_iff in Hok'. destruct Hok' as [K' Hok'].
  cbn [mwidth0 mwidth1 fold_right] in W0, W1. fold (mwidth0 h) in W0. fold (mwidth1 h) in W1.
  pose proof HR0 as (Hp0 & RD0 & _ & _ & _ & _ & _ & _ & _ & _ & EO & HI0). pose proof HR1 as (Hp1 & RD1 & _ & _ & _ & _ & _ & _ & _ & _ & EO1 & HI1).
  pose proof HR0' as (_ & _ & _ & _ & _ & _ & _ & _ & _ & _ & EO' & HI0'). pose proof HR1' as (Hp1' & RD1' & _ & _ & _ & _ & _ & _ & _ & _ & EO1' & HI1').
  destruct o as [op w x0 x1|a0 a1], o' as [op' w' x0' x1'|b0 b1]; try contradiction; cbn [same_for0] in Ho.
  - destruct Ho as (-> & -> & ->). cbn [mop_ok] in K, K'. destruct K as (L0 & L1 & _ & _), K' as (_ & L1' & _ & _).
    cbn [comp_trace comp_step cpS cpR]. rewrite RD0, RD1, RD1'.
    assert (J : forall j, j < w -> (csOff s0 <=? csOff s0 + j) && (csOff s0 + j <? csOff s0 + w) = true) by (intros j Hj; apply andb_true_iff; split; [apply Nat.leb_le|apply Nat.ltb_lt]; lia).
    assert (HB2 : forall i j, i < n -> csOff s0 + w <= j < c -> cel c (dat (crB r1')) i j = N.lxor (cel c (dat (crB r1)) i j) (chg1 n h h' (csPerm s0) (csPerm s1) (csPerm s1') (csOff s0 + w) i j)).
    { intros i j Hi Hj. rewrite HB by (try assumption; lia). cbn [chg1]. destruct (Nat.leb_spec (csOff s0) j); [|lia]. destruct (Nat.ltb_spec j (csOff s0 + w)); [lia|]. reflexivity. }
    assert (IH3 := IH _ _ _ _ _ _ Hok Hok' (cor_rel_off w HR0) (cor_rel_off w HR1) (cor_rel_off w HR0') (cor_rel_off w HR1')). clear IH. cbn [csOff csPerm crB] in IH3.
    specialize (IH3 ltac:(lia) ltac:(lia) HD HP HB2).
    rewrite (comp_apply_eq op x0 x1 Hc HR0 HR1) by lia.
    rewrite (comp_apply_eq op x0 x1' Hc HR0' HR1') by lia.
    unfold comp_apply_msgs. cbn [cpS cpR rows cols].
    destruct op.
    + destruct (@round_cells n c s0 r1 Regular w x0 x1) as (m & y0 & y1 & A1 & A2 & Lm & Ly0 & Ly1 & Hm & _ & _); try assumption; [lia|].
      destruct (@round_cells n c s0 r1' Regular w x0 x1') as (m' & y0' & y1' & A1' & A2' & Lm' & Ly0' & Ly1' & Hm' & _ & _); try assumption; [lia|].
      assert (m' = m) as ->.
      { apply (cels_eq Lm' Lm). intros i j Hi Hj. rewrite Hm, Hm' by assumption. cbn [encM]. destruct (pos_perm Hp0 Hi) as [Ek Lk].
        rewrite <- Ek at 1 3. rewrite <- HI0, <- HI0' by (try assumption; lia). rewrite HB by (try assumption; lia). cbn [chg1]. rewrite (J j Hj), Ek.
        replace (csOff s0 + j - csOff s0) with j by lia. xors. }
      rewrite A2 in A2'. injection A2' as <-. rewrite (cround_eq A1 A2), (cround_eq A1' A2). rewrite A1, A1'. cbn [bind fst snd rows cols].
      destruct (@round_cells n c s1 r0 Regular w y1 y0) as (mb & z1 & z0 & B1 & B2 & _); try assumption; [lia|].
      destruct (@round_cells n c s1' r0 Regular w y1' y0) as (mb' & z1' & z0' & B1' & B2' & _); try assumption; [lia|].
      rewrite B1 in B1'. injection B1' as <- <-. rewrite (cround_eq B1 B2), (cround_eq B1 B2'). rewrite B1. cbn [bind fst snd].
      tails IH3.
    + destruct (@round_cells n c s1 r0 Inverse w x1 x0) as (mb & y1 & y0 & B1 & B2 & _ & Ly1 & Ly0 & _ & _ & Hy); try assumption; [lia|].
      destruct (@round_cells n c s1' r0 Inverse w x1' x0) as (mb' & y1' & y0' & B1' & B2' & _ & Ly1' & Ly0' & _ & _ & Hy'); try assumption; [lia|].
      rewrite B1 in B1'. injection B1' as <- <-. rewrite (cround_eq B1 B2), (cround_eq B1 B2'). rewrite B1. cbn [bind fst snd rows cols].
      destruct (@round_cells n c s0 r1 Inverse w y0 y1) as (m & z0 & z1 & A1 & A2 & Lm & _ & _ & Hm & _ & _); try assumption; [lia|].
      destruct (@round_cells n c s0 r1' Inverse w y0 y1') as (m' & z0' & z1' & A1' & A2' & Lm' & _ & _ & Hm' & _ & _); try assumption; [lia|].
      assert (m' = m) as ->.
      { apply (cels_eq Lm' Lm). intros i j Hi Hj. rewrite Hm, Hm', Hy, Hy' by assumption. cbn [encM].
        rewrite HB by (try assumption; lia). cbn [chg1]. rewrite (J j Hj). replace (csOff s0 + j - csOff s0) with j by lia. xors. }
      rewrite A2 in A2'. injection A2' as <-. rewrite (cround_eq A1 A2), (cround_eq A1' A2). rewrite A1, A1'. cbn [bind fst snd].
      tails IH3.
  - subst b0. cbn [mpair] in HP. cbn [comp_trace comp_step].
    destruct (derand_cells Hn Hc HR0 HR1 ltac:(lia) K) as (m & d1 & d0 & delta & R1 & E1 & E2 & E3 & E4 & EB & Hp & EP & EM & ED & HA & Lm & Ld1 & Ld0 & _ & Hd).
    destruct (derand_cells Hn Hc HR0' HR1' ltac:(lia) K') as (m' & d1' & d0' & delta' & R1' & E1' & E2' & E3' & E4' & EB' & Hp' & EP' & EM' & ED' & HA' & Lm' & Ld1' & Ld0' & _ & Hd').
    rewrite E1 in E1'. injection E1' as <- <-.
    destruct K as (La0 & La1 & HX & HQ), K' as (_ & Lb1 & HX' & HQ'). fold (newp a0 a1) in HQ. fold (newp a0 b1) in HQ'.
    assert (EN : p0n n (csPerm s1') (newp a0 b1) = p0n n (csPerm s1) (newp a0 a1)) by (rewrite HP; apply p0n_turn; assumption).
    assert (d1' = d1) as ->.
    { apply (cels_eq Ld1' Ld1). intros i j Hi Hj. rewrite Hd, Hd' by assumption. f_equal.
      assert (EI := f_equal (fun l => nth i l 0) EN). cbv beta in EI. rewrite !p0n_nth in EI by exact Hi. 
      destruct (pos_perm Hp1 Hi) as [_ Pi]. destruct (pos_perm Hp1' Hi) as [_ Pi']. unfold newp in EI.
      assert (Lx : length (xors a0 a1) = n) by (apply xors_len; assumption). assert (Lx' : length (xors a0 b1) = n) by (apply xors_len; assumption).
      rewrite !(@nth_map_d _ _ _ _ _ 0%N) in EI by (rewrite ?Lx, ?Lx'; assumption). apply N2Nat.inj in EI.
      rewrite <- !(cel_row (n := n)) by (try assumption; rewrite bytes_len; congruence). rewrite !CompPermProofs.row_bytes by (rewrite ?Lx, ?Lx'; assumption). rewrite EI. reflexivity. }
    rewrite EN, E3 in E3'. injection E3' as <-.
    rewrite EM, ED, EM', ED'. cbn [bind fst snd]. rewrite EN in *.
    assert (D0 := mderands_cons_d HD).
    assert (IH3 := IH _ _ _ _ _ _ Hok Hok' HA (cor_rel_off 4 HR1) HA' (cor_rel_off 4 HR1')). clear IH. cbn [csOff csPerm] in IH3.
    rewrite (mpair_none h' D0), EB, EB' in IH3. specialize (IH3 ltac:(lia) ltac:(lia) ltac:(lia) I). cbn [chg1] in HB. specialize (IH3 HB).
    tails IH3.
Qed.

(* party 1 with another permutation and other inputs *)
Definition mv1 (n c : nat) (c0 : comp) (h h' : list mop) (c1 : comp) : comp :=
  let p1 := csPerm (cpS c1) in
  let p1' := turned n (mpair h h') p1 in
  Comp 1 (mv_s n c (cpR c0) p1' (cpS c1)) (mv_r n c (cpS c0) (chg1 n h h' (csPerm (cpS c0)) p1 p1' (csOff (cpS c0))) (cpR c1)).

Lemma turned_ok n h h' p : Forall (mop_ok n) h -> Forall (mop_ok n) h' -> is_perm n p ->
  is_perm n (turned n (mpair h h') p) /\ turned n (mpair h' h) (turned n (mpair h h') p) = p.
Proof.
  intros K K' Hp. rewrite (mpair_swap h h'). destruct (mpair h h') as [[q q']|] eqn:E; cbn [turned option_map fst snd]; [|auto].
  destruct (mpair_perm K K' E) as [Q Q']. split; [apply turn_perm; assumption|apply turn_turn; assumption].
Qed.
Lemma turned_spec n h h' p : match mpair h h' with Some (q, q') => turned n (mpair h h') p = turn n q q' p | None => True end.
Proof. destruct (mpair h h') as [[q q']|]; [reflexivity|exact I]. Qed.
Lemma mderands_same h h' : Forall2 same_for0 h h' -> mderands h' = mderands h.
Proof. intros F. induction F as [|o o' h h' Ho F IH]; [reflexivity|]. unfold mderands in *. destruct o, o'; try contradiction; cbn [filter length]; congruence. Qed.
Lemma mderands_same1 h h' : Forall2 same_for1 h h' -> mderands h' = mderands h.
Proof. intros F. induction F as [|o o' h h' Ho F IH]; [reflexivity|]. unfold mderands in *. destruct o, o'; try contradiction; cbn [filter length]; congruence. Qed.

Lemma same_for0_sym h h' : Forall2 same_for0 h h' -> Forall2 same_for0 h' h.
Proof.
  intros F. induction F as [|o o' h h' Ho F IH]; constructor; [|exact IH]. destruct o, o'; try contradiction; cbn [same_for0] in *; [|congruence].
  destruct Ho as (-> & -> & ->). auto.
Qed.
Lemma same_for1_sym h h' : Forall2 same_for1 h h' -> Forall2 same_for1 h' h.
Proof.
  intros F. induction F as [|o o' h h' Ho F IH]; constructor; [|exact IH]. destruct o, o'; try contradiction; cbn [same_for1] in *; [|congruence].
  destruct Ho as (-> & -> & ->). auto.
Qed.


Lemma mv1_ok n c c0 h h' c1 : comp_bytes c0 -> Forall2 same_for0 h h' -> Forall (mop_ok n) h -> Forall (mop_ok n) h' ->
  comp_rel n c c0 c1 /\ comp_bytes c1 ->
  (comp_rel n c c0 (mv1 n c c0 h h' c1) /\ comp_bytes (mv1 n c c0 h h' c1)) /\
  (forall i j, i < n -> j < c -> cel c (dat (crB (cpR (mv1 n c c0 h h' c1)))) i j = N.lxor (cel c (dat (crB (cpR c1))) i j)
     (chg1 n h h' (csPerm (cpS c0)) (csPerm (cpS c1)) (turned n (mpair h h') (csPerm (cpS c1))) (csOff (cpS c0)) i j)).
Proof.
  intros (BD0 & BA0 & BB0) F K K' [(I0 & I1 & HR0 & HR1) (BD1 & BA1 & BB1)]. pose proof (proj1 HR1) as Hp1.
  destruct (@turned_ok n h h' (csPerm (cpS c1)) K K' Hp1) as [T _].
  destruct (@mv_s_ok n c (cpR c0) (turned n (mpair h h') (csPerm (cpS c1))) (cpS c1)) as [M1 M2]; [split; assumption|assumption..|].
  destruct (@mv_r_ok n c (cpS c0) (chg1 n h h' (csPerm (cpS c0)) (csPerm (cpS c1)) (turned n (mpair h h') (csPerm (cpS c1))) (csOff (cpS c0))) (cpR c1))
    as [(N1 & N2 & N3) N4]; [split; [assumption|split; assumption]|assumption|intros i j; apply chg1_byte; assumption|].
  split; [|exact N4]. split.
  - split; [exact I0|]. split; [reflexivity|]. cbn [mv1 cpS cpR]. split; assumption.
  - split; [exact M2|]. split; [exact N2|exact N3].
Qed.

Lemma mv1_inv n c c0 h h' c1 : comp_bytes c0 -> Forall2 same_for0 h h' -> Forall (mop_ok n) h -> Forall (mop_ok n) h' -> mderands h <= 1 ->
  comp_rel n c c0 c1 /\ comp_bytes c1 -> mv1 n c c0 h' h (mv1 n c c0 h h' c1) = c1.
Proof.
  intros B0 F K K' D H. destruct (mv1_ok B0 F K K' H) as [H1 C1]. destruct (mv1_ok B0 (same_for0_sym F) K' K H1) as [H2 C2].
  destruct H as [(I0 & I1 & HR0 & HR1) B1], H1 as [(_ & _ & HR0' & HR1') _], H2 as [(_ & I1'' & HR0'' & HR1'') _]. pose proof (proj1 HR1) as Hp1.
  destruct (@turned_ok n h h' (csPerm (cpS c1)) K K' Hp1) as [T1 T2].
  assert (ES : cpS (mv1 n c c0 h' h (mv1 n c c0 h h' c1)) = cpS c1).
  { apply (fit_s_det HR1 HR1''). cbn [mv1 cpS mv_s csPerm]. exact T2. }
  assert (ER : cpR (mv1 n c c0 h' h (mv1 n c c0 h h' c1)) = cpR c1).
  { apply (fit_r_det HR0 HR0''). intros i j Hi Hj. rewrite C2, C1 by assumption.
    change (csPerm (cpS (mv1 n c c0 h h' c1))) with (turned n (mpair h h') (csPerm (cpS c1))). rewrite T2.
    rewrite (@chg1_sym n h h'); try assumption; [|apply turned_spec]. xors. }
  destruct (mv1 n c c0 h' h (mv1 n c c0 h h' c1)) as [i s r]. destruct c1 as [i1 s1 r1]. cbn [cpIdx cpS cpR] in *. congruence.
Qed.

Lemma comp_hides0 n c c0 h h' : 0 < n -> (N.of_nat c < 2 ^ 64)%N -> comp_bytes c0 -> Forall2 same_for0 h h' -> Forall (mop_ok n) h -> Forall (mop_ok n) h' ->
  csOff (cpS c0) + mwidth0 h <= c -> crOff (cpR c0) + mwidth1 h <= c -> mderands h <= 1 ->
  hides (fun c1 => comp_rel n c c0 c1 /\ comp_bytes c1) (fun h c1 => comp_view0 c0 c1 h) h h'.
Proof.
  intros Hn Hc B0 F K K' W0 W1 D. exists (mv1 n c c0 h h'), (mv1 n c c0 h' h). split; intros c1 H.
  - destruct (mv1_ok B0 F K K' H) as [H1 C1]. split; [exact H1|]. split; [apply mv1_inv; assumption|].
    destruct H as [(I0 & I1 & HR0 & HR1) B1], H1 as [(_ & I1' & HR0' & HR1') _].
    assert (EO : csOff (cpS c1) = crOff (cpR c0)) by (destruct HR1 as (_ & _ & _ & _ & _ & _ & _ & _ & _ & _ & E & _); exact E).
    assert (EP : csPerm (cpS (mv1 n c c0 h h' c1)) = turned n (mpair h h') (csPerm (cpS c1))) by reflexivity.
    destruct (mv1 n c c0 h h' c1) as [i1' s1' r1']. destruct c0 as [i0 s0 r0], c1 as [i1 s1 r1]. cbn [cpIdx cpS cpR] in *. subst i0 i1 i1'.
    apply (@mtrace0 n c Hn Hc h h' s0 r0 s1 r1 s1' r1' F K K' HR0 HR1 HR0' HR1'); [exact W0|rewrite EO; exact W1|exact D|rewrite EP; apply turned_spec|].
    intros i j Hi Hj. rewrite C1 by (try assumption; lia). rewrite EP. reflexivity.
  - destruct (mv1_ok B0 (same_for0_sym F) K' K H) as [H1 _]. split; [exact H1|]. apply mv1_inv; try assumption; [apply same_for0_sym; exact F|].
    rewrite (mderands_same F). exact D.
Qed.

(* ---------------- party 1's view ---------------- *)
(* how party 0's B has to change *)
Fixpoint chg0 (n : nat) (h h' : list mop) (p1 p0 p0' : list nat) (off i j : nat) : N :=
  match h, h' with
  | MApply op w x0 x1 :: t, MApply _ _ x0' _ :: t' =>
    if (off <=? j) && (j <? off + w) then
      match op with
      | Regular =>
        let k := nth (nth i p1 0) p0 0 in let k' := nth (nth i p1 0) p0' 0 in
        N.lxor (N.lxor (cel w x0 k (j - off)) (cel w x1 k (j - off))) (N.lxor (cel w x0' k' (j - off)) (cel w x1 k' (j - off)))
      | Inverse => N.lxor (cel w x0 i (j - off)) (cel w x0' i (j - off))
      end
    else chg0 n t t' p1 p0 p0' (off + w) i j
  | MDerand a0 a1 :: t, MDerand b0 b1 :: t' =>
    if (off <=? j) && (j <? off + 4) then N.lxor (cel 4 (bytes_of_u32s a0) i (j - off)) (cel 4 (bytes_of_u32s b0) i (j - off))
    else chg0 n t t' p1 (p0n n p1 (newp a0 a1)) (p0n n p1 (newp b0 b1)) (off + 4) i j
  | _, _ => 0%N
  end.
Lemma chg0_sym n : forall h h' p1 p0 p0' off i j, Forall2 same_for1 h h' -> chg0 n h' h p1 p0' p0 off i j = chg0 n h h' p1 p0 p0' off i j.
Proof.
  intros h h' p1 p0 p0' off i j H. revert p0 p0' off. induction H as [|o o' h h' Ho H IH]; intros p0 p0' off; [reflexivity|].
  destruct o as [op w x0 x1|a0 a1], o' as [op' w' x0' x1'|b0 b1]; try contradiction; cbn [same_for1] in Ho; cbn [chg0].
  - destruct Ho as (-> & -> & ->). destruct (_ && _); [destruct op; apply N.lxor_comm|apply IH].
  - destruct (_ && _); [apply N.lxor_comm|apply IH].
Qed.
Lemma u32s_bytes l : bytes (bytes_of_u32s l).
Proof.
  apply Forall_forall. intros x Hx. unfold bytes_of_u32s in Hx. apply in_concat in Hx. destruct Hx as (r & Hr & Hx). apply in_map_iff in Hr. destruct Hr as (v & <- & _).
  unfold u32_bytes in Hx. apply in_map_iff in Hx. destruct Hx as (b & <- & _). change 255%N with (N.ones 8). rewrite N.land_ones. apply N.mod_lt. discriminate.
Qed.
Lemma chg0_byte n : forall h h' p1 p0 p0' off i j, Forall2 same_for1 h h' -> Forall (mop_ok n) h -> Forall (mop_ok n) h' -> (chg0 n h h' p1 p0 p0' off i j < 256)%N.
Proof.
  intros h h' p1 p0 p0' off i j H. revert p0 p0' off. induction H as [|o o' h h' Ho H IH]; intros p0 p0' off K K'; [reflexivity|].
  apply Forall_cons_iff in K. apply Forall_cons_iff in K'. destruct K as [k K], K' as [k' K'].
  destruct o as [op w x0 x1|a0 a1], o' as [op' w' x0' x1'|b0 b1]; try contradiction; cbn [same_for1] in Ho; cbn [chg0].
  - destruct Ho as (-> & -> & ->). destruct k as (_ & _ & B0 & B1), k' as (_ & _ & B0' & _).
    destruct (_ && _); [|apply IH; assumption]. cbv zeta. destruct op; repeat apply lxor_byte; apply cel_byte; assumption.
  - destruct (_ && _); [|apply IH; assumption]. apply lxor_byte; apply cel_byte; apply u32s_bytes.
Qed.

(* party 0's new permutations in the two histories *)
Definition npair (n : nat) (p1 : list nat) (h h' : list mop) : option (list nat * list nat) :=
  option_map (fun q => (p0n n p1 (fst q), p0n n p1 (snd q))) (mpair h h').
Lemma npair_swap n p1 h h' : npair n p1 h' h = option_map (fun q => (snd q, fst q)) (npair n p1 h h').
Proof. unfold npair. rewrite (mpair_swap h h'). destruct (mpair h h') as [[q q']|]; reflexivity. Qed.
Lemma p0n_perm n p1 q : is_perm n p1 -> is_perm n q -> is_perm n (p0n n p1 q).
Proof.
  intros H Hq. apply NoDup_Permutation_bis.
  - apply (NoDup_nth _ 0). unfold p0n at 1 2. rewrite map_length, seq_length. intros i j Hi Hj E. rewrite !p0n_nth in E by assumption.
    destruct (pos_perm H Hi) as [Ei Pi], (pos_perm H Hj) as [Ej Pj].
    apply (proj1 (NoDup_nth q 0) (is_perm_NoDup Hq)) in E; [|rewrite (is_perm_length Hq); assumption..]. congruence.
  - unfold p0n. rewrite map_length, !seq_length. lia.
  - intros x Hx. unfold p0n in Hx. apply in_map_iff in Hx. destruct Hx as (k & <- & Hk). apply in_seq in Hk. apply in_seq.
    destruct (@pos_perm n p1 k H) as [_ L]; [lia|]. destruct (nthp Hq L). lia.
Qed.

Lemma mtrace1 n c : 0 < n -> (N.of_nat c < 2 ^ 64)%N -> forall h h' s0 r0 s1 r1 s0' r0', Forall2 same_for1 h h' -> Forall (mop_ok n) h -> Forall (mop_ok n) h' ->
  cor_rel n c s0 r1 -> cor_rel n c s1 r0 -> cor_rel n c s0' r1 -> cor_rel n c s1 r0' ->
  csOff s0 + mwidth0 h <= c -> csOff s1 + mwidth1 h <= c -> mderands h <= 1 ->
  match npair n (csPerm s1) h h' with Some (q, q') => csPerm s0' = turn n q q' (csPerm s0) | None => True end ->
  (forall i j, i < n -> csOff s1 <= j < c -> cel c (dat (crB r0')) i j = N.lxor (cel c (dat (crB r0)) i j) (chg0 n h h' (csPerm s1) (csPerm s0) (csPerm s0') (csOff s1) i j)) ->
  comp_view1 (Comp 0 s0' r0') (Comp 1 s1 r1) h' = comp_view1 (Comp 0 s0 r0) (Comp 1 s1 r1) h.
Proof.
  intros Hn Hc h h' s0 r0 s1 r1 s0' r0' HF. revert s0 r0 s1 r1 s0' r0'. unfold comp_view1.
  induction HF as [|o o' h h' Ho HF IH]; intros s0 r0 s1 r1 s0' r0' Hok Hok' HR0 HR1 HR0' HR1' W0 W1 HD HP HB; [reflexivity|].
  apply Forall_cons_iff in Hok. destruct Hok as [K Hok]. apply Forall_cons_iff in Hok'. destruct Hok' as [K' Hok'].
  cbn [mwidth0 mwidth1 fold_right] in W0, W1. fold (mwidth0 h) in W0. fold (mwidth1 h) in W1.
  pose proof HR0 as (Hp0 & RD0 & _ & _ & _ & _ & _ & _ & _ & _ & EO & HI0). pose proof HR1 as (Hp1 & RD1 & _ & _ & _ & _ & _ & _ & _ & _ & EO1 & HI1).
  pose proof HR0' as (Hp0' & RD0' & _ & _ & _ & _ & _ & _ & _ & _ & EO' & HI0'). pose proof HR1' as (_ & _ & _ & _ & _ & _ & _ & _ & _ & _ & EO1' & HI1').
  destruct o as [op w x0 x1|a0 a1], o' as [op' w' x0' x1'|b0 b1]; try contradiction; cbn [same_for1] in Ho.
  - destruct Ho as (-> & -> & ->). cbn [mop_ok] in K, K'. destruct K as (L0 & L1 & _ & _), K' as (L0' & _ & _ & _).
    cbn [comp_trace comp_step cpS cpR]. rewrite RD0, RD1, RD0'.
    assert (J : forall j, j < w -> (csOff s1 <=? csOff s1 + j) && (csOff s1 + j <? csOff s1 + w) = true) by (intros j Hj; apply andb_true_iff; split; [apply Nat.leb_le|apply Nat.ltb_lt]; lia).
    assert (HB2 : forall i j, i < n -> csOff s1 + w <= j < c -> cel c (dat (crB r0')) i j = N.lxor (cel c (dat (crB r0)) i j) (chg0 n h h' (csPerm s1) (csPerm s0) (csPerm s0') (csOff s1 + w) i j)).
    { intros i j Hi Hj. rewrite HB by (try assumption; lia). cbn [chg0]. destruct (Nat.leb_spec (csOff s1) j); [|lia]. destruct (Nat.ltb_spec j (csOff s1 + w)); [lia|]. reflexivity. }
    assert (IH3 := IH _ _ _ _ _ _ Hok Hok' (cor_rel_off w HR0) (cor_rel_off w HR1) (cor_rel_off w HR0') (cor_rel_off w HR1')). clear IH. cbn [csOff csPerm crB] in IH3.
    specialize (IH3 ltac:(lia) ltac:(lia) HD HP HB2).
    rewrite (comp_apply_eq op x0 x1 Hc HR0 HR1) by lia.
    rewrite (comp_apply_eq op x0' x1 Hc HR0' HR1') by lia.
    unfold comp_apply_msgs. cbn [cpS cpR rows cols].
    destruct op.
    + destruct (@round_cells n c s0 r1 Regular w x0 x1) as (m & y0 & y1 & A1 & A2 & _ & Ly0 & Ly1 & _ & _ & Hy); try assumption; [lia|].
      destruct (@round_cells n c s0' r1 Regular w x0' x1) as (m' & y0' & y1' & A1' & A2' & _ & Ly0' & Ly1' & _ & _ & Hy'); try assumption; [lia|].
      rewrite A1 in A1'. injection A1' as <- <-. rewrite (cround_eq A1 A2), (cround_eq A1 A2'). rewrite A1. cbn [bind fst snd rows cols].
      destruct (@round_cells n c s1 r0 Regular w y1 y0) as (mb & z1 & z0 & B1 & B2 & Lm & _ & _ & Hm & _); try assumption; [lia|].
      destruct (@round_cells n c s1 r0' Regular w y1 y0') as (mb' & z1' & z0' & B1' & B2' & Lm' & _ & _ & Hm' & _); try assumption; [lia|].
      assert (mb' = mb) as ->.
      { apply (cels_eq Lm' Lm). intros i j Hi Hj. rewrite Hm, Hm', Hy, Hy' by assumption. cbn [encM]. destruct (pos_perm Hp1 Hi) as [Ek Lk].
        rewrite <- Ek at 1 5. rewrite <- HI1, <- HI1' by (try assumption; lia). rewrite HB by (try assumption; lia). cbn [chg0]. rewrite (J j Hj), Ek.
        replace (csOff s1 + j - csOff s1) with j by lia. cbv zeta. xors. }
      rewrite B2 in B2'. injection B2' as <-. rewrite (cround_eq B1 B2), (cround_eq B1' B2). rewrite B1, B1'. cbn [bind fst snd].
      tails IH3.
    + destruct (@round_cells n c s1 r0 Inverse w x1 x0) as (mb & y1 & y0 & B1 & B2 & Lm & Ly1 & Ly0 & Hm & _ & _); try assumption; [lia|].
      destruct (@round_cells n c s1 r0' Inverse w x1 x0') as (mb' & y1' & y0' & B1' & B2' & Lm' & Ly1' & Ly0' & Hm' & _ & _); try assumption; [lia|].
      assert (mb' = mb) as ->.
      { apply (cels_eq Lm' Lm). intros i j Hi Hj. rewrite Hm, Hm' by assumption. cbn [encM].
        rewrite HB by (try assumption; lia). cbn [chg0]. rewrite (J j Hj). replace (csOff s1 + j - csOff s1) with j by lia. xors. }
      rewrite B2 in B2'. injection B2' as <-. rewrite (cround_eq B1 B2), (cround_eq B1' B2). rewrite B1, B1'. cbn [bind fst snd rows cols].
      destruct (@round_cells n c s0 r1 Inverse w y0 y1) as (m & z0 & z1 & A1 & A2 & _); try assumption; [lia|].
      destruct (@round_cells n c s0' r1 Inverse w y0' y1) as (m' & z0' & z1' & A1' & A2' & _); try assumption; [lia|].
      rewrite A1 in A1'. injection A1' as <- <-. rewrite (cround_eq A1 A2), (cround_eq A1 A2'). rewrite A1. cbn [bind fst snd].
      tails IH3.
  - subst b1. unfold npair in HP. cbn [mpair option_map fst snd] in HP. cbn [comp_trace comp_step].
    destruct (derand_cells Hn Hc HR0 HR1 ltac:(lia) K) as (m & d1 & d0 & delta & R1 & E1 & E2 & E3 & E4 & EB & Hp & EP & EM & ED & HA & Lm & Ld1 & Ld0 & Hm & _).
    destruct (derand_cells Hn Hc HR0' HR1' ltac:(lia) K') as (m' & d1' & d0' & delta' & R1' & E1' & E2' & E3' & E4' & EB' & Hp' & EP' & EM' & ED' & HA' & Lm' & Ld1' & Ld0' & Hm' & _).
    assert (m' = m) as ->.
    { apply (cels_eq Lm' Lm). intros i j Hi Hj. rewrite Hm, Hm' by assumption. rewrite HB by (try assumption; lia). cbn [chg0].
      destruct (Nat.leb_spec (csOff s1) (csOff s1 + j)); [|lia]. destruct (Nat.ltb_spec (csOff s1 + j) (csOff s1 + 4)); [|lia]. cbn [andb].
      replace (csOff s1 + j - csOff s1) with j by lia. xors. }
    assert (delta' = delta) as ->.
    { destruct (derand_delta HR0 Hp) as (d & G1 & G2 & G3). destruct (derand_delta HR0' Hp') as (d' & G1' & G2' & G3').
      rewrite E3 in G1. injection G1 as <-. rewrite E3' in G1'. injection G1' as <-.
      apply (nth_ext _ _ 0 0); [rewrite (is_perm_length G2), (is_perm_length G2'); reflexivity|]. rewrite (is_perm_length G2'). intros k Hk.
      rewrite G3, G3' by exact Hk. rewrite HP. destruct (pos_perm Hp' Hk) as [Ek Lk]. rewrite turn_nth by exact Lk. rewrite Ek. reflexivity. }
    rewrite E4 in E4'. injection E4' as <-.
    rewrite EM, ED, EM', ED'. cbn [bind fst snd].
    assert (D0 := mderands_cons_d HD).
    assert (IH3 := IH _ _ _ _ _ _ Hok Hok' HA (cor_rel_off 4 HR1) HA' (cor_rel_off 4 HR1')). clear IH. cbn [csOff csPerm crB] in IH3.
    unfold npair in IH3. rewrite (mpair_none h' D0) in IH3. specialize (IH3 ltac:(lia) ltac:(lia) ltac:(lia) I).
    assert (HB2 : forall i j, i < n -> csOff s1 + 4 <= j < c -> cel c (dat (crB r0')) i j = N.lxor (cel c (dat (crB r0)) i j)
        (chg0 n h h' (csPerm s1) (p0n n (csPerm s1) (newp a0 a1)) (p0n n (csPerm s1) (newp b0 a1)) (csOff s1 + 4) i j)).
    { intros i j Hi Hj. rewrite HB by (try assumption; lia). cbn [chg0]. destruct (Nat.leb_spec (csOff s1) j); [|lia]. destruct (Nat.ltb_spec j (csOff s1 + 4)); [lia|]. reflexivity. }
    specialize (IH3 HB2). tails IH3.
Qed.

(* party 0 with another permutation and other inputs *)
Definition mv0 (n c : nat) (c1 : comp) (h h' : list mop) (c0 : comp) : comp :=
  let p0 := csPerm (cpS c0) in
  let p0' := turned n (npair n (csPerm (cpS c1)) h h') p0 in
  Comp 0 (mv_s n c (cpR c1) p0' (cpS c0)) (mv_r n c (cpS c1) (chg0 n h h' (csPerm (cpS c1)) p0 p0' (csOff (cpS c1))) (cpR c0)).
Lemma nturned_ok n p1 h h' p : Forall (mop_ok n) h -> Forall (mop_ok n) h' -> is_perm n p1 -> is_perm n p ->
  is_perm n (turned n (npair n p1 h h') p) /\ turned n (npair n p1 h' h) (turned n (npair n p1 h h') p) = p.
Proof.
  intros K K' H1 Hp. rewrite (npair_swap n p1 h h'). unfold npair. destruct (mpair h h') as [[q q']|] eqn:E; cbn [turned option_map fst snd]; [|auto].
  destruct (mpair_perm K K' E) as [Q Q']. assert (P := p0n_perm H1 Q). assert (P' := p0n_perm H1 Q'). split; [apply turn_perm; assumption|apply turn_turn; assumption].
Qed.

Lemma mv0_ok n c c1 h h' c0 : comp_bytes c1 -> Forall2 same_for1 h h' -> Forall (mop_ok n) h -> Forall (mop_ok n) h' ->
  comp_rel n c c0 c1 /\ comp_bytes c0 ->
  (comp_rel n c (mv0 n c c1 h h' c0) c1 /\ comp_bytes (mv0 n c c1 h h' c0)) /\
  (forall i j, i < n -> j < c -> cel c (dat (crB (cpR (mv0 n c c1 h h' c0)))) i j = N.lxor (cel c (dat (crB (cpR c0))) i j)
     (chg0 n h h' (csPerm (cpS c1)) (csPerm (cpS c0)) (turned n (npair n (csPerm (cpS c1)) h h') (csPerm (cpS c0))) (csOff (cpS c1)) i j)).
Proof.
  intros (BD1 & BA1 & BB1) F K K' [(I0 & I1 & HR0 & HR1) (BD0 & BA0 & BB0)]. pose proof (proj1 HR1) as Hp1. pose proof (proj1 HR0) as Hp0.
  destruct (@nturned_ok n (csPerm (cpS c1)) h h' (csPerm (cpS c0)) K K' Hp1 Hp0) as [T _].
  destruct (@mv_s_ok n c (cpR c1) (turned n (npair n (csPerm (cpS c1)) h h') (csPerm (cpS c0))) (cpS c0)) as [M1 M2]; [split; assumption|assumption..|].
  destruct (@mv_r_ok n c (cpS c1) (chg0 n h h' (csPerm (cpS c1)) (csPerm (cpS c0)) (turned n (npair n (csPerm (cpS c1)) h h') (csPerm (cpS c0))) (csOff (cpS c1))) (cpR c0))
    as [(N1 & N2 & N3) N4]; [split; [assumption|split; assumption]|assumption|intros i j; apply chg0_byte; assumption|].
  split; [|exact N4]. split.
  - split; [reflexivity|]. split; [exact I1|]. cbn [mv0 cpS cpR]. split; assumption.
  - split; [exact M2|]. split; [exact N2|exact N3].
Qed.

Lemma mv0_inv n c c1 h h' c0 : comp_bytes c1 -> Forall2 same_for1 h h' -> Forall (mop_ok n) h -> Forall (mop_ok n) h' ->
  comp_rel n c c0 c1 /\ comp_bytes c0 -> mv0 n c c1 h' h (mv0 n c c1 h h' c0) = c0.
Proof.
  intros B1 F K K' H. destruct (mv0_ok B1 F K K' H) as [H1 C1]. destruct (mv0_ok B1 (same_for1_sym F) K' K H1) as [H2 C2].
  destruct H as [(I0 & I1 & HR0 & HR1) B0], H1 as [(_ & _ & HR0' & HR1') _], H2 as [(I0'' & _ & HR0'' & HR1'') _]. pose proof (proj1 HR1) as Hp1. pose proof (proj1 HR0) as Hp0.
  destruct (@nturned_ok n (csPerm (cpS c1)) h h' (csPerm (cpS c0)) K K' Hp1 Hp0) as [T1 T2].
  assert (ES : cpS (mv0 n c c1 h' h (mv0 n c c1 h h' c0)) = cpS c0).
  { apply (fit_s_det HR0 HR0''). cbn [mv0 cpS mv_s csPerm]. exact T2. }
  assert (ER : cpR (mv0 n c c1 h' h (mv0 n c c1 h h' c0)) = cpR c0).
  { apply (fit_r_det HR1 HR1''). intros i j Hi Hj. rewrite C2, C1 by assumption.
    change (csPerm (cpS (mv0 n c c1 h h' c0))) with (turned n (npair n (csPerm (cpS c1)) h h') (csPerm (cpS c0))). rewrite T2.
    rewrite (@chg0_sym n h h') by assumption. xors. }
  destruct (mv0 n c c1 h' h (mv0 n c c1 h h' c0)) as [i s r]. destruct c0 as [i0 s0 r0]. cbn [cpIdx cpS cpR] in *. congruence.
Qed.

Lemma comp_hides1 n c c1 h h' : 0 < n -> (N.of_nat c < 2 ^ 64)%N -> comp_bytes c1 -> Forall2 same_for1 h h' -> Forall (mop_ok n) h -> Forall (mop_ok n) h' ->
  crOff (cpR c1) + mwidth0 h <= c -> csOff (cpS c1) + mwidth1 h <= c -> mderands h <= 1 ->
  hides (fun c0 => comp_rel n c c0 c1 /\ comp_bytes c0) (fun h c0 => comp_view1 c0 c1 h) h h'.
Proof.
  intros Hn Hc B1 F K K' W0 W1 D. exists (mv0 n c c1 h h'), (mv0 n c c1 h' h). split; intros c0 H.
  - destruct (mv0_ok B1 F K K' H) as [H1 C1]. split; [exact H1|]. split; [apply mv0_inv; assumption|].
    destruct H as [(I0 & I1 & HR0 & HR1) B0], H1 as [(I0' & _ & HR0' & HR1') _].
    assert (EO : csOff (cpS c0) = crOff (cpR c1)) by (destruct HR0 as (_ & _ & _ & _ & _ & _ & _ & _ & _ & _ & E & _); exact E).
    assert (EP : csPerm (cpS (mv0 n c c1 h h' c0)) = turned n (npair n (csPerm (cpS c1)) h h') (csPerm (cpS c0))) by reflexivity.
    destruct (mv0 n c c1 h h' c0) as [i0' s0' r0']. destruct c0 as [i0 s0 r0], c1 as [i1 s1 r1]. cbn [cpIdx cpS cpR] in *. subst i0 i1 i0'.
    apply (@mtrace1 n c Hn Hc h h' s0 r0 s1 r1 s0' r0' F K K' HR0 HR1 HR0' HR1'); [rewrite EO; exact W0|exact W1|exact D| |].
    + rewrite EP. destruct (npair n (csPerm s1) h h') as [[q q']|]; [reflexivity|exact I].
    + intros i j Hi Hj. rewrite C1 by (try assumption; lia). rewrite EP. reflexivity.
  - destruct (mv0_ok B1 (same_for1_sym F) K' K H) as [H1 _]. split; [exact H1|]. apply mv0_inv; try assumption. apply same_for1_sym; exact F.
Qed.
