(* Proofs that the messages of the permutation correlations hide the inputs and the permutations. *)
From Verif Require Import Base Words PermModel PermSpec PermProofs PermCorModel PermCorSpec PermCorProofs CompPermProofs ShuffleSpec ExtractPrivacy PrivSpec PermViewModel PermPrivSpec.
From Coq Require Import Btauto.

(* ---------------- the receiver's inputs ---------------- *)
(* how the receiver's matrix B has to change *)
Fixpoint chg (h h' : list cop) (pi : list nat) (off i j : nat) : N :=
  match h, h' with
  | OApply op w _ x :: t, OApply _ _ _ x' :: t' =>
    if (off <=? j) && (j <? off + w) then
      let k := match op with Regular => nth i pi 0 | Inverse => i end in
      N.lxor (cel w x k (j - off)) (cel w x' k (j - off))
    else chg t t' pi (off + w) i j
  | ODerand p :: t, ODerand _ :: t' => chg t t' p off i j
  | _, _ => 0%N
  end.

Lemma chg_sym : forall h h' pi off i j, Forall2 same_but_recv h h' -> chg h' h pi off i j = chg h h' pi off i j.
Proof.
  intros h h' pi off i j H. revert pi off. induction H as [|o o' h h' Ho H IH]; intros pi off; [reflexivity|].
  destruct o as [op w xs x|p], o' as [op' w' xs' x'|p']; try contradiction; cbn [same_but_recv] in Ho; cbn [chg].
  - destruct Ho as (-> & -> & -> & _). destruct (_ && _); [apply N.lxor_comm|apply IH].
  - subst p'. apply IH.
Qed.

Lemma chg_byte : forall h h' pi off i j, Forall2 same_but_recv h h' -> (chg h h' pi off i j < 256)%N.
Proof.
  intros h h' pi off i j H. revert pi off. induction H as [|o o' h h' Ho H IH]; intros pi off; [reflexivity|].
  destruct o as [op w xs x|p], o' as [op' w' xs' x'|p']; try contradiction; cbn [same_but_recv] in Ho; cbn [chg].
  - destruct Ho as (-> & -> & -> & B & B'). destruct (_ && _); [cbv zeta; apply lxor_byte; apply cel_byte; assumption|apply IH].
  - apply IH.
Qed.

(* the position of k in pi *)
Fixpoint pos (pi : list nat) (k : nat) : nat := match pi with [] => 0 | a :: r => if a =? k then 0 else S (pos r k) end.
Lemma pos_nth pi k : In k pi -> nth (pos pi k) pi 0 = k /\ pos pi k < length pi.
Proof.
  induction pi as [|a pi IH]; [contradiction|]. intros H. cbn [pos]. destruct (Nat.eqb_spec a k) as [->|Ne]; cbn [nth length]; [split; [reflexivity|lia]|].
  destruct H as [H|H]; [contradiction|]. destruct (IH H). split; [assumption|lia].
Qed.
Lemma pos_perm n pi k : is_perm n pi -> k < n -> nth (pos pi k) pi 0 = k /\ pos pi k < n.
Proof.
  intros H Hk. rewrite <- (is_perm_length H). apply pos_nth. apply (Permutation_in _ (Permutation_sym H)). apply in_seq. lia.
Qed.
Lemma pos_inv n pi i : is_perm n pi -> i < n -> pos pi (nth i pi 0) = i.
Proof.
  intros H Hi. destruct (nthp H Hi) as [_ Hk]. destruct (pos_perm H Hk) as [E L].
  apply (proj1 (NoDup_nth pi 0) (is_perm_NoDup H)); [rewrite (is_perm_length H); exact L|rewrite (is_perm_length H); exact Hi|exact E].
Qed.

Lemma lxor_swap a b e : N.lxor a (N.lxor b e) = N.lxor (N.lxor a b) e.
Proof. symmetry. apply N.lxor_assoc. Qed.

(* the receiver's state with another B *)
Definition mv_r (n c : nat) (S0 : cor_s) (e : nat -> nat -> N) (R : cor_r) : cor_r :=
  let b i j := N.lxor (cel c (dat (crB R)) i j) (e i j) in
  CorR (mkm n c (fun k j => N.lxor (cel c (dat (csDelta S0)) (pos (csPerm S0) k) j) (b (pos (csPerm S0) k) j))) (mkm n c b) (crOff R).

Lemma mv_r_ok n c S0 e R : fit_r n c S0 R -> bytes (dat (csDelta S0)) -> (forall i j, (e i j < 256)%N) ->
  fit_r n c S0 (mv_r n c S0 e R) /\
  (forall i j, i < n -> j < c -> cel c (dat (crB (mv_r n c S0 e R))) i j = N.lxor (cel c (dat (crB R)) i j) (e i j)).
Proof.
  intros [HR [BA BB]] BD He. pose proof HR as (Hp & RD & CD & LD & RA & CA & LA & RB & CB & LB & HO & HI).
  assert (HB : forall i j, i < n -> j < c -> cel c (dat (crB (mv_r n c S0 e R))) i j = N.lxor (cel c (dat (crB R)) i j) (e i j)).
  { intros i j Hi Hj. unfold mv_r. cbn [crB]. rewrite mkm_cel by assumption. reflexivity. }
  split; [|exact HB]. split; [|split].
  - unfold cor_rel. cbn [mv_r crA crB crOff rows cols mkm]. split; [exact Hp|]. split; [exact RD|]. split; [exact CD|]. split; [exact LD|].
    split; [reflexivity|]. split; [reflexivity|]. split; [apply mkm_len|]. split; [reflexivity|]. split; [reflexivity|]. split; [apply mkm_len|]. split; [exact HO|].
    intros i j Hi Hj. destruct (nthp Hp Hi) as [_ Hk]. change (Mat n c (concat ?x)) with (Mat n c (concat x)). 
    match goal with |- N.lxor _ (cel c ?b i j) = cel c ?a _ j => change (N.lxor (cel c (dat (csDelta S0)) i j) (cel c (dat (mkm n c (fun i j => N.lxor (cel c (dat (crB R)) i j) (e i j)))) i j)
       = cel c (dat (mkm n c (fun k j => N.lxor (cel c (dat (csDelta S0)) (pos (csPerm S0) k) j) (N.lxor (cel c (dat (crB R)) (pos (csPerm S0) k) j) (e (pos (csPerm S0) k) j))))) (nth i (csPerm S0) 0) j) end.
    rewrite !mkm_cel by assumption. rewrite (pos_inv Hp Hi). reflexivity.
  - apply mkm_bytes. intros i j Hi Hj. apply lxor_byte; [apply cel_byte; exact BD|]. apply lxor_byte; [apply cel_byte; exact BB|apply He].
  - apply mkm_bytes. intros i j Hi Hj. apply lxor_byte; [apply cel_byte; exact BB|apply He].
Qed.

(* given the sender's part, B determines the receiver's *)
Lemma fit_r_det n c S0 R R' : cor_rel n c S0 R -> cor_rel n c S0 R' -> 
  (forall i j, i < n -> j < c -> cel c (dat (crB R')) i j = cel c (dat (crB R)) i j) -> R' = R.
Proof.
  intros (Hp & RD & CD & LD & RA & CA & LA & RB & CB & LB & HO & HI) (_ & _ & _ & _ & RA' & CA' & LA' & RB' & CB' & LB' & HO' & HI') H.
  destruct R as [[ra ca a] [rb cb b] o], R' as [[ra' ca' a'] [rb' cb' b'] o']. cbn [crA crB crOff rows cols dat] in *. subst.
  assert (b' = b) as -> by (apply (cels_eq LB' LB); exact H).
  assert (a' = a) as ->; [|f_equal; congruence]. apply (cels_eq LA' LA). intros k j Hk Hj. destruct (pos_perm Hp Hk) as [E L].
  rewrite <- E, <- HI, <- HI' by assumption. reflexivity.
Qed.

Lemma trace_recv n c : 0 < n -> (N.of_nat c < 2 ^ 64)%N -> forall h h' S0 R R', Forall2 same_but_recv h h' -> Forall (op_ok n) h -> Forall (op_ok n) h' ->
  cor_rel n c S0 R -> cor_rel n c S0 R' -> csOff S0 + widths h <= c ->
  (forall i j, i < n -> csOff S0 <= j < c -> cel c (dat (crB R')) i j = N.lxor (cel c (dat (crB R)) i j) (chg h h' (csPerm S0) (csOff S0) i j)) ->
  cor_view_s S0 R' h' = cor_view_s S0 R h.
Proof.
  intros Hn Hc h h' S0 R R' HF. revert S0 R R'. unfold cor_view_s. induction HF as [|o o' h h' Ho HF IH]; intros S0 R R' Hok Hok' HR HR' Hw HB; [reflexivity|].
  apply Forall_cons_iff in Hok. destruct Hok as [K Hok]. apply Forall_cons_iff in Hok'. destruct Hok' as [K' Hok'].
  cbn [widths fold_right] in Hw. fold (widths h) in Hw. cbn [cor_trace].
  pose proof HR as (Hp & RD & CD & LD & RA & CA & LA & RB & CB & LB & HO & HI). pose proof HR' as (_ & _ & _ & _ & RA' & CA' & LA' & RB' & CB' & LB' & HO' & HI').
  destruct o as [op w xs x|p], o' as [op' w' xs' x'|p']; try contradiction; cbn [same_but_recv] in Ho; cbn [op_width op_ok] in *.
  - destruct Ho as (-> & -> & -> & Bx & Bx'). destruct K as [Lx Lxs], K' as [Lx' _].
    destruct (@recv_ok n c R op w (Mat n w x) (zmat n w)) as (msg & yr & E1 & Lm & Ly & Hm); try assumption; try reflexivity; [lia|apply zmat_len|].
    destruct (@recv_ok n c R' op w (Mat n w x') (zmat n w)) as (msg' & yr' & E1' & Lm' & Ly' & Hm'); try assumption; try reflexivity; [lia|apply zmat_len|].
    assert (msg' = msg) as ->.
    { apply (cels_eq Lm' Lm). intros i j Hi Hj. rewrite (proj1 (Hm i j Hi Hj)), (proj1 (Hm' i j Hi Hj)). cbn [dat].
      rewrite <- HO, <- HO'. cbn [chg] in HB.
      assert (J : (csOff S0 <=? csOff S0 + j) && (csOff S0 + j <? csOff S0 + w) = true) by (apply andb_true_iff; split; [apply Nat.leb_le|apply Nat.ltb_lt]; lia).
      destruct op.
      - destruct (pos_perm Hp Hi) as [Ek Lk]. rewrite <- Ek at 1 3. rewrite <- HI, <- HI' by (try assumption; lia).
        rewrite HB by (try assumption; lia). rewrite J. cbv zeta. rewrite Ek. replace (csOff S0 + j - csOff S0) with j by lia.
        apply N.bits_inj; intros q; rewrite !N.lxor_spec; btauto.
      - cbn [encM]. rewrite HB by (try assumption; lia). rewrite J. cbv zeta. replace (csOff S0 + j - csOff S0) with j by lia.
        apply N.bits_inj; intros q; rewrite !N.lxor_spec; btauto. }
    unfold cor_msg, cor_step. rewrite RA, RA', RD, E1, E1'. cbn [bind fst snd].
    match goal with |- context [match xs with Some a => @?f a | None => ?g end] => set (ss := match xs with Some a => f a | None => g end) end.
    destruct ss as [[sm S1]| | |] eqn:ES; try reflexivity. subst ss. cbn [bind fst snd].
    assert (S1 = CorS (csPerm S0) (csDelta S0) (csOff S0 + w)) as ->.
    { destruct (@round_ok n c S0 R op w (option_map (Mat n w) xs) (Mat n w x) (zmat n w) (zmat n w))
        as (msg2 & yr2 & ys2 & F1 & F2 & _); try assumption; try reflexivity; try apply zmat_len; [lia|destruct xs; cbn; auto|].
      rewrite E1 in F1. injection F1 as <- <-. destruct xs; cbn [option_map] in F2; rewrite F2 in ES; congruence. }
    specialize (IH (CorS (csPerm S0) (csDelta S0) (csOff S0 + w)) (CorR (crA R) (crB R) (crOff R + w)) (CorR (crA R') (crB R') (crOff R' + w)) Hok Hok').
    specialize (IH (cor_rel_off w HR) (cor_rel_off w HR')). cbn [csOff csPerm crB] in IH.
    assert (IH2 := IH ltac:(lia)). clear IH.
    assert (IH3 : (do t <- cor_trace (CorS (csPerm S0) (csDelta S0) (csOff S0 + w), CorR (crA R') (crB R') (crOff R' + w)) h'; Ok (map (fun m => (fst m, fst (snd m))) t))
      = (do t <- cor_trace (CorS (csPerm S0) (csDelta S0) (csOff S0 + w), CorR (crA R) (crB R) (crOff R + w)) h; Ok (map (fun m => (fst m, fst (snd m))) t))).
    { apply IH2. intros i j Hi Hj. rewrite HB by (try assumption; lia). cbn [chg].
      destruct (Nat.leb_spec (csOff S0) j); [|lia]. destruct (Nat.ltb_spec j (csOff S0 + w)); [lia|]. reflexivity. }
    clear IH2. destruct (cor_trace _ h') as [t'| | |], (cor_trace _ h) as [t| | |]; cbn [bind] in IH3 |- *; try congruence.
    injection IH3 as IH3. cbn [map fst snd dat]. rewrite IH3. reflexivity.
  - subst p'. destruct (derand_ok HR K) as (delta & R1 & E1 & E2 & HR1 & Ho1 & HB1). destruct (derand_ok HR' K) as (delta' & R1' & E1' & E2' & HR1' & Ho1' & HB1').
    rewrite E1 in E1'. injection E1' as <-.
    unfold cor_msg, cor_step. rewrite E1. cbn [bind fst snd]. rewrite E2, E2'. cbn [bind fst snd].
    specialize (IH (CorS p (csDelta S0) (csOff S0)) R1 R1' Hok Hok' HR1 HR1'). cbn [csOff csPerm] in IH.
    assert (IH3 := IH ltac:(lia)). clear IH. rewrite HB1, HB1' in IH3. cbn [chg] in HB. specialize (IH3 HB).
    destruct (cor_trace _ h') as [t'| | |], (cor_trace _ h) as [t| | |]; cbn [bind] in IH3 |- *; try congruence.
    injection IH3 as IH3. cbn [map fst snd]. rewrite IH3. reflexivity.
Qed.

Lemma hist_hides_recv n c S0 h h' : 0 < n -> (N.of_nat c < 2 ^ 64)%N -> Forall2 same_but_recv h h' -> Forall (op_ok n) h -> Forall (op_ok n) h' ->
  bytes (dat (csDelta S0)) -> csOff S0 + widths h <= c ->
  hides (fit_r n c S0) (fun h R => cor_view_s S0 R h) h h'.
Proof.
  intros Hn Hc HF Hok Hok' BD Hw. set (e := chg h h' (csPerm S0) (csOff S0)).
  assert (He : forall i j, (e i j < 256)%N) by (intros i j; apply chg_byte; exact HF).
  assert (INV : forall R, fit_r n c S0 R -> mv_r n c S0 e (mv_r n c S0 e R) = R).
  { intros R HR. destruct (mv_r_ok HR BD He) as [H1 B1]. destruct (mv_r_ok H1 BD He) as [H2 B2].
    apply (fit_r_det (proj1 HR) (proj1 H2)). intros i j Hi Hj. rewrite B2, B1 by assumption. rewrite N.lxor_assoc, N.lxor_nilpotent, N.lxor_0_r. reflexivity. }
  exists (mv_r n c S0 e), (mv_r n c S0 e). split; intros R HR; destruct (mv_r_ok HR BD He) as [H1 B1].
  - split; [exact H1|]. split; [exact (INV R HR)|]. apply (trace_recv Hn Hc HF Hok Hok' (proj1 HR) (proj1 H1) Hw).
    intros i j Hi Hj. rewrite B1 by (try assumption; lia). reflexivity.
  - split; [exact H1|exact (INV R HR)].
Qed.

(* ---------------- the sender's permutation ---------------- *)
(* the first permutations the two histories change to *)
Fixpoint dpair (h h' : list cop) : option (list nat * list nat) :=
  match h, h' with
  | OApply _ _ _ _ :: t, OApply _ _ _ _ :: t' => dpair t t'
  | ODerand p :: _, ODerand p' :: _ => Some (p, p')
  | _, _ => None
  end.
Lemma dpair_swap h : forall h', dpair h' h = option_map (fun q => (snd q, fst q)) (dpair h h').
Proof.
  induction h as [|o h IH]; intros h'; destruct h' as [|o' h']; try reflexivity; [destruct o'; reflexivity|destruct o; reflexivity|].
  destruct o, o'; try reflexivity. cbn [dpair]. apply IH.
Qed.
Lemma dpair_none h : forall h', derands h = 0 -> Forall2 same_but_send h h' -> dpair h h' = None.
Proof.
  induction h as [|o h IH]; intros h' D F; inversion F as [|? o' ? t' Ho Ft]; subst; [reflexivity|].
  destruct o, o'; try contradiction; cbn [dpair]; [apply IH; [exact D|exact Ft]|discriminate D].
Qed.
Lemma dpair_perm n h : forall h' p p', Forall (op_ok n) h -> Forall (op_ok n) h' -> dpair h h' = Some (p, p') -> is_perm n p /\ is_perm n p'.
Proof.
  induction h as [|o h IH]; intros h' p p' K K' E; [discriminate E|]. destruct h' as [|o' h']; [destruct o; discriminate E|].
  apply Forall_cons_iff in K. apply Forall_cons_iff in K'. destruct K as [k K], K' as [k' K']. destruct o, o'; try discriminate E; cbn [dpair] in E.
  - apply (IH h'); assumption.
  - injection E as <- <-. split; assumption.
Qed.

(* the permutation that gives with p' the difference that pi gives with p *)
Definition turn (n : nat) (p p' pi : list nat) : list nat := map (fun k => nth (pos p (nth k p' 0)) pi 0) (seq 0 n).
Lemma turn_nth n p p' pi k : k < n -> nth k (turn n p p' pi) 0 = nth (pos p (nth k p' 0)) pi 0.
Proof.
  intros H. unfold turn. rewrite (@nth_map_d _ _ _ _ k 0) by (rewrite seq_length; exact H). rewrite seq_nth by exact H. reflexivity.
Qed.
Lemma turn_perm n p p' pi : is_perm n p -> is_perm n p' -> is_perm n pi -> is_perm n (turn n p p' pi).
Proof.
  intros H H' Hp. apply NoDup_Permutation_bis.
  - apply (NoDup_nth _ 0). unfold turn at 1 2. rewrite map_length, seq_length. intros i j Hi Hj E. rewrite !turn_nth in E by assumption.
    destruct (nthp H' Hi) as [_ Li], (nthp H' Hj) as [_ Lj]. destruct (pos_perm H Li) as [Ei Pi], (pos_perm H Lj) as [Ej Pj].
    apply (proj1 (NoDup_nth pi 0) (is_perm_NoDup Hp)) in E; [|rewrite (is_perm_length Hp); assumption..].
    rewrite E in Ei. rewrite Ei in Ej. apply (proj1 (NoDup_nth p' 0) (is_perm_NoDup H')) in Ej; [exact Ej|rewrite (is_perm_length H'); assumption..].
  - unfold turn. rewrite map_length, !seq_length. lia.
  - intros x Hx. unfold turn in Hx. apply in_map_iff in Hx. destruct Hx as (k & <- & Hk). apply in_seq in Hk. apply in_seq.
    destruct (nthp H' (i := k)) as [_ Li]; [lia|]. destruct (pos_perm H Li) as [Ei Pi]. destruct (nthp Hp Pi). lia.
Qed.
Lemma turn_turn n p p' pi : is_perm n p -> is_perm n p' -> is_perm n pi -> turn n p' p (turn n p p' pi) = pi.
Proof.
  intros H H' Hp. apply (nth_ext _ _ 0 0); [unfold turn; rewrite map_length, seq_length, (is_perm_length Hp); reflexivity|].
  intros k Hk. unfold turn at 1 in Hk. rewrite map_length, seq_length in Hk. destruct (nthp H Hk) as [_ L]. destruct (pos_perm H' L) as [E P].
  rewrite turn_nth by exact Hk. rewrite turn_nth by exact P. rewrite E. rewrite (pos_inv H Hk). reflexivity.
Qed.

(* the sender's state with another permutation *)
Definition mv_s (n c : nat) (R : cor_r) (pi : list nat) (S0 : cor_s) : cor_s :=
  CorS pi (mkm n c (fun i j => N.lxor (cel c (dat (crA R)) (nth i pi 0) j) (cel c (dat (crB R)) i j))) (csOff S0).
Lemma mv_s_ok n c R pi S0 : fit_s n c R S0 -> bytes (dat (crA R)) -> bytes (dat (crB R)) -> is_perm n pi -> fit_s n c R (mv_s n c R pi S0).
Proof.
  intros [HR BD] BA BB Hpi. pose proof HR as (Hp & RD & CD & LD & RA & CA & LA & RB & CB & LB & HO & HI). split.
  - unfold cor_rel. cbn [mv_s csPerm csDelta csOff rows cols mkm]. split; [exact Hpi|]. split; [reflexivity|]. split; [reflexivity|]. split; [apply mkm_len|].
    split; [exact RA|]. split; [exact CA|]. split; [exact LA|]. split; [exact RB|]. split; [exact CB|]. split; [exact LB|]. split; [exact HO|].
    intros i j Hi Hj.
    change (N.lxor (cel c (dat (mkm n c (fun i j => N.lxor (cel c (dat (crA R)) (nth i pi 0) j) (cel c (dat (crB R)) i j)))) i j) (cel c (dat (crB R)) i j)
      = cel c (dat (crA R)) (nth i pi 0) j).
    rewrite mkm_cel by assumption. apply N.bits_inj; intros q; rewrite !N.lxor_spec; btauto.
  - cbn [mv_s csDelta]. apply mkm_bytes. intros i j Hi Hj. apply lxor_byte; apply cel_byte; assumption.
Qed.
Lemma fit_s_det n c R S0 S1 : cor_rel n c S0 R -> cor_rel n c S1 R -> csPerm S1 = csPerm S0 -> S1 = S0.
Proof.
  intros (Hp & RD & CD & LD & RA & CA & LA & RB & CB & LB & HO & HI) (_ & RD' & CD' & LD' & _ & _ & _ & _ & _ & _ & HO' & HI') H.
  destruct S0 as [p [r0 c0 d] o], S1 as [p' [r' c' d'] o']. cbn [csPerm csDelta csOff rows cols dat] in *. subst.
  assert (d' = d) as ->; [|f_equal; congruence]. apply (cels_eq LD' LD). intros i j Hi Hj.
  specialize (HI i j Hi Hj). specialize (HI' i j Hi Hj). rewrite <- HI in HI'.
  apply (f_equal (fun z => N.lxor z (cel (cols (crA R)) (dat (crB R)) i j))) in HI'. rewrite !N.lxor_assoc, N.lxor_nilpotent, !N.lxor_0_r in HI'. exact HI'.
Qed.

(* the difference a sender announces *)
Lemma derand_delta n c S0 R p : cor_rel n c S0 R -> is_perm n p ->
  exists delta, cor_send_derand S0 p = Ok (delta, CorS p (csDelta S0) (csOff S0)) /\ is_perm n delta /\ forall k, k < n -> nth k delta 0 = nth (pos p k) (csPerm S0) 0.
Proof.
  intros HR Hq. pose proof (proj1 HR) as Hp. unfold cor_send_derand. destruct (perm_inverse_ok Hq) as (inv & E1 & Hinv & H1). rewrite E1. cbn [bind].
  destruct (perm_compose_ok Hinv Hp) as (delta & E2 & Hd & H2). rewrite E2. cbn [bind]. exists delta. split; [reflexivity|]. split; [exact Hd|].
  intros k Hk. destruct (pos_perm Hq Hk) as [E L]. destruct (nthp Hq L) as [Eq _]. rewrite E in Eq. apply H1 in Eq. destruct Eq as [Eq _].
  pose proof (H2 _ _ Eq) as H. destruct (nthp Hp L) as [Ep _]. destruct (nthp Hd Hk) as [Ed _]. congruence.
Qed.

Lemma derands_cons_d p h : derands (ODerand p :: h) <= 1 -> derands h = 0. Proof. unfold derands. cbn [filter length]. lia. Qed.
Lemma derands_cons_a op w x y h : derands (OApply op w x y :: h) = derands h. Proof. reflexivity. Qed.
Lemma same_derands h h' : Forall2 same_but_send h h' -> derands h' = derands h.
Proof. intros F. induction F as [|o o' h h' Ho F IH]; [reflexivity|]. unfold derands in *. destruct o, o'; try contradiction; cbn [filter length]; congruence. Qed.

Lemma trace_send n c : 0 < n -> (N.of_nat c < 2 ^ 64)%N -> forall h h' S0 S1 R, Forall2 same_but_send h h' -> Forall (op_ok n) h -> Forall (op_ok n) h' ->
  cor_rel n c S0 R -> cor_rel n c S1 R -> csOff S0 + widths h <= c -> derands h <= 1 ->
  match dpair h h' with Some (p, p') => csPerm S1 = turn n p p' (csPerm S0) | None => True end ->
  cor_view_r S1 R h' = cor_view_r S0 R h.
Proof.
  intros Hn Hc h h' S0 S1 R HF. revert S0 S1 R. unfold cor_view_r. induction HF as [|o o' h h' Ho HF IH]; intros S0 S1 R Hok Hok' HR HR' Hw HD HP; [reflexivity|].
  apply Forall_cons_iff in Hok. destruct Hok as [K Hok]. apply Forall_cons_iff in Hok'. destruct Hok' as [K' Hok'].
  cbn [widths fold_right] in Hw. fold (widths h) in Hw. cbn [cor_trace].
  pose proof HR as (Hp & RD & CD & LD & RA & CA & LA & RB & CB & LB & HO & HI). pose proof HR' as (Hp' & RD' & CD' & LD' & _ & _ & _ & _ & _ & _ & HO' & HI').
  destruct o as [op w xs x|p], o' as [op' w' xs' x'|p']; try contradiction; cbn [same_but_send] in Ho; cbn [op_width op_ok] in *.
  - destruct Ho as (-> & -> & ->). destruct K as [Lx Lxs], K' as [_ Lxs']. rewrite derands_cons_a in HD. cbn [dpair] in HP.
    destruct (@round_ok n c S0 R op w (option_map (Mat n w) xs) (Mat n w x) (zmat n w) (zmat n w)) as (msg & yr & ys & F1 & F2 & _);
      try assumption; try reflexivity; try apply zmat_len; [lia|destruct xs; cbn; auto|].
    destruct (@round_ok n c S1 R op w (option_map (Mat n w) xs') (Mat n w x) (zmat n w) (zmat n w)) as (msg' & yr' & ys' & F1' & F2' & _);
      try assumption; try reflexivity; try apply zmat_len; [lia|destruct xs'; cbn; auto|].
    rewrite F1 in F1'. injection F1' as <- <-.
    unfold cor_msg, cor_step. rewrite RA, RD, RD', F1. cbn [bind fst snd].
    replace (match xs with Some x0 => cor_send_apply_in S0 op (Mat n w x0) (zmat n w) msg | None => cor_send_apply S0 op (zmat n w) msg end)
      with (Ok (Mat n w ys, CorS (csPerm S0) (csDelta S0) (csOff S0 + w))) by (destruct xs; exact (eq_sym F2)).
    replace (match xs' with Some x0 => cor_send_apply_in S1 op (Mat n w x0) (zmat n w) msg | None => cor_send_apply S1 op (zmat n w) msg end)
      with (Ok (Mat n w ys', CorS (csPerm S1) (csDelta S1) (csOff S1 + w))) by (destruct xs'; exact (eq_sym F2')).
    cbn [bind fst snd].
    assert (IH3 := IH _ _ _ Hok Hok' (cor_rel_off w HR) (cor_rel_off w HR')). clear IH. cbn [csOff csPerm] in IH3. specialize (IH3 ltac:(lia) HD HP).
    destruct (cor_trace _ h') as [t'| | |], (cor_trace _ h) as [t| | |]; cbn [bind] in IH3 |- *; try congruence.
    injection IH3 as IH3. cbn [map fst snd]. rewrite IH3. reflexivity.
  - destruct (derand_ok HR K) as (delta & R1 & E1 & E2 & HR1 & Ho1 & HB1). destruct (derand_ok HR' K') as (delta' & R1' & E1' & E2' & HR1' & Ho1' & HB1').
    cbn [dpair] in HP.
    assert (delta' = delta) as ->.
    { destruct (derand_delta HR K) as (d & G1 & G2 & G3). destruct (derand_delta HR' K') as (d' & G1' & G2' & G3').
      rewrite E1 in G1. injection G1 as <-. rewrite E1' in G1'. injection G1' as <-.
      apply (nth_ext _ _ 0 0); [rewrite (is_perm_length G2), (is_perm_length G2'); reflexivity|]. rewrite (is_perm_length G2'). intros k Hk.
      rewrite G3, G3' by exact Hk. rewrite HP. destruct (pos_perm K' Hk) as [Ek Lk]. rewrite turn_nth by exact Lk. rewrite Ek. reflexivity. }
    rewrite E2 in E2'. injection E2' as <-.
    unfold cor_msg, cor_step. rewrite E1, E1'. cbn [bind fst snd]. rewrite E2. cbn [bind fst snd].
    assert (D0 := derands_cons_d HD). assert (IH3 := IH _ _ _ Hok Hok' HR1 HR1'). clear IH. cbn [csOff csPerm] in IH3.
    specialize (IH3 ltac:(lia) ltac:(lia)). rewrite (dpair_none D0 HF) in IH3. specialize (IH3 I).
    destruct (cor_trace _ h') as [t'| | |], (cor_trace _ h) as [t| | |]; cbn [bind] in IH3 |- *; try congruence.
    injection IH3 as IH3. cbn [map fst snd]. rewrite IH3. reflexivity.
Qed.

Lemma hist_hides_send n c R h h' : 0 < n -> (N.of_nat c < 2 ^ 64)%N -> Forall2 same_but_send h h' -> Forall (op_ok n) h -> Forall (op_ok n) h' ->
  bytes (dat (crA R)) -> bytes (dat (crB R)) -> crOff R + widths h <= c -> derands h <= 1 ->
  hides (fit_s n c R) (fun h S0 => cor_view_r S0 R h) h h'.
Proof.
  intros Hn Hc HF Hok Hok' BA BB Hw HD.
  destruct (dpair h h') as [[p p']|] eqn:E.
  2:{ exists (fun s => s), (fun s => s). split; intros s Hs; [|auto]. split; [exact Hs|]. split; [reflexivity|].
      apply (trace_send Hn Hc HF Hok Hok' (proj1 Hs) (proj1 Hs)); [|exact HD|rewrite E; exact I].
      destruct (proj1 Hs) as (_ & _ & _ & _ & _ & _ & _ & _ & _ & _ & HO & _). rewrite HO. exact Hw. }
  destruct (dpair_perm Hok Hok' E) as [P P'].
  exists (fun s => mv_s n c R (turn n p p' (csPerm s)) s), (fun s => mv_s n c R (turn n p' p (csPerm s)) s).
  split; intros s Hs; pose proof (proj1 (proj1 Hs)) as Hp.
  - assert (H1 := mv_s_ok Hs BA BB (turn_perm P P' Hp)). split; [exact H1|]. split.
    + assert (H2 := mv_s_ok H1 BA BB (turn_perm P' P (proj1 (proj1 H1)))). apply (fit_s_det (proj1 Hs) (proj1 H2)). cbn [mv_s csPerm]. apply (turn_turn P P' Hp).
    + apply (trace_send Hn Hc HF Hok Hok' (proj1 Hs) (proj1 H1)); [|exact HD|rewrite E; reflexivity].
      destruct (proj1 Hs) as (_ & _ & _ & _ & _ & _ & _ & _ & _ & _ & HO & _). rewrite HO. exact Hw.
  - assert (H1 := mv_s_ok Hs BA BB (turn_perm P' P Hp)). split; [exact H1|].
    assert (H2 := mv_s_ok H1 BA BB (turn_perm P P' (proj1 (proj1 H1)))). apply (fit_s_det (proj1 Hs) (proj1 H2)). cbn [mv_s csPerm]. apply (turn_turn P' P Hp).
Qed.

(* the second difference does not depend on the correlation *)
Lemma second_derand n c S0 R p1 p2 : cor_rel n c S0 R -> is_perm n p1 -> is_perm n p2 ->
  exists d1 d2, cor_view_r S0 R [ODerand p1; ODerand p2] = Ok [(MPerm d1, []); (MPerm d2, [])] /\
    length d2 = n /\ forall k, k < n -> nth (nth k p2 0) d2 0 = nth k p1 0.
Proof.
  intros HR H1 H2. destruct (derand_ok HR H1) as (d1 & R1 & E1 & E2 & HR1 & _). destruct (derand_ok HR1 H2) as (d2 & R2 & F1 & F2 & _).
  destruct (derand_delta HR1 H2) as (d2' & G1 & G2 & G3). rewrite F1 in G1. injection G1 as <-. exists d1, d2. split; [|split].
  - unfold cor_view_r. cbn [cor_trace]. unfold cor_msg, cor_step. rewrite E1. cbn [bind fst snd]. rewrite E2. cbn [bind fst snd].
    rewrite F1. cbn [bind fst snd]. rewrite F2. reflexivity.
  - apply (is_perm_length G2).
  - intros k Hk. destruct (nthp H2 Hk) as [_ L]. rewrite G3 by exact L. rewrite (pos_inv H2 Hk). reflexivity.
Qed.
