(* The bijections: a round with other keys of party 0 (party 1) that party 1 (party 0) cannot tell apart. *)
From Verif Require Import Base Words GmwModel ShuffleModel ShuffleSpec PermCorModel PermCorSpec PrfModel KeyMultModel BitInjModel RadixModel RadixSpec BitInjProofs PrivSpec SortViewModel SortPrivSpec.
From Verif Require Import PermCorProofs GmwProofs HadamardProofs RadixProofs RadixFlagProofs RadixRankProofs OtPrivacy HsPrivacy RoundPrivacy.

Lemma orel_ok A B (R : A -> B -> Prop) x y : orel R (Ok x) (Ok y) -> R x y. Proof. auto. Qed.

Definition at_ (l : list (list bool)) (k : nat) : bool := nth k (concat l) false.

(* ---------- party 0 with other keys ---------- *)
Definition rmv1 (n c : nat) (b0 b0' b1 : list N) (hot' a2b' : list N) (rd : radix_round) : radix_round :=
  let D := dI n c b1 (rdInj1 rd) in
  let E := dH n c b1 (h1r (rdHs rd)) in
  let inj0' := sflips (chgZ (vbit (n * c) (length b1) b0) (vbit (n * c) (length b1) b0') (at_ D)) 0 (rdInj1 rd) (rdInj0 rd) in
  Round inj0' (rdInj1 rd) hot'
    (HsOts (rflips (fbit b0 b0') 0 (h1s (rdHs rd)) (h0r (rdHs rd))) (h1s (rdHs rd)) (h1r (rdHs rd))
      (sflips (chgZ (vsum b0 (sum0 n c b0 (rdInj0 rd) D)) (vsum b0' (sum0 n c b0' inj0' D)) (at_ E)) 0 (h1r (rdHs rd)) (h0s (rdHs rd)))) a2b'.

Lemma rmv1_fits n c b0 b0' b1 hot' a2b' rd : ots_ok (n * c) (rdInj0 rd) (rdInj1 rd) -> hots_ok (n * c) c (rdHs rd) ->
  str32 (rdInj0 rd) -> str32 (h1s (rdHs rd)) -> str32 (h0s (rdHs rd)) ->
  let rd' := rmv1 n c b0 b0' b1 hot' a2b' rd in
  ots_ok (n * c) (rdInj0 rd') (rdInj1 rd') /\ hots_ok (n * c) c (rdHs rd') /\ str32 (rdInj0 rd') /\ str32 (h1s (rdHs rd')) /\ str32 (h0s (rdHs rd')).
Proof.
  intros O (O1 & O2 & M1 & M2) S0 S1 S2 rd'. unfold rd', rmv1. cbn [rdInj0 rdInj1 rdHs h0r h1s h1r h0s].
  destruct (@sflips_ok (n * c) (chgZ (vbit (n * c) (length b1) b0) (vbit (n * c) (length b1) b0') (at_ (dI n c b1 (rdInj1 rd)))) (rdInj1 rd) (rdInj0 rd)) as [A1 A2]; [split; assumption|].
  set (inj0' := sflips _ 0 (rdInj1 rd) (rdInj0 rd)) in *. set (z := chgZ (vsum b0 _) _ _).
  destruct (@sflips_ok (n * c) z (h1r (rdHs rd)) (h0s (rdHs rd))) as [B1 B2]; [split; assumption|].
  split; [exact A1|]. split; [|split; [exact A2|split; [exact S1|exact B2]]].
  unfold hots_ok. cbn [h0r h1s h1r h0s]. split; [apply rflips_ok; exact O1|]. split; [exact B1|]. split; [exact M1|]. apply (@sflips_lens (fun l => l mod c = 0)). exact M2.
Qed.

Lemma rmv1_inv n c b0 b0' b1 hot' a2b' rd : ots_ok (n * c) (rdInj0 rd) (rdInj1 rd) -> hots_ok (n * c) c (rdHs rd) ->
  str32 (rdInj0 rd) -> str32 (h0s (rdHs rd)) ->
  rmv1 n c b0' b0 b1 (rdHot rd) (rdA2b rd) (rmv1 n c b0 b0' b1 hot' a2b' rd) = rd.
Proof.
  intros (R & _) ((R1 & _) & (R2 & _) & _) S0 S2. destruct rd as [inj0 inj1 hot [a b d e] a2b]. unfold rmv1. cbn [rdInj0 rdInj1 rdHot rdHs rdA2b h0r h1s h1r h0s] in *.
  assert (E0 : sflips (chgZ (vbit (n * c) (length b1) b0') (vbit (n * c) (length b1) b0) (at_ (dI n c b1 inj1))) 0 inj1
     (sflips (chgZ (vbit (n * c) (length b1) b0) (vbit (n * c) (length b1) b0') (at_ (dI n c b1 inj1))) 0 inj1 inj0) = inj0).
  { apply sflips_inv; [intros; apply chgZ_swap|symmetry; apply (Forall2_length' R)|exact S0]. }
  rewrite E0. f_equal. f_equal.
  - rewrite (@rflips_ext (fbit b0' b0) (fbit b0 b0')) by (intros; unfold fbit; apply xorb_comm). apply rflips_inv. exact R1.
  - apply sflips_inv; [intros; apply chgZ_swap|symmetry; apply (Forall2_length' R2)|exact S2].
Qed.

Lemma rmv1_see n c b0 b0' b1 hot' a2b' rd : 0 < c -> n * c <= 8 * length b0 -> length b1 = length b0 -> length b0' = length b0 ->
  ots_ok (n * c) (rdInj0 rd) (rdInj1 rd) -> hots_ok (n * c) c (rdHs rd) ->
  str32 (rdInj0 rd) -> str32 (h1s (rdHs rd)) -> str32 (h0s (rdHs rd)) -> length (rdA2b rd) = n -> length a2b' = n ->
  exists t t', core n c b0 b1 rd = Ok t /\ core n c b0' b1 (rmv1 n c b0 b0' b1 hot' a2b' rd) = Ok t' /\
    snd (rvB t') = snd (rvB t) /\ snd (rvInj t') = snd (rvInj t) /\ fst (rvP t') = fst (rvP t) /\ snd (rvQ t') = snd (rvQ t).
Proof.
  intros Hc HB HL HL' O HO S0 S1 S2 La La'. set (rd' := rmv1 n c b0 b0' b1 hot' a2b' rd).
  destruct (@rmv1_fits n c b0 b0' b1 hot' a2b' rd O HO S0 S1 S2) as (O' & HO' & _). fold rd' in O', HO'.
  destruct (@core_parts n c b0 b1 rd Hc HB HL O HO La) as (x & y & o1 & p1 & p2 & p3 & q1 & q2 & q3 & X & Y & Z & LY & LZ & P0 & P00 & P1 & P2 & P3 & Q1 & Q2 & Q3 & _ & _ & _ & _ & E).
  destruct (@core_parts n c b0' b1 rd' Hc ltac:(lia) ltac:(lia) O' HO' La') as (x' & y' & o1' & p1' & p2' & p3' & q1' & q2' & q3' & X' & Y' & Z' & LY' & LZ' & P0' & P00' & P1' & P2' & P3' & Q1' & Q2' & Q3' & _ & _ & _ & _ & E').
  eexists _, _. split; [exact E|]. split; [exact E'|]. cbn [rvB rvInj rvP rvQ fst snd]. split; [reflexivity|].
  assert (EX : x' = x). { change (rdInj1 rd') with (rdInj1 rd) in X'. rewrite X in X'. injection X'. auto. } subst x'.
  assert (ED : dI n c b1 (rdInj1 rd) = map fst x) by (unfold dI; rewrite X; reflexivity).
  assert (EY : snd y' = snd y).
  { pose proof (@bi_send_flip (n * c) (n * c) (length b0) b0 b0' 32 (N.ones 32) (at_ (map fst x)) HL' (rdInj0 rd) (rdInj1 rd) (map fst x) 0 (proj1 O) (fun t => eq_refl)) as F.
    unfold injs in Y, Y'. rewrite Y in F. unfold rd', rmv1 in Y'. cbn [rdInj0] in Y'. rewrite ED, HL, HL' in Y'. rewrite Y' in F. apply orel_ok in F. apply F. }
  split; [exact EY|]. rewrite EY, Z in Z'. injection Z' as <-.
  assert (EP : fst p1' = fst p1).
  { pose proof (@hs_send1_flip n c b0 b0' HL' (h1s (rdHs rd)) (h0r (rdHs rd)) 0 (proj1 (proj1 HO))) as F. cbn [Nat.mul] in F. rewrite P1 in F.
    unfold rd', rmv1 in P1'. cbn [rdHs h0r] in P1'. rewrite P1' in F. apply orel_ok in F. apply F. }
  split; [exact EP|]. 
  assert (EQ : q1' = q1). { change (h1r (rdHs rd')) with (h1r (rdHs rd)) in Q1'. rewrite Q1 in Q1'. injection Q1'. auto. } subst q1'.
  assert (EH : dH n c b1 (h1r (rdHs rd)) = fst q1) by (unfold dH; rewrite Q1; reflexivity).
  pose proof (@hs_recv_flip n c b0 b0' (agg 0 n c (fst y)) (agg 0 n c (fst y')) (at_ (fst q1)) HL' ltac:(lia) (h0s (rdHs rd)) (h1r (rdHs rd)) (fst q1) 0 (proj1 (proj1 (proj2 HO))) (fun t => eq_refl)) as F.
  cbn [Nat.mul] in F. rewrite Q2 in F. 
  assert (T0 : sum0 n c b0 (rdInj0 rd) (dI n c b1 (rdInj1 rd)) = agg 0 n c (fst y)) by (unfold sum0; rewrite ED, Y; reflexivity).
  assert (T1 : sum0 n c b0' (rdInj0 rd') (dI n c b1 (rdInj1 rd)) = agg 0 n c (fst y')) by (unfold sum0; rewrite ED, Y'; reflexivity).
  assert (T2 : h0s (rdHs rd') = sflips (chgZ (vsum b0 (agg 0 n c (fst y))) (vsum b0' (agg 0 n c (fst y'))) (at_ (fst q1))) 0 (h1r (rdHs rd)) (h0s (rdHs rd))).
  { rewrite <- T0, <- T1, <- EH. reflexivity. }
  rewrite T2 in Q2'. rewrite Q2' in F. apply orel_ok in F. apply F.
Qed.

(* ---------- party 1 with other keys ---------- *)
Definition rmv0 (n c : nat) (b0 b1 b1' : list N) (rd : radix_round) : radix_round :=
  let inj1' := rflips (ebit (n * c) (length b0) b1 b1') 0 (rdInj0 rd) (rdInj1 rd) in
  let E := dH n c b0 (h0r (rdHs rd)) in
  Round (rdInj0 rd) inj1' (rdHot rd)
    (HsOts (h0r (rdHs rd))
      (sflips (chgZ (vsum b1 (sum1 n c b0 b1 (rdInj0 rd) (rdInj1 rd))) (vsum b1' (sum1 n c b0 b1' (rdInj0 rd) inj1')) (at_ E)) 0 (h0r (rdHs rd)) (h1s (rdHs rd)))
      (rflips (fbit b1 b1') 0 (h0s (rdHs rd)) (h1r (rdHs rd))) (h0s (rdHs rd))) (rdA2b rd).

Lemma rmv0_fits n c b0 b1 b1' rd : ots_ok (n * c) (rdInj0 rd) (rdInj1 rd) -> hots_ok (n * c) c (rdHs rd) ->
  str32 (rdInj0 rd) -> str32 (h1s (rdHs rd)) -> str32 (h0s (rdHs rd)) ->
  let rd' := rmv0 n c b0 b1 b1' rd in
  ots_ok (n * c) (rdInj0 rd') (rdInj1 rd') /\ hots_ok (n * c) c (rdHs rd') /\ str32 (rdInj0 rd') /\ str32 (h1s (rdHs rd')) /\ str32 (h0s (rdHs rd')).
Proof.
  intros O (O1 & O2 & M1 & M2) S0 S1 S2 rd'. unfold rd', rmv0. cbn [rdInj0 rdInj1 rdHs h0r h1s h1r h0s].
  set (z := chgZ (vsum b1 _) _ _).
  destruct (@sflips_ok (n * c) z (h0r (rdHs rd)) (h1s (rdHs rd))) as [B1 B2]; [split; assumption|].
  split; [apply rflips_ok; exact O|]. split; [|split; [exact S0|split; [exact B2|exact S2]]].
  unfold hots_ok. cbn [h0r h1s h1r h0s]. split; [exact B1|]. split; [apply rflips_ok; exact O2|]. split; [|exact M2]. apply (@sflips_lens (fun l => l mod c = 0)). exact M1.
Qed.

Lemma rmv0_inv n c b0 b1 b1' rd : ots_ok (n * c) (rdInj0 rd) (rdInj1 rd) -> hots_ok (n * c) c (rdHs rd) -> str32 (h1s (rdHs rd)) ->
  rmv0 n c b0 b1' b1 (rmv0 n c b0 b1 b1' rd) = rd.
Proof.
  intros (R & _) ((R1 & _) & (R2 & _) & _) S1. destruct rd as [inj0 inj1 hot [a b d e] a2b]. unfold rmv0. cbn [rdInj0 rdInj1 rdHot rdHs rdA2b h0r h1s h1r h0s] in *.
  assert (E0 : rflips (ebit (n * c) (length b0) b1' b1) 0 inj0 (rflips (ebit (n * c) (length b0) b1 b1') 0 inj0 inj1) = inj1).
  { rewrite (@rflips_ext (ebit (n * c) (length b0) b1' b1) (ebit (n * c) (length b0) b1 b1')) by (intros; unfold ebit; apply xorb_comm). apply rflips_inv. exact R. }
  rewrite E0. f_equal. f_equal.
  - apply sflips_inv; [intros; apply chgZ_swap|symmetry; apply (Forall2_length' R1)|exact S1].
  - rewrite (@rflips_ext (fbit b1' b1) (fbit b1 b1')) by (intros; unfold fbit; apply xorb_comm). apply rflips_inv. exact R2.
Qed.

Lemma rec_rels x x' : Forall2 rec_rel x x' -> map fst x' = map fst x.
Proof. intros H. induction H as [|a b x x' [E _] H IH]; cbn; congruence. Qed.

Lemma rmv0_see n c b0 b1 b1' rd : 0 < c -> n * c <= 8 * length b0 -> length b1 = length b0 -> length b1' = length b0 ->
  ots_ok (n * c) (rdInj0 rd) (rdInj1 rd) -> hots_ok (n * c) c (rdHs rd) ->
  str32 (rdInj0 rd) -> str32 (h1s (rdHs rd)) -> str32 (h0s (rdHs rd)) -> length (rdA2b rd) = n ->
  exists t t', core n c b0 b1 rd = Ok t /\ core n c b0 b1' (rmv0 n c b0 b1 b1' rd) = Ok t' /\ see0 t' = see0 t.
Proof.
  intros Hc HB HL HL' O HO S0 S1 S2 La. set (rd' := rmv0 n c b0 b1 b1' rd).
  destruct (@rmv0_fits n c b0 b1 b1' rd O HO S0 S1 S2) as (O' & HO' & _). fold rd' in O', HO'.
  destruct (@core_parts n c b0 b1 rd Hc HB HL O HO La) as (x & y & o1 & p1 & p2 & p3 & q1 & q2 & q3 & X & Y & Z & LY & LZ & P0 & P00 & P1 & P2 & P3 & Q1 & Q2 & Q3 & _ & _ & _ & _ & E).
  destruct (@core_parts n c b0 b1' rd' Hc ltac:(lia) ltac:(lia) O' HO' La) as (x' & y' & o1' & p1' & p2' & p3' & q1' & q2' & q3' & X' & Y' & Z' & LY' & LZ' & P0' & P00' & P1' & P2' & P3' & Q1' & Q2' & Q3' & _ & _ & _ & _ & E').
  eexists _, _. split; [exact E|]. split; [exact E'|]. unfold see0. cbn [rvB rvInj rvP rvQ rvOut fst snd]. change (rdA2b rd') with (rdA2b rd).
  assert (EX : map fst x' = map fst x).
  { pose proof (@bi_recv1_flip (n * c) (n * c) (length b0) b1 b1' ltac:(lia) (rdInj0 rd) (rdInj1 rd) 0 (proj1 O)) as F. unfold injd in X, X'. rewrite HL in X. rewrite HL' in X'. rewrite X in F.
    unfold rd', rmv0 in X'. cbn [rdInj1] in X'. rewrite X' in F. apply orel_ok in F. apply rec_rels. exact F. }
  assert (EY : y' = y). { rewrite EX in Y'. change (rdInj0 rd') with (rdInj0 rd) in Y'. rewrite Y in Y'. injection Y'. auto. } subst y'.
  assert (EP : p1' = p1). { change (h0r (rdHs rd')) with (h0r (rdHs rd)) in P1'. rewrite P1 in P1'. injection P1'. auto. } subst p1'.
  assert (EH : dH n c b0 (h0r (rdHs rd)) = fst p1) by (unfold dH; rewrite P1; reflexivity).
  assert (T0 : sum1 n c b0 b1 (rdInj0 rd) (rdInj1 rd) = agg 1 n c o1) by (unfold sum1, dI; rewrite X; cbn [okd]; rewrite Y; cbn [okd]; rewrite Z; reflexivity).
  assert (T1 : sum1 n c b0 b1' (rdInj0 rd) (rdInj1 rd') = agg 1 n c o1').
  { unfold sum1, dI. rewrite X'. cbn [okd]. change (rdInj0 rd) with (rdInj0 rd'). rewrite Y'. cbn [okd]. rewrite Z'. reflexivity. }
  assert (T2 : h1s (rdHs rd') = sflips (chgZ (vsum b1 (agg 1 n c o1)) (vsum b1' (agg 1 n c o1')) (at_ (fst p1))) 0 (h0r (rdHs rd)) (h1s (rdHs rd))).
  { rewrite <- T0, <- T1, <- EH. reflexivity. }
  assert (EP2 : fst p2' = fst p2).
  { pose proof (@hs_recv_flip n c b1 b1' (agg 1 n c o1) (agg 1 n c o1') (at_ (fst p1)) ltac:(lia) ltac:(lia) (h1s (rdHs rd)) (h0r (rdHs rd)) (fst p1) 0 (proj1 (proj1 HO)) (fun t => eq_refl)) as F.
    cbn [Nat.mul] in F. rewrite P2 in F. rewrite T2 in P2'. rewrite P2' in F. apply orel_ok in F. apply F. }
  assert (EQ : fst q1' = fst q1).
  { pose proof (@hs_send1_flip n c b1 b1' ltac:(lia) (h0s (rdHs rd)) (h1r (rdHs rd)) 0 (proj1 (proj1 (proj2 HO)))) as F. cbn [Nat.mul] in F. rewrite Q1 in F.
    unfold rd', rmv0 in Q1'. cbn [rdHs h1r] in Q1'. rewrite Q1' in F. apply orel_ok in F. apply F. }
  rewrite EX, EP2, EQ. reflexivity.
Qed.

(* ---------- the keys ---------- *)
Definition rval (L n kc : nat) (k0 k1 : list N) (rd : radix_round) : list N := okd [] (do o <- gen_bit_perm L n L n kc k0 k1 rd; Ok (xors (fst o) (snd o))).
Lemma keys_key1 L n k : keys_ok L n k -> key1 L k.
Proof. intros [_ H]. exact H. Qed.

Section Round.
Variables (L n kc : nat).
Hypothesis HL : 0 < L.
Hypothesis Hkc : L <= kc * 8.
Hypothesis Hn : (N.of_nat n <= 2 ^ 32)%N.

Lemma round_run k0 k1 rd : keys_ok L n k0 -> keys_ok L n k1 -> rround_ok L n rd ->
  exists p0 p1, gen_bit_perm L n L n kc k0 k1 rd = Ok (p0, p1) /\ length p0 = n /\ length p1 = n /\
    sorts n (fun i => N.of_nat (digit L k0 k1 i)) (map N.to_nat (xors p0 p1)).
Proof. intros K0 K1 R. apply gen_bit_perm_ok; try assumption; [apply K0|apply K1|]. intros E. split; [apply (keys_key1 K0 E)|apply (keys_key1 K1 E)]. Qed.

Lemma rval_same k0 k1 rd rd' : keys_ok L n k0 -> keys_ok L n k1 -> rround_ok L n rd -> rround_ok L n rd' -> rval L n kc k0 k1 rd' = rval L n kc k0 k1 rd.
Proof.
  intros K0 K1 R R'. destruct (round_run K0 K1 R) as (p0 & p1 & E & _ & _ & H). destruct (round_run K0 K1 R') as (q0 & q1 & E' & _ & _ & H').
  unfold rval. rewrite E, E'. cbn [bind okd fst snd]. pose proof (sorts_unique H' H) as Q.
  apply (f_equal (map N.of_nat)) in Q. rewrite !map_map in Q. rewrite !(map_ext (fun x => N.of_nat (N.to_nat x)) (fun x => x)) in Q by apply N2Nat.id. rewrite !map_id in Q. exact Q.
Qed.

(* the result of a round: party 0's share and the value *)
Lemma round_out k0 k1 rd : keys_ok L n k0 -> keys_ok L n k1 -> rround_ok L n rd ->
  exists t, gen_bit_perm_v L n L n kc k0 k1 rd = Ok t /\ rvOut t = (rdA2b rd, xors (rdA2b rd) (rval L n kc k0 k1 rd)) /\
    length (rval L n kc k0 k1 rd) = n /\ Forall (fun x => (x < 2 ^ N.of_nat (a2b_bits n))%N) (rval L n kc k0 k1 rd).
Proof.
  intros K0 K1 R. pose proof R as (O & Lh & HO & La & Ba). pose proof (keys_key1 K0) as Q0. pose proof (keys_key1 K1) as Q1.
  unfold rval. rewrite gen_bit_perm_v_eq. rewrite gbv_core by (try assumption; apply K0 || apply K1).
  destruct (@fbin_lens L n k0 k1 (rdHot rd) HL Lh) as [F0 F1]. destruct (pk_ok HL F0) as (_ & G0 & G1). destruct (pk_ok HL F1) as (_ & _ & G2).
  assert (Hc : 0 < 2 ^ L) by (pose proof (Nat.pow_nonzero 2 L); lia).
  destruct (@core_parts n (2 ^ L) (pk L n (fbin0 L n k0 (rdHot rd))) (pk L n (fbin1 L n k0 k1 (rdHot rd))) rd Hc G0 ltac:(congruence) O HO La)
    as (x & y & o1 & p1 & p2 & p3 & q1 & q2 & q3 & _ & _ & _ & _ & _ & _ & _ & _ & _ & _ & _ & _ & _ & A1 & A2 & A3 & A4 & E).
  rewrite E. cbn [bind okd fst snd rvOut]. set (v := map2 (fun x y => _) _ _).
  assert (Lv : length v = n) by (unfold v; rewrite !map2_length; lia).
  assert (EV : xors (rdA2b rd) (map2 N.lxor (rdA2b rd) v) = v).
  { apply list_eq_nth with (d := 0%N); [unfold xors; rewrite !map2_length; lia|]. intros i Hi. unfold xors in *. rewrite !map2_length in Hi.
    rewrite (@map2_nth _ _ _ N.lxor _ _ i 0%N 0%N) by (rewrite ?map2_length; lia). rewrite (@map2_nth _ _ _ N.lxor _ _ i 0%N 0%N) by lia.
    rewrite <- N.lxor_assoc, N.lxor_nilpotent. apply N.lxor_0_l. }
  rewrite EV. eexists. split; [reflexivity|]. cbn [rvOut]. split; [reflexivity|]. split; [exact Lv|].
  apply Forall_forall. intros z Hz. unfold v in Hz. apply (In_nth _ _ 0%N) in Hz. destruct Hz as (i & Hi & <-). fold v in Hi. rewrite Lv in Hi.
  rewrite (@map2_nth _ _ _ _ _ _ i 0%N 0%N) by (rewrite map2_length; lia). apply N.mod_lt. apply N.pow_nonzero. discriminate.
Qed.

(* party 0 with keys k0' *)
Definition hot1 (k0 k0' k1 hot : list N) : list N := if L =? 1 then hot else xors hot (xors (oh L n k0 k1) (oh L n k0' k1)).
Definition Rmv1 (k0 k0' k1 : list N) (rd : radix_round) : radix_round :=
  let hot' := hot1 k0 k0' k1 (rdHot rd) in
  rmv1 n (2 ^ L) (pk L n (fbin0 L n k0 (rdHot rd))) (pk L n (fbin0 L n k0' hot')) (pk L n (fbin1 L n k0 k1 (rdHot rd))) hot'
    (xors (rdA2b rd) (xors (rval L n kc k0 k1 rd) (rval L n kc k0' k1 rd))) rd.
Lemma hot1_ok k0 k0' k1 hot : length hot = n * div_ceil (2 ^ L) 8 -> Forall (fun x => (x < 2 ^ N.of_nat (Nat.min 8 (2 ^ L)))%N) hot ->
  length (hot1 k0 k0' k1 hot) = n * div_ceil (2 ^ L) 8 /\ Forall (fun x => (x < 2 ^ N.of_nat (Nat.min 8 (2 ^ L)))%N) (hot1 k0 k0' k1 hot) /\
  hot1 k0' k0 k1 (hot1 k0 k0' k1 hot) = hot /\ fbin1 L n k0' k1 (hot1 k0 k0' k1 hot) = fbin1 L n k0 k1 hot.
Proof.
  intros Lh Bh. unfold hot1, fbin1. destruct (L =? 1); [auto|]. pose proof (oh_len L n k0 k1) as A. pose proof (oh_len L n k0' k1) as B.
  split; [apply xors_len3; [exact Lh|apply xors_len3; assumption]|]. split; [apply xors_bound; [exact Bh|apply xors_bound; apply oh_bound]|].
  split; [apply (xors_back Lh A B)|]. apply (xors_cancel Lh A B).
Qed.

Lemma Rmv1_spec k0 k0' k1 rd : keys_ok L n k0 -> keys_ok L n k0' -> keys_ok L n k1 -> round_fits L n rd ->
  let rd' := Rmv1 k0 k0' k1 rd in
  round_fits L n rd' /\ same_half1 rd rd' /\ Rmv1 k0' k0 k1 rd' = rd /\ round_view1 L n kc k0' k1 rd' = round_view1 L n kc k0 k1 rd.
Proof.
  intros K0 K0' K1 (R & S0 & S1 & S2 & Bh) rd'. pose proof R as (O & Lh & HO & La & Ba).
  destruct (@hot1_ok k0 k0' k1 (rdHot rd) Lh Bh) as (H1 & H2 & H3 & H4).
  destruct (round_out K0 K1 R) as (t0 & T0 & W0 & V0 & U0). destruct (round_out K0' K1 R) as (t0' & T0' & _ & V0' & U0').
  destruct (@rmv1_fits n (2 ^ L) (pk L n (fbin0 L n k0 (rdHot rd))) (pk L n (fbin0 L n k0' (hot1 k0 k0' k1 (rdHot rd)))) (pk L n (fbin1 L n k0 k1 (rdHot rd)))
     (hot1 k0 k0' k1 (rdHot rd)) (xors (rdA2b rd) (xors (rval L n kc k0 k1 rd) (rval L n kc k0' k1 rd))) rd O HO S0 S1 S2) as (O' & HO' & S0' & S1' & S2').
  fold (Rmv1 k0 k0' k1 rd) in O', HO', S0', S1', S2'. fold rd' in O', HO', S0', S1', S2'.
  assert (R' : rround_ok L n rd').
  { split; [exact O'|]. split; [exact H1|]. split; [exact HO'|]. split; [apply xors_len3; [exact La|apply xors_len3; assumption]|].
    apply xors_bound; [exact Ba|apply xors_bound; assumption]. }
  split; [split; [exact R'|]; split; [exact S0'|]; split; [exact S1'|]; split; [exact S2'|exact H2]|].
  split; [split; [reflexivity|split; reflexivity]|].
  assert (EV : rval L n kc k0 k1 rd' = rval L n kc k0 k1 rd) by (apply rval_same; assumption).
  assert (EV' : rval L n kc k0' k1 rd' = rval L n kc k0' k1 rd) by (apply rval_same; assumption).
  split.
  - unfold Rmv1. rewrite EV, EV'. change (rdHot rd') with (hot1 k0 k0' k1 (rdHot rd)).
    change (rdA2b rd') with (xors (rdA2b rd) (xors (rval L n kc k0 k1 rd) (rval L n kc k0' k1 rd))).
    rewrite (xors_back La V0 V0'). rewrite H3, H4. unfold rd', Rmv1. apply rmv1_inv; assumption.
  - destruct (round_out K0' K1 R') as (t & T & W & _ & _). unfold round_view1. rewrite T, T0. cbn [bind].
    pose proof (keys_key1 K0) as Q0. pose proof (keys_key1 K0') as Q0'. pose proof (keys_key1 K1) as Q1.
    rewrite gbv_core in T0 by (try assumption; apply K0 || apply K1). rewrite gbv_core in T by (try assumption; apply K0' || apply K1).
    change (rdHot rd') with (hot1 k0 k0' k1 (rdHot rd)) in T. rewrite H4 in T.
    destruct (@fbin_lens L n k0 k1 (rdHot rd) HL Lh) as [F0 F1]. destruct (@fbin_lens L n k0' k1 (hot1 k0 k0' k1 (rdHot rd)) HL H1) as [F0' _].
    destruct (pk_ok HL F0) as (_ & G0 & G1). destruct (pk_ok HL F1) as (_ & _ & G2). destruct (pk_ok HL F0') as (_ & _ & G1').
    assert (Hc : 0 < 2 ^ L) by (pose proof (Nat.pow_nonzero 2 L); lia).
    destruct (@rmv1_see n (2 ^ L) (pk L n (fbin0 L n k0 (rdHot rd))) (pk L n (fbin0 L n k0' (hot1 k0 k0' k1 (rdHot rd)))) (pk L n (fbin1 L n k0 k1 (rdHot rd)))
      (hot1 k0 k0' k1 (rdHot rd)) (xors (rdA2b rd) (xors (rval L n kc k0 k1 rd) (rval L n kc k0' k1 rd))) rd Hc G0 ltac:(congruence) ltac:(congruence) O HO S0 S1 S2 La)
      as (u & u' & U & U' & E1 & E2 & E3 & E4); [apply xors_len3; [exact La|apply xors_len3; assumption]|].
    fold (Rmv1 k0 k0' k1 rd) in U'. fold rd' in U'. rewrite T0 in U. injection U as <-. rewrite T in U'. injection U' as <-.
    unfold see1. rewrite E1, E2, E3, E4, W, W0. cbn [snd]. rewrite EV'. change (rdA2b rd') with (xors (rdA2b rd) (xors (rval L n kc k0 k1 rd) (rval L n kc k0' k1 rd))).
    rewrite (xors_cancel La V0 V0'). reflexivity.
Qed.

(* party 1 with keys k1' *)
Definition Rmv0 (k0 k1 k1' : list N) (rd : radix_round) : radix_round :=
  rmv0 n (2 ^ L) (pk L n (fbin0 L n k0 (rdHot rd))) (pk L n (fbin1 L n k0 k1 (rdHot rd))) (pk L n (fbin1 L n k0 k1' (rdHot rd))) rd.
Lemma Rmv0_spec k0 k1 k1' rd : keys_ok L n k0 -> keys_ok L n k1 -> keys_ok L n k1' -> round_fits L n rd ->
  let rd' := Rmv0 k0 k1 k1' rd in
  round_fits L n rd' /\ same_half0 rd rd' /\ Rmv0 k0 k1' k1 rd' = rd /\ round_view0 L n kc k0 k1' rd' = round_view0 L n kc k0 k1 rd.
Proof.
  intros K0 K1 K1' (R & S0 & S1 & S2 & Bh) rd'. pose proof R as (O & Lh & HO & La & Ba).
  destruct (@rmv0_fits n (2 ^ L) (pk L n (fbin0 L n k0 (rdHot rd))) (pk L n (fbin1 L n k0 k1 (rdHot rd))) (pk L n (fbin1 L n k0 k1' (rdHot rd))) rd O HO S0 S1 S2) as (O' & HO' & S0' & S1' & S2').
  fold (Rmv0 k0 k1 k1' rd) in O', HO', S0', S1', S2'. fold rd' in O', HO', S0', S1', S2'.
  split; [split; [split; [exact O'|split; [exact Lh|split; [exact HO'|split; [exact La|exact Ba]]]]|]; split; [exact S0'|]; split; [exact S1'|]; split; [exact S2'|exact Bh]|].
  split; [repeat split|]. split; [unfold rd', Rmv0; cbn [rmv0 rdHot]; apply rmv0_inv; assumption|].
  unfold round_view0. pose proof (keys_key1 K0) as Q0. pose proof (keys_key1 K1) as Q1. pose proof (keys_key1 K1') as Q1'.
  rewrite gbv_core by (try assumption; apply K0 || apply K1'). rewrite gbv_core by (try assumption; apply K0 || apply K1). change (rdHot rd') with (rdHot rd).
  destruct (@fbin_lens L n k0 k1 (rdHot rd) HL Lh) as [F0 F1]. destruct (@fbin_lens L n k0 k1' (rdHot rd) HL Lh) as [_ F1'].
  destruct (pk_ok HL F0) as (_ & G0 & G1). destruct (pk_ok HL F1) as (_ & _ & G2). destruct (pk_ok HL F1') as (_ & _ & G2').
  assert (Hc : 0 < 2 ^ L) by (pose proof (Nat.pow_nonzero 2 L); lia).
  destruct (@rmv0_see n (2 ^ L) (pk L n (fbin0 L n k0 (rdHot rd))) (pk L n (fbin1 L n k0 k1 (rdHot rd))) (pk L n (fbin1 L n k0 k1' (rdHot rd))) rd Hc G0
    ltac:(congruence) ltac:(congruence) O HO S0 S1 S2 La) as (t & t' & E & E' & ES).
  fold (Rmv0 k0 k1 k1' rd) in E'. fold rd' in E'. rewrite E, E'. cbn [bind]. rewrite ES. reflexivity.
Qed.

Lemma half1_trans a b c : same_half1 a b -> same_half1 b c -> same_half1 a c.
Proof. intros (A & B & C) (D & E & F). split; [|split]; etransitivity; eassumption. Qed.
Lemma half0_trans a b c : same_half0 a b -> same_half0 b c -> same_half0 a c.
Proof. intros (A & B & C & D & E) (A' & B' & C' & D' & E'). repeat split; etransitivity; eassumption. Qed.

Lemma round_hides1 rd0 k0 k0' k1 : keys_ok L n k0 -> keys_ok L n k0' -> keys_ok L n k1 ->
  hides (fun rd => round_fits L n rd /\ same_half1 rd0 rd) (fun k rd => round_view1 L n kc k k1 rd) k0 k0'.
Proof.
  intros K0 K0' K1. exists (Rmv1 k0 k0' k1), (Rmv1 k0' k0 k1). split; intros rd [F S1].
  - destruct (Rmv1_spec K0 K0' K1 F) as (A & B & C & D). split; [split; [exact A|apply (half1_trans S1 B)]|]. split; [exact C|exact D].
  - destruct (Rmv1_spec K0' K0 K1 F) as (A & B & C & D). split; [split; [exact A|apply (half1_trans S1 B)]|exact C].
Qed.
Lemma round_hides0 rd0 k0 k1 k1' : keys_ok L n k0 -> keys_ok L n k1 -> keys_ok L n k1' ->
  hides (fun rd => round_fits L n rd /\ same_half0 rd0 rd) (fun k rd => round_view0 L n kc k0 k rd) k1 k1'.
Proof.
  intros K0 K1 K1'. exists (Rmv0 k0 k1 k1'), (Rmv0 k0 k1' k1). split; intros rd [F S1].
  - destruct (Rmv0_spec K0 K1 K1' F) as (A & B & C & D). split; [split; [exact A|apply (half0_trans S1 B)]|]. split; [exact C|exact D].
  - destruct (Rmv0_spec K0 K1' K1 F) as (A & B & C & D). split; [split; [exact A|apply (half0_trans S1 B)]|exact C].
Qed.
End Round.
