(* The shares of the rows in a join are bytes. *)
From Verif Require Import Base Words PermModel PermSpec PermProofs PermCorModel PermCorSpec PermCorProofs CompPermProofs ShuffleModel ShuffleSpec ExtractSpec ExtractModel ExtractProofs ExtractPrivacy PermPrivacy.
From Verif Require Import RadixModel RadixSpec RadixSortProofs TableModel TableSpec TableIOModel OmJoinModel OmJoinSpec AggTwoTree BinFileProofs TrimProofs  PackProofs GenPermPrivacy JoinViewModel JoinPrivSpec JoinPrivacy.

Lemma cells_bytes n w l : length l = n * w -> (forall i j, i < n -> j < w -> (cel w l i j < 256)%N) -> bytes l.
Proof.
  intros L H. apply Forall_forall. intros x Hx. apply (In_nth _ _ 0%N) in Hx. destruct Hx as (k & Hk & <-). rewrite L in Hk.
  assert (w <> 0) by (intros ->; lia). assert (Hj : k mod w < w) by (apply Nat.mod_upper_bound; assumption). assert (Hi : k / w < n) by (apply Nat.div_lt_upper_bound; lia).
  specialize (H (k / w) (k mod w) Hi Hj). unfold cel in H. replace (k / w * w + k mod w) with k in H; [exact H|]. rewrite (Nat.div_mod k w) at 1 by assumption. lia.
Qed.
Lemma bytes_cell c l i j : bytes l -> (cel c l i j < 256)%N.
Proof. intros H. unfold cel, bytes in *. rewrite Forall_forall in H. destruct (nth_in_or_default (i * c + j) l 0%N) as [X|X]; [apply H, X|rewrite X; reflexivity]. Qed.
Lemma permuted_bytes op n w p x y : is_perm n p -> length x = n * w -> length y = n * w -> bytes x -> permuted op w p x y -> bytes y.
Proof.
  intros Hp Lx Ly Hx H. apply (@cells_bytes n w _ Ly). intros i j Hi Hj. destruct op; cbn [permuted] in H.
  - apply (gathered_cel (n := n)) in H; [|exact Hp|exact Lx]. rewrite (proj2 H) by assumption. apply bytes_cell, Hx.
  - apply (scattered_cel (n := n)) in H; [|exact Hp|exact Lx]. destruct (pos_perm Hp Hi) as [Ek Lk]. rewrite <- Ek. rewrite (proj2 H) by assumption. apply bytes_cell, Hx.
Qed.
Lemma xor_bytes_l a b : length a = length b -> bytes b -> bytes (xors a b) -> bytes a.
Proof.
  intros L Hb Hx. apply (@xor_bytes_r b a); [congruence|exact Hb|]. revert Hx. unfold xors. assert (E : forall a b, map2 N.lxor a b = map2 N.lxor b a).
  { clear. induction a as [|x a IH]; intros [|y b]; try reflexivity. cbn [map2]. rewrite IH, N.lxor_comm. reflexivity. }
  rewrite E. auto.
Qed.

Lemma comp_perm_ok n c c0 c1 : comp_rel n c c0 c1 -> is_perm n (comp_perm c0 c1).
Proof. intros (_ & _ & H0 & H1). apply map_nth_perm; [apply H0|apply H1]. Qed.

Lemma apply_bytes op n c c0 c1 w x0 x1 z0 z1 d0 d1 : 0 < n -> (N.of_nat c < 2 ^ 64)%N -> comp_rel n c c0 c1 ->
  csOff (cpS c0) + w <= c -> csOff (cpS c1) + w <= c -> length x0 = n * w -> length x1 = n * w -> bytes x0 -> bytes x1 ->
  bytes (dat (crB (cpR c0))) -> bytes (dat (crA (cpR c1))) ->
  comp_apply c0 c1 op (Mat n w x0) (Mat n w x1) (zmat n w) (zmat n w) = Ok ((z0, d0), (z1, d1)) ->
  (length (dat z0) = n * w /\ length (dat z1) = n * w) /\ (bytes (dat z0) /\ bytes (dat z1)) /\ crB (cpR d0) = crB (cpR c0) /\ crA (cpR d1) = crA (cpR c1) /\
  comp_rel n c d0 d1 /\ csOff (cpS d0) = csOff (cpS c0) + w /\ csOff (cpS d1) = csOff (cpS c1) + w.
Proof.
  intros Hn Hc HR Ho0 Ho1 L0 L1 B0 B1 BB BA EA.
  destruct (@comp_apply_ok n c c0 c1 op w x0 x1 (zmat n w) (zmat n w) Hn Hc HR Ho0 Ho1 L0 L1 eq_refl eq_refl eq_refl eq_refl) as (u0 & u1 & g0 & g1 & E & Lu0 & Lu1 & HP & HG & _ & G0 & G1).
  rewrite E in EA. assert (Mat n w u0 = z0 /\ Mat n w u1 = z1 /\ g0 = d0 /\ g1 = d1) as (<- & <- & <- & <-) by (inversion EA; repeat split). clear EA. cbn [dat].
  split; [split; assumption|].
  assert (HX : bytes (xors u0 u1)).
  { apply (permuted_bytes (op := op) (comp_perm_ok HR) (x := xors x0 x1) (n := n) (w := w)); [apply xors_len; assumption|apply xors_len; assumption|apply bytes_xors; assumption|exact HP]. }
  assert (KEY : (bytes u0 \/ bytes u1) /\ crB (cpR g0) = crB (cpR c0) /\ crA (cpR g1) = crA (cpR c1)).
  { pose proof HR as (I0 & I1 & HR0 & HR1). revert E. unfold comp_apply. destruct (comp_checks c0 _ _); [|discriminate..]. cbn [bind]. destruct (comp_checks c1 _ _); [|discriminate..]. cbn [bind].
    unfold comp_roles. rewrite I0, I1. destruct op; cbn [Nat.eqb negb xorb].
    - destruct (@cround_ok n c (cpS c0) (cpR c1) Regular w x0 x1) as (v0 & v1 & E1 & Lv0 & Lv1 & H1); auto. rewrite E1. cbn [bind].
      pose proof HR1 as (_ & _ & _ & _ & RA & CA & LA & RB & CB & LB & EO & _).
      destruct (@recv_ok n c (cpR c0) Regular w (Mat n w v0) (zmat n w)) as (msg & d & E2 & Lm & Ld & H); auto; [lia|apply zmat_len|].
      unfold comp_round. cbn [rows cols]. rewrite E2. cbn [bind fst snd]. destruct (cor_send_apply_in _ _ _ _ _) as [[zz ss]| | |]; try discriminate. cbn [bind]. intros EQ.
      injection EQ as <- <- _ <-. cbn [cpR crA crB].
      split; [left|split; reflexivity]. apply (@cells_bytes n w _ Lu0). intros i j Hi Hj. rewrite (proj2 (H i j Hi Hj)). apply bytes_cell, BB.
    - destruct (@cround_ok n c (cpS c1) (cpR c0) Inverse w x1 x0) as (v1 & v0 & E1 & Lv1 & Lv0 & H1); auto. rewrite E1. cbn [bind].
      pose proof HR0 as (_ & _ & _ & _ & RA & CA & LA & RB & CB & LB & EO & _).
      destruct (@recv_ok n c (cpR c1) Inverse w (Mat n w v1) (zmat n w)) as (msg & d & E2 & Lm & Ld & H); auto; [lia|apply zmat_len|].
      unfold comp_round. cbn [rows cols]. rewrite E2. cbn [bind fst snd]. destruct (cor_send_apply_in _ _ _ _ _) as [[zz ss]| | |]; try discriminate. cbn [bind]. intros EQ.
      injection EQ as _ <- <- <-. cbn [cpR crA crB].
      split; [right|split; reflexivity]. apply (@cells_bytes n w _ Lu1). intros i j Hi Hj. rewrite (proj2 (H i j Hi Hj)). apply bytes_cell, BA. }
  destruct KEY as (K & K0 & K1). split; [|split; [exact K0|split; [exact K1|split; [exact HG|split; [exact G0|exact G1]]]]].
  destruct K as [K|K]; [split; [exact K|apply (@xor_bytes_r u0); [congruence|exact K|exact HX]]|split; [apply (@xor_bytes_l u0 u1); [congruence|exact K|exact HX]|exact K]].
Qed.

Lemma derand_same c0 c1 a0 a1 e0 e1 : comp_derand c0 c1 a0 a1 = Ok (e0, e1) ->
  crB (cpR e0) = crB (cpR c0) /\ csDelta (cpS e0) = csDelta (cpS c0) /\ crB (cpR e1) = crB (cpR c1).
Proof.
  unfold comp_derand. intros E. apply bind_inv in E. destruct E as (r & R & E). apply bind_inv in E. destruct E as (s & _ & E). apply bind_inv in E. destruct E as (u & _ & E).
  apply bind_inv in E. destruct E as (x & X & E). apply bind_inv in E. destruct E as (y & Y & E).
  assert (Comp (cpIdx c0) (snd x) (snd (snd r)) = e0 /\ Comp (cpIdx c1) (snd s) y = e1) as [<- <-] by (inversion E; split; reflexivity). cbn [cpR cpS]. clear E.
  unfold cor_recv_apply in R. apply bind_inv in R. destruct R as (? & _ & R). apply bind_inv in R. destruct R as (? & _ & R). apply bind_inv in R. destruct R as (? & _ & R). apply bind_inv in R. destruct R as (? & _ & R). apply bind_inv in R. destruct R as (? & _ & R).
  unfold cor_send_derand in X. apply bind_inv in X. destruct X as (? & _ & X). apply bind_inv in X. destruct X as (? & _ & X).
  unfold cor_recv_derand in Y. apply bind_inv in Y. destruct Y as (? & _ & Y). apply bind_inv in Y. destruct Y as (? & _ & Y).
  inversion R. inversion X. inversion Y. split; [reflexivity|]. split; reflexivity.
Qed.

Section Chain.
Variables (n w bits flag cap : nat).
Hypothesis Hn : 2 <= n.
Hypothesis Hn32 : (N.of_nat n <= 2 ^ 32)%N.
Hypothesis Hb : 0 < bits.
Hypothesis Hw : flag + 1 + div_ceil bits 8 <= w.
Hypothesis Hcap : 4 + w + (flag + 1) <= cap.
Hypothesis Hcap' : (N.of_nat cap < 2 ^ 64)%N.

Lemma chain_bytes y0 y1 D0 D1 c0 c1 m r : comps_ok n cap (c0, c1) -> comp_bytes c0 -> comp_bytes c1 -> psh n y0 y1 -> TableSpec.rows_ok n w D0 -> TableSpec.rows_ok n w D1 -> masks_ok n w m ->
  join_chain n w bits flag y0 y1 D0 D1 (c0, c1) m = Ok r -> TableSpec.rows_ok n w (fst (ctZ r)) /\ TableSpec.rows_ok n (flag + 1) (fst (ctW r)).
Proof using All.
  intros HC HB0 HB1 HD H0 H1 Hm E. assert (Hn0 : 0 < n) by lia. pose proof HC as (HR & O0 & O1). cbn [fst snd] in HR, O0, O1. pose proof HD as (Ld0 & Ld1 & HP).
  destruct (chain_ok Hn Hn32 Hb Hw Hcap Hcap' HC HD H0 H1 Hm) as (m1 & m2 & z0 & z1 & m3 & b0 & b1 & Lz0 & Lz1 & Lb0 & Lb1 & EZ & _ & EC & _).
  destruct (fl_ok Hn Hn32 Hb Hw Hcap Hcap' Hm (Zv_ok HD H0 H1)) as [F0 F1]. set (V := Zv n y0 y1 D0 D1) in *.
  rewrite EC in E. assert (CTr m1 m2 (chunks w n z0, chunks w n z1) (jmCtrl m, map2 xorb (jmCtrl m) (outv n bits flag V)) (jmDup m, xor_rows (jmDup m) (duv n w bits flag V)) (fl0 n flag m, fl1 n w bits flag m V) m3 (chunks (flag + 1) n b0, chunks (flag + 1) n b1) = r) as <- by (inversion E; reflexivity). clear E. cbn [ctZ ctW fst].
  destruct (@comp_derand_ok n cap c0 c1 y0 y1 Hn0 Hcap' HR ltac:(lia) Ld0 Ld1 (fun i => psh_bound Hn32 HD (i := i)) HP) as (e0 & e1 & E1 & HC1 & HP1 & Oe0 & Oe1).
  destruct (derand_same E1) as (SB & SD & SB1).
  assert (BA : bytes (dat (crA (cpR e1)))).
  { pose proof HC1 as (_ & _ & (Pp & _ & _ & _ & _ & _ & LA & _ & _ & _ & _ & HI) & _). apply (@cells_bytes n cap _ LA). intros i j Hi Hj. destruct (pos_perm Pp Hi) as [Ek Lk]. rewrite <- Ek. rewrite <- HI by assumption.
    rewrite SD, SB1. apply lxor_byte; apply bytes_cell; [apply HB0|apply HB1]. }
  unfold join_chain in EC. cbn [fst snd] in EC. apply bind_inv in EC. destruct EC as (x1 & M1 & EC). rewrite E1 in EC. cbn [bind fst snd] in EC. apply bind_inv in EC. destruct EC as (x2 & M2 & EC). apply bind_inv in EC. destruct EC as ([[a0 g0] [a1 g1]] & E2 & EC).
  destruct (@apply_bytes Inverse n cap e0 e1 w _ _ a0 a1 g0 g1 Hn0 Hcap' HC1 ltac:(lia) ltac:(lia) (rows_concat_length H0) (rows_concat_length H1) (rows_concat_bytes H0) (rows_concat_bytes H1) ltac:(rewrite SB; apply HB0) BA E2) as ([La0 La1] & [Ba0 Ba1] & GB & GA & HG & Og0 & Og1).
  cbv zeta in EC. apply bind_inv in EC. destruct EC as (v1 & _ & EC). apply bind_inv in EC. destruct EC as (v2 & _ & EC). apply bind_inv in EC. destruct EC as (v3 & _ & EC). apply bind_inv in EC. destruct EC as (v4 & _ & EC).
  apply bind_inv in EC. destruct EC as (v5 & _ & EC). apply bind_inv in EC. destruct EC as (v6 & _ & EC). apply bind_inv in EC. destruct EC as ([[v7 v8] [v9 v10]] & E3 & EC).
  pose proof (f_equal (fun o => match o with Ok r => fst (ctZ r) | _ => [] end) EC) as EZ0. pose proof (f_equal (fun o => match o with Ok r => ctF r | _ => ([], []) end) EC) as EF. pose proof (f_equal (fun o => match o with Ok r => fst (ctW r) | _ => [] end) EC) as EW.
  cbv beta iota in EZ0, EF, EW. cbn [ctZ ctW ctF fst] in EZ0, EF, EW. rewrite <- EZ0, <- EW. split; [apply (chunks_rows Ba0 La0)|]. rewrite EF in E3. cbn [fst snd] in E3.
  destruct (@apply_bytes Regular n cap g0 g1 (flag + 1) _ _ v7 v9 v8 v10 Hn0 Hcap' HG ltac:(lia) ltac:(lia) (rows_concat_length F0) (rows_concat_length F1) (rows_concat_bytes F0) (rows_concat_bytes F1) ltac:(rewrite GB, SB; apply HB0) ltac:(rewrite GA; exact BA) E3) as ([Lv0 Lv1] & [Bv0 _] & _).
  apply (chunks_rows Bv0 Lv0).
Qed.
End Chain.
