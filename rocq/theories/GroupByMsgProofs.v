(* A whole group by with the runs of its circuits: what a party sees hides the other party's columns. *)
From Coq Require Import Permutation.
From Verif Require Import Base Words PermModel PermSpec PermProofs PermCorProofs KeyMultModel ShuffleModel ShuffleSpec ShuffleSpanProofs RadixModel RadixSpec RadixSortProofs StableSortProofs
  GmwModel GmwSpec GmwPrivSpec AggModel AggSpec AggProofs AggTwoTree AggRunModel AggViewModel AggViewSpec TableModel TableSpec TrimProofs TableProofs TableOpsSpec JoinProofs AverageProofs BitInjProofs
  OmJoinModel OmJoinSpec BlockProofs PackProofs OmJoinProofs OmJoinTop GroupByModel GroupBySpec GroupByArith GroupByLoad GroupByBlock GroupByProofs
  JoinRunModel JoinRunSpec GroupByRunModel GroupByRunSpec GroupByRunStages GroupByRunSum GroupByRunProofs JoinMsgSpec GroupByMsgModel GroupByMsgSpec GroupByMsgStages.

Lemma xor_comm_rows : forall a b, xor_rows a b = xor_rows b a.
Proof.
  induction a as [|x a IH]; intros [|y b]; try reflexivity. unfold xor_rows in *. cbn [map2]. rewrite IH. f_equal. clear. revert y. induction x as [|e x IH]; intros [|f y]; try reflexivity. cbn [map2]. rewrite IH, N.lxor_comm. reflexivity.
Qed.
Lemma xor_twice n c a v : rows_ok n c a -> rows_ok n c v -> xor_rows (xor_rows a v) v = a.
Proof. intros Ha Hv. rewrite (xor_comm_rows (xor_rows a v) v). apply (xor_rows_cancel Ha Hv). Qed.
Definition zeros n c : list (list N) := repeat (repeat 0%N c) n.
Lemma zeros_ok n c : rows_ok n c (zeros n c).
Proof.
  split; [apply repeat_length|]. apply Forall_forall. intros x Hx. apply repeat_spec in Hx. subst x. split; [apply repeat_length|]. apply Forall_forall. intros y Hy. apply repeat_spec in Hy. subst y. reflexivity.
Qed.
Lemma xor_zeros n c m w : rows_ok n c m -> xor_rows m (xor_rows (zeros n c) w) = xor_rows m w.
Proof.
  assert (R : forall c s x, length s = c -> map2 N.lxor s (map2 N.lxor (repeat 0%N c) x) = map2 N.lxor s x).
  { clear. induction c as [|c IH]; intros [|a s] [|y x] L; cbn [length] in L; try lia; try reflexivity. cbn [repeat map2]. rewrite N.lxor_0_l, IH by lia. reflexivity. }
  unfold zeros. revert n w. induction m as [|s m IH]; intros [|n] [|x w] [L F]; cbn [length] in L; try lia; try reflexivity. apply Forall_cons_iff in F. destruct F as [[Ls _] F].
  unfold xor_rows in *. cbn [repeat map2]. rewrite (R c s x Ls), IH by (split; [lia|exact F]). reflexivity.
Qed.
Lemma perm_masks op n c p d d0 : om_perm op p (zeros n c) d = Ok d0 -> forall m, rows_ok n c m -> om_perm op p m d = Ok (m, xor_rows m (snd d0)).
Proof.
  unfold om_perm. intros E m Hm. apply bind_inv in E. destruct E as (w & E & E0). rewrite E. cbn [bind]. injection E0 as <-. unfold reshare. cbn [snd]. rewrite (xor_zeros w Hm). reflexivity.
Qed.
Lemma bits_rows n C off m : rows_ok n C m -> off < C -> gb_bits off m = Ok (map (fun i => N.odd (nth off (nth i m []) 0%N)) (seq 0 n)).
Proof.
  intros Hm Ho. unfold gb_bits. rewrite (rows_map_nth Hm) at 1. rewrite mapM_map. apply mapM_ok. intros i Hi. apply in_seq in Hi.
  rewrite (@get_ok _ _ _ 0%N) by (rewrite (proj1 (rows_nth Hm (k := i) ltac:(lia))); exact Ho). reflexivity.
Qed.

(* the steps after the circuits *)
Definition gb_tail (q0 q1 : gb_query) (p : list nat) (um g0 g1 u0 u1 : list (list N)) (f0 f1 : list N) :=
  do e0 <- gb_concat2 (gb_width q0) (cBits (gKey q0)) u0 g0 f0;
  do e1 <- gb_concat2 (gb_width q0) (cBits (gKey q0)) u1 g1 f1;
  do e <- om_perm Regular p um (e0, e1);
  do t0 <- gb_output q0 (fst e);
  do t1 <- gb_output q1 (snd e);
  Ok (e, (t0, t1)).

Lemma shape n kb q0 q1 : gb_queries_ok n kb q0 q1 -> cBits (gKey q0) = kb /\ cBits (gKey q1) = kb /\ gb_width q1 = gb_width q0 /\ gb_sizes q1 = gb_sizes q0 /\ gb_key_size q0 = Nat.min (kb + 1) (gb_comp n) /\ gb_key_size q1 = gb_key_size q0.
Proof.
  intros (Q0 & Q1 & HI & HS0). pose proof Q0 as (C0 & Ekb0 & _). pose proof Q1 as (C1 & Ekb1 & _).
  assert (En0 : gb_rows q0 = n) by apply C0. assert (En1 : gb_rows q1 = n) by apply C1.
  split; [exact Ekb0|]. split; [exact Ekb1|]. pose proof (same_sel_gb HS0) as HSel. fold (gb_sel q0) (gb_sel q1) in HSel. destruct (same_left_offs HSel) as [_ Elb].
  split; [unfold gb_width; rewrite Elb; reflexivity|]. split.
  - unfold gb_sizes. f_equal. clear - HS0. induction HS0 as [|a b l l' (_ & _ & E) _ IH]; [reflexivity|]. cbn [map]. congruence.
  - unfold gb_key_size. rewrite Ekb0, Ekb1, En0, En1. auto.
Qed.

Lemma out_ok n kb q0 q1 e : gb_queries_ok n kb q0 q1 -> rows_ok n (gb_width q0 + div_ceil kb 8 + 1) (fst e) -> rows_ok n (gb_width q0 + div_ceil kb 8 + 1) (snd e) ->
  exists t0 t1, gb_output q0 (fst e) = Ok t0 /\ gb_output q1 (snd e) = Ok t1.
Proof.
  intros HQ He0 He1. destruct (shape HQ) as (Ekb0 & Ekb1 & EW & _). pose proof HQ as (Q0 & Q1 & HI & HS0). pose proof Q0 as (C0 & _ & FA0 & _).
  set (W := gb_width q0) in *. set (g := div_ceil kb 8) in *.
  assert (He : pair_of n (W + g + 1) e (fun i => nth i (xor_rows (fst e) (snd e)) [])).
  { split; [exact He0|]. split; [exact He1|]. apply (rows_map_nth (xor_rows_ok He0 He1)). }
  destruct (@gb_out_avg_ok n _ e _ He (map snd (gAvg q0)) (map snd (gAvg q1)) (same_info_snd HS0)) with (off := 0) as (c0 & c1 & E0 & E1 & _).
  { rewrite Forall_forall in *. intros x Hx. apply in_map_iff in Hx. destruct Hx as (s & <- & Hs). apply (FA0 s Hs). }
  { rewrite map_map. fold (gb_sel q0). unfold W, gb_width. lia. }
  rewrite !map_map in E0, E1. fold (gb_sel q0) in E0. fold (gb_sel q1) in E1.
  destruct C0 as (B0 & N0 & Cb0 & T0 & M0). pose proof HI as (En & Et & Eb).
  destruct (@gb_out_col_ok n _ W g (cName (gKey q0)) (cType (gKey q0)) e _ He ltac:(lia) T0) as (k0 & k1 & F0 & F1 & _).
  assert (HA : forall dd, rows_ok n (W + g + 1) dd -> mapM (fun r => get r (W + g)) dd = Ok (map (fun r => nth (W + g) (nth r dd []) 0%N) (seq 0 n))).
  { intros dd Hdd. rewrite (rows_map_nth Hdd) at 1. rewrite mapM_map. apply mapM_ok. intros r Hr. apply in_seq in Hr. apply get_ok. rewrite (proj1 (rows_nth Hdd (k := r) ltac:(lia))). lia. }
  unfold gb_output. rewrite Ekb0, Ekb1, EW. fold W g. rewrite <- En, <- Et. rewrite E0, F0, E1, F1. cbn [bind]. rewrite (HA _ He0), (HA _ He1). cbn [bind]. eexists _, _. split; reflexivity.
Qed.

Lemma tail_ok n kb q0 q1 p g0 g1 u0 u1 f0 f1 : 2 <= n -> gb_queries_ok n kb q0 q1 -> is_perm n p -> rows_ok n (div_ceil kb 8) g0 -> rows_ok n (div_ceil kb 8) g1 -> rows_ok n (gb_width q0) u0 -> rows_ok n (gb_width q0) u1 ->
  length f0 = n -> length f1 = n -> bytes f0 -> bytes f1 ->
  exists w, rows_ok n (gb_width q0 + div_ceil kb 8 + 1) w /\ forall um, rows_ok n (gb_width q0 + div_ceil kb 8 + 1) um ->
    exists t0 t1, gb_output q0 um = Ok t0 /\ gb_output q1 (xor_rows um w) = Ok t1 /\ gb_tail q0 q1 p um g0 g1 u0 u1 f0 f1 = Ok ((um, xor_rows um w), (t0, t1)).
Proof.
  intros Hn HQ Hp G0 G1 U0 U1 L0 L1 B0 B1. destruct (shape HQ) as (Ekb0 & _). set (W := gb_width q0) in *. set (g := div_ceil kb 8) in *. assert (Hn0 : 0 < n) by lia.
  assert (HR : forall d gg f, rows_ok n W d -> rows_ok n g gg -> length f = n -> bytes f -> rows_ok n (W + g + 1) (map (fun i => nth i d [] ++ nth i gg [] ++ [nth i f 0%N]) (seq 0 n))).
  { intros d gg f Hd Hg Lf Bf. apply rows_map. intros i Hi. destruct (rows_nth Hd Hi) as [La Ba], (rows_nth Hg Hi) as [Lb Bb]. split; [rewrite !app_length, La, Lb; cbn [length]; lia|].
    apply bytes_app; [exact Ba|]. apply bytes_app; [exact Bb|]. unfold bytes in Bf. rewrite Forall_forall in Bf. repeat constructor. apply Bf, nth_In. lia. }
  set (e0 := map (fun i => nth i u0 [] ++ nth i g0 [] ++ [nth i f0 0%N]) (seq 0 n)). set (e1 := map (fun i => nth i u1 [] ++ nth i g1 [] ++ [nth i f1 0%N]) (seq 0 n)).
  pose proof (HR _ _ _ U0 G0 L0 B0 : rows_ok n (W + g + 1) e0) as H0. pose proof (HR _ _ _ U1 G1 L1 B1 : rows_ok n (W + g + 1) e1) as H1.
  assert (HP : pair_of n (W + g + 1) (e0, e1) (fun i => nth i (xor_rows e0 e1) [])) by (split; [exact H0|]; split; [exact H1|]; apply (rows_map_nth (xor_rows_ok H0 H1))).
  destruct (om_perm_reg_ok Hp (zeros_ok n (W + g + 1)) HP) as (d' & ED & (_ & HD & _)). exists (snd d'). split; [exact HD|]. intros um Hum.
  destruct (@out_ok n kb q0 q1 (um, xor_rows um (snd d')) HQ Hum (xor_rows_ok Hum HD)) as (t0 & t1 & T0 & T1). cbn [fst snd] in T0, T1. exists t0, t1. split; [exact T0|]. split; [exact T1|].
  unfold gb_tail. rewrite Ekb0. fold W. rewrite (@gb_concat2_ok n W kb _ _ _ Hn0 U0 G0 L0 B0), (@gb_concat2_ok n W kb _ _ _ Hn0 U1 G1 L1 B1). cbn [bind]. fold e0 e1. rewrite (perm_masks ED Hum). cbn [bind fst snd]. rewrite T0, T1. reflexivity.
Qed.

Section Side.
Variables (n kb W : nat) (ws : list nat) (enc : list N -> list N) (gl : gb_lib) (jl : join_levels) (b : bool) (me ot : side).
Let g := div_ceil kb 8.
Let ks := Nat.min (kb + 1) (gb_comp n).
Let kc := div_ceil ks 8.
Let C := W + g + kc + 1.
Hypothesis Hn : 2 <= n.
Hypothesis HE : gb_enc_ok n kb enc.
Hypothesis Hgl : gb_lib_ok (fold_right Nat.add 0 ws) gl.
Hypothesis Hjl : gb_levels_fit gl ws ks jl.
Hypothesis Hs : side_looks n jl me ot.
Notation query := (gb_query * gb_query)%type.
Definition good (x : query) : Prop := gb_queries_ok n kb (fst x) (snd x) /\ Forall (fun s => cBits (snd s) mod 8 = 0) (gAvg (fst x)) /\
  (forall i, i < n -> (le_num (nth i (gb_keys (fst x) (snd x)) []) < 2 ^ N.of_nat kb)%N) /\ gb_width (fst x) = W /\ gb_sizes (fst x) = ws.
Definition ok (x : gb_coins) : Prop := rows_ok n C (fst (fst x)) /\ rows_ok n (W + g + 1) (snd (fst x)) /\ side_fits me (snd x).
Definition view (x : query) (r : gb_coins) := do y <- gb_run_tr gl enc (fst x) (snd x) (fst (fst r)) (snd (fst r)) jl (both b me (side_with ot (snd r))); Ok (gb_see b y).
Notation circuits r := (cir n W (W + g) kc (W + g + kc) ks ws gl jl b me ot r r).
Definition grp (z : list (list N)) := map (fun i => slice (nth i z []) W g) (seq 0 n).

Lemma parts x : good x -> exists p v, is_perm n p /\ rows_ok n C v /\ forall sm um r, rows_ok n C sm ->
  gb_run_tr gl enc (fst x) (snd x) sm um jl (both b me (side_with ot r)) =
    do y <- circuits r (sm, xor_rows sm v);
    let '((_, p0, u0, f0), (_, p1, u1, f1)) := fst y in
    do t <- gb_tail (fst x) (snd x) p um (grp sm) (grp (xor_rows sm v)) u0 u1 f0 f1;
    Ok (GbT (sm, xor_rows sm v) (p0, p1) (u0, u1) (f0, f1) (fst t) (snd t), snd y).
Proof using Hn HE.
  intros (HQ & HB & HG & EW & EZ). destruct x as [q0 q1]. cbn [fst snd] in *. destruct (shape HQ) as (Ekb0 & _ & _ & _ & Eks & _). fold ks in Eks.
  pose proof (@front_ok enc n kb q0 q1 (zeros n C) Hn HQ HE) as F. rewrite Ekb0, Eks, EW in F. fold g kc C in F. cbv zeta in F. destruct (F (zeros_ok n C) HG) as (p & dd & d & gg & c0 & c1 & f0 & f1 & EF & _ & H1 & _ & _ & _ & _ & Hp). clear F.
  exists p, (snd d). split; [exact Hp|]. split; [exact H1|]. intros sm um r Hsm. unfold gb_front in EF. rewrite Ekb0, Eks, EW in EF. fold g kc in EF.
  apply bind_inv in EF. destruct EF as (k0 & EK0 & EF). apply bind_inv in EF. destruct EF as (k1 & EK1 & EF). cbv zeta in EF.
  apply bind_inv in EF. destruct EF as (p' & EP & EF). apply bind_inv in EF. destruct EF as (d0' & ED0 & EF). apply bind_inv in EF. destruct EF as (d1' & ED1 & EF). apply bind_inv in EF. destruct EF as (d' & ED & EF).
  assert (p' = p /\ d' = d) as [-> ->].
  { clear - EF. do 6 (apply bind_inv in EF; destruct EF as (? & _ & EF)). split; congruence. }
  clear EF. pose proof (xor_rows_ok Hsm H1) as Hx. unfold gb_run_tr. rewrite EK0. cbn [bind]. rewrite EK1. cbn [bind]. rewrite EP. cbn [bind]. rewrite ED0. cbn [bind]. rewrite ED1. cbn [bind]. rewrite (perm_masks ED Hsm). cbn [bind fst snd].
  rewrite Ekb0, Eks, EW, EZ. fold g kc.
  rewrite (gb_cut_ok (off := W) (size := g) Hsm) by (unfold C; lia). rewrite (gb_cut_ok (off := W) (size := g) Hx) by (unfold C; lia). cbn [bind].
  rewrite (gb_cut_ok (off := W + g) (size := kc) Hsm) by (unfold C; lia). rewrite (gb_cut_ok (off := W + g) (size := kc) Hx) by (unfold C; lia). cbn [bind].
  rewrite (bits_rows (off := W + g + kc) Hsm) by (unfold C; lia). rewrite (bits_rows (off := W + g + kc) Hx) by (unfold C; lia). cbn [bind].
  assert (Hsum : fold_right Nat.add 0 ws = 8 * W).
  { rewrite <- EZ, <- EW. fold (sum_of (gb_sizes q0)). unfold gb_sizes, gb_width. rewrite sum_app, (sizes_sum HB). fold (gb_sel q0). change (sum_of [64]) with 64. lia. }
  unfold cir, do1, gb_tail. cbn [fst snd]. rewrite Ekb0, EW. fold (cut n (W + g) kc sm) (cut n (W + g) kc (xor_rows sm (snd d))) (bit n (W + g + kc) sm) (bit n (W + g + kc) (xor_rows sm (snd d))).
  change (jtpCtrl (both b me (side_with ot r))) with (if b then (sdC me, with_cor (sdC ot) (fst (fst r))) else (with_cor (sdC ot) (fst (fst r)), sdC me)).
  change (jtpFlag (both b me (side_with ot r))) with (if b then (sdF me, with_cor (sdF ot) (snd r)) else (with_cor (sdF ot) (snd r), sdF me)).
  destruct (control_run _ _ _ _ _) as [[o t1]| | |]; cbn [bind fst snd]; try reflexivity. destruct (set (fst o) 0 0%N) as [p0| | |]; cbn [bind]; try reflexivity. destruct (set (snd o) 0 0%N) as [p1| | |]; cbn [bind fst snd]; try reflexivity.
  unfold do2. rewrite (sum_old gl jl _ (concat d0') (concat d1') [] [] (p0, p1) (sm, xor_rows sm (snd d)) Hsum). replace (fst (fst r), snd (fst r), snd r) with r by (destruct r as [[? ?] ?]; reflexivity).
  destruct (sum_run _ _ _ _ _ _ _ _ _) as [[u t2]| | |]; cbn [bind fst snd]; try reflexivity. unfold do3.
  destruct (gb_flags_run _ _ _ _ _) as [[f t3]| | |]; cbn [bind fst snd]; try reflexivity. fold (grp sm) (grp (xor_rows sm (snd d))).
  destruct (gb_concat2 _ _ (fst u) _ _) as [e0| | |]; cbn [bind]; try reflexivity. destruct (gb_concat2 _ _ (snd u) _ _) as [e1| | |]; cbn [bind]; try reflexivity.
  destruct (om_perm Regular _ um _) as [e| | |]; cbn [bind]; try reflexivity. destruct (gb_output q0 _) as [x0| | |]; cbn [bind]; try reflexivity. destruct (gb_output q1 _) as [x1| | |]; cbn [bind fst snd]; try reflexivity. destruct u, f. reflexivity.
Qed.

Lemma cir_base base base' r z : cir n W (W + g) kc (W + g + kc) ks ws gl jl b me ot base r z = cir n W (W + g) kc (W + g + kc) ks ws gl jl b me ot base' r z.
Proof. reflexivity. Qed.

Definition sizes_ok := 0 < W /\ fold_right Nat.add 0 ws = 8 * W.
Lemma good_sizes x : good x -> sizes_ok.
Proof using Hn.
  intros (_ & HB & _ & EW & EZ). split; [rewrite <- EW; unfold gb_width; lia|].
  rewrite <- EZ, <- EW. fold (sum_of (gb_sizes (fst x))). unfold gb_sizes, gb_width. rewrite sum_app, (sizes_sum HB). fold (gb_sel (fst x)). change (sum_of [64]) with 64. lia.
Qed.
Lemma hides_all base : side_fits me base -> sizes_ok -> (forall r z, side_fits me r -> in0 n C z -> exists q t, circuits r z = Ok (q, t) /\ in3 n C W q) /\
  forall r z z' q t, side_fits me r -> in0 n C z -> in0 n C z' -> own b z = own b z' -> circuits r z = Ok (q, t) ->
  exists r' q', side_fits me r' /\ circuits r' z' = Ok (q', t) /\ own b q' = own b q /\
    forall r2 q2 t2, side_fits me r2 -> circuits r2 z' = Ok (q2, t2) -> cir_got b t2 = cir_got b t -> r2 = r'.
Proof using All.
  intros Hb (HW & Ews). assert (Hks : 0 < ks) by (unfold ks, gb_comp; lia). pose proof Hgl as Hgl'. rewrite Ews in Hgl'.
  exact (@cir_hides n C W (W + g) kc (W + g + kc) ks ws gl jl b me ot base Hn HW Ews ltac:(unfold C; lia) Hks eq_refl ltac:(unfold C; lia) ltac:(unfold C; lia) Hgl' Hjl Hs Hb).
Qed.
Lemma grp_ok z : rows_ok n C z -> rows_ok n g (grp z).
Proof using Hn. intros H. apply (cut_rows (off := W) (size := g) H). unfold C. lia. Qed.

(* the whole run with its pieces *)
Lemma run_all x : good x -> exists v, rows_ok n C v /\ forall sm r q msgs, rows_ok n C sm -> side_fits me r -> circuits r (sm, xor_rows sm v) = Ok (q, msgs) ->
  exists w, rows_ok n (W + g + 1) w /\ forall um, rows_ok n (W + g + 1) um -> exists t0 t1, gb_output (fst x) um = Ok t0 /\ gb_output (snd x) (xor_rows um w) = Ok t1 /\
    let '((_, p0, u0, f0), (_, p1, u1, f1)) := q in
    gb_run_tr gl enc (fst x) (snd x) sm um jl (both b me (side_with ot r)) = Ok (GbT (sm, xor_rows sm v) (p0, p1) (u0, u1) (f0, f1) (um, xor_rows um w) (t0, t1), msgs).
Proof using All.
  intros HX. destruct (parts HX) as (p & v & Hp & Hv & PT). exists v. split; [exact Hv|]. intros sm r q msgs Hsm Hr EC.
  destruct (@hides_all r Hr (good_sizes HX)) as [OKC _]. pose proof (xor_rows_ok Hsm Hv) as Hsx. destruct (OKC r (sm, xor_rows sm v) Hr (conj Hsm Hsx)) as (q' & t' & EC' & I3). rewrite EC in EC'. assert (q' = q) as -> by congruence. clear EC'.
  destruct q as [[[[z0 p0] u0] f0] [[[z1 p1] u1] f1]]. destruct I3 as ((_ & U0 & U1) & L0 & L1 & B0 & B1). pose proof HX as (HQ & _ & _ & EW & _).
  destruct (@tail_ok n kb (fst x) (snd x) p (grp sm) (grp (xor_rows sm v)) u0 u1 f0 f1 Hn HQ Hp (grp_ok Hsm) (grp_ok Hsx)) as (w & Hw & TL); rewrite ?EW; try assumption. rewrite EW in Hw, TL. fold g in Hw, TL.
  exists w. split; [exact Hw|]. intros um Hum. destruct (TL um Hum) as (t0 & t1 & T0 & T1 & ET). exists t0, t1. split; [exact T0|]. split; [exact T1|]. rewrite (PT sm um r Hsm), EC. cbn [bind fst snd]. rewrite ET. reflexivity.
Qed.

Lemma view_ok x c : good x -> ok c -> exists y, view x c = Ok y.
Proof using All.
  intros HX (Hsm & Hum & Hr). destruct c as [[sm um] r]. cbn [fst snd] in *. destruct (run_all HX) as (v & Hv & RA). destruct (@hides_all r Hr (good_sizes HX)) as [OKC _].
  destruct (OKC r (sm, xor_rows sm v) Hr (conj Hsm (xor_rows_ok Hsm Hv))) as (q & t & EC & _). destruct (RA sm r q t Hsm Hr EC) as (w & Hw & RB). destruct (RB um Hum) as (t0 & t1 & _ & _ & ER).
  destruct q as [[[[z0 p0] u0] f0] [[[z1 p1] u1] f1]]. eexists. unfold view. cbn [fst snd]. rewrite ER. reflexivity.
Qed.

Lemma view_move x x' c : good x -> good x' -> own b x = own b x' -> ok c -> exists c' y, ok c' /\ view x c = Ok y /\ view x' c' = Ok y.
Proof using All.
  intros HX HX' EO (Hsm & Hum & Hr). destruct c as [[sm um] r]. cbn [fst snd] in *. destruct (run_all HX) as (v & Hv & RA). destruct (run_all HX') as (v' & Hv' & RA'). destruct (@hides_all r Hr (good_sizes HX)) as [OKC HID].
  pose proof (xor_rows_ok Hsm Hv) as Hsx. destruct (OKC r (sm, xor_rows sm v) Hr (conj Hsm Hsx)) as (q & t & EC & _).
  set (sm' := if b then sm else xor_rows (xor_rows sm v) v'). assert (Hsm' : rows_ok n C sm') by (unfold sm'; destruct b; [exact Hsm|apply (xor_rows_ok Hsx Hv')]). pose proof (xor_rows_ok Hsm' Hv') as Hsx'.
  assert (EZ : own b (sm, xor_rows sm v) = own b (sm', xor_rows sm' v')) by (unfold sm'; clear - Hsx Hv'; destruct b; cbn [own fst snd]; [reflexivity|symmetry; apply (xor_twice Hsx Hv')]).
  destruct (HID r (sm, xor_rows sm v) (sm', xor_rows sm' v') q t Hr (conj Hsm Hsx) (conj Hsm' Hsx') EZ EC) as (r' & q' & Hr' & EC' & EQ & _).
  destruct (RA sm r q t Hsm Hr EC) as (w & Hw & RB). destruct (RA' sm' r' q' t Hsm' Hr' EC') as (w' & Hw' & RB'). pose proof (xor_rows_ok Hum Hw) as Hux.
  set (um' := if b then um else xor_rows (xor_rows um w) w'). assert (Hum' : rows_ok n (W + g + 1) um') by (unfold um'; destruct b; [exact Hum|apply (xor_rows_ok Hux Hw')]).
  assert (EU : own b (um, xor_rows um w) = own b (um', xor_rows um' w')) by (unfold um'; clear - Hux Hw'; destruct b; cbn [own fst snd]; [reflexivity|symmetry; apply (xor_twice Hux Hw')]).
  destruct (RB um Hum) as (t0 & t1 & T0 & T1 & ER). destruct (RB' um' Hum') as (t0' & t1' & T0' & T1' & ER').
  destruct q as [[[[z0 p0] u0] f0] [[[z1 p1] u1] f1]]. destruct q' as [[[[z0' p0'] u0'] f0'] [[[z1' p1'] u1'] f1']].
  exists (sm', um', r'). eexists. split; [split; [exact Hsm'|]; split; [exact Hum'|exact Hr']|]. unfold view. cbn [fst snd]. rewrite ER, ER'. cbn [bind]. split; [reflexivity|]. f_equal. unfold gb_see. cbn [fst snd gtSort gtCtrl gtSum gtFlag gtBack gtOut].
  rewrite <- EZ, <- EU.
  assert (ET : own b (t0', t1') = own b (t0, t1)) by (clear - EO EU T0 T1 T0' T1'; destruct b; cbn [own fst snd] in *; rewrite <- EO, <- EU in *; congruence).
  assert (E3 : own b (p0', p1') = own b (p0, p1) /\ own b (u0', u1') = own b (u0, u1) /\ own b (f0', f1') = own b (f0, f1)) by (clear - EQ; destruct b; cbn [own fst snd] in *; (split; [congruence|]); split; congruence).
  destruct E3 as (-> & -> & ->). rewrite ET. reflexivity.
Qed.

Lemma rows_lens m c d : rows_ok m c d -> JoinPrivacy.lens m c d.
Proof using Hn. intros [L F]. split; [exact L|]. revert F. apply Forall_impl. intros r H. apply H. Qed.
Lemma mask_inj m c a a' v : rows_ok m c a -> rows_ok m c a' -> rows_ok m c v -> own b (a, xor_rows a v) = own b (a', xor_rows a' v) -> a = a'.
Proof using Hn.
  intros Ha Ha' Hv E. destruct b; cbn [own fst snd] in E; [exact E|]. rewrite <- (xor_twice Ha Hv), <- (xor_twice Ha' Hv), E. reflexivity.
Qed.

Lemma view_inj x c c' y : good x -> ok c -> ok c' -> view x c = Ok y -> view x c' = Ok y -> c = c'.
Proof using All.
  intros HX (Hsm & Hum & Hr) (Hsm' & Hum' & Hr') EV EV'. destruct c as [[sm um] r], c' as [[sm' um'] r']. cbn [fst snd] in *. destruct (run_all HX) as (v & Hv & RA). destruct (@hides_all r Hr (good_sizes HX)) as [OKC HID].
  destruct (OKC r (sm, xor_rows sm v) Hr (conj Hsm (xor_rows_ok Hsm Hv))) as (q & t & EC & _). destruct (OKC r' (sm', xor_rows sm' v) Hr' (conj Hsm' (xor_rows_ok Hsm' Hv))) as (q' & t' & EC' & _).
  destruct (RA sm r q t Hsm Hr EC) as (w & Hw & RB). destruct (RA sm' r' q' t' Hsm' Hr' EC') as (w' & Hw' & RB').
  destruct (RB um Hum) as (t0 & t1 & _ & _ & ER). destruct (RB' um' Hum') as (t0' & t1' & _ & _ & ER'). 
  assert (E : own b (sm, xor_rows sm v) = own b (sm', xor_rows sm' v) /\ cir_got b t = cir_got b t' /\ own b (um, xor_rows um w) = own b (um', xor_rows um' w')).
  { destruct q as [[[[z0 p0] u0] f0] [[[z1 p1] u1] f1]]. destruct q' as [[[[z0' p0'] u0'] f0'] [[[z1' p1'] u1'] f1']]. unfold view in EV, EV'. cbn [fst snd] in EV, EV'. rewrite ER in EV. rewrite ER' in EV'. cbn [bind] in EV, EV'. rewrite <- EV' in EV. unfold gb_see in EV. cbn [fst snd gtSort gtBack] in EV.
    split; [congruence|]. split; congruence. }
  destruct E as (E1 & E2 & E3). assert (sm' = sm) as -> by exact (eq_sym (mask_inj Hsm Hsm' Hv E1)).
  destruct (HID r (sm, xor_rows sm v) (sm, xor_rows sm v) q t Hr (conj Hsm (xor_rows_ok Hsm Hv)) (conj Hsm (xor_rows_ok Hsm Hv)) eq_refl EC) as (r0 & q0 & _ & _ & _ & U).
  assert (r' = r) as -> by (rewrite (U r q t Hr EC eq_refl); apply (U r' q' t' Hr' EC'); congruence).
  rewrite EC in EC'. assert (q' = q) as -> by congruence.
  (* the rows to permute back are the same *)
  destruct (RA sm r q t Hsm Hr EC) as (w2 & Hw2 & RC). destruct (RB' um Hum) as (a0 & a1 & _ & _ & ER2).
  assert (EW : xor_rows um w' = xor_rows um w).
  { destruct q as [[[[z0 p0] u0] f0] [[[z1 p1] u1] f1]]. rewrite ER in ER2. congruence. }
  assert (ww : w' = w) by (rewrite <- (xor_twice Hw' Hum), <- (xor_twice Hw Hum), (xor_comm_rows w' um), (xor_comm_rows w um), EW; reflexivity). subst w'.
  f_equal. f_equal. exact (mask_inj Hum Hum' Hw E3).
Qed.

Theorem gb_paired x x' : good x -> good x' -> own b x = own b x' -> paired ok view x x'.
Proof using All.
  intros HX HX' EO. exists (fun c c' => ok c /\ ok c' /\ exists y, view x c = Ok y /\ view x' c' = Ok y). split; [auto|]. split; [|split; [|split]].
  - intros c Hc. destruct (view_move HX HX' EO Hc) as (c' & y & Hc' & E & E'). exists c'. eauto.
  - intros c Hc. destruct (view_move HX' HX (eq_sym EO) Hc) as (c' & y & Hc' & E & E'). exists c'. eauto.
  - intros r a e (_ & Ha & y & E & A) (_ & He & y' & E' & A'). assert (y' = y) as -> by congruence. exact (view_inj HX' Ha He A A').
  - intros r a e (Ha & _ & y & A & E) (He & _ & y' & A' & E'). assert (y' = y) as -> by congruence. exact (view_inj HX Ha He A A').
Qed.
End Side.
