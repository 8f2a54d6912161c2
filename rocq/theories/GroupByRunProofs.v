(* A group by with the runs of its circuits is the group by of GroupByModel for some masks. *)
From Coq Require Import Permutation.
From Verif Require Import Base Words PermModel PermSpec PermProofs PermCorProofs KeyMultModel ShuffleModel ShuffleSpec ShuffleSpanProofs RadixModel RadixSpec RadixSortProofs StableSortProofs
  GmwModel GmwSpec AggModel AggSpec AggProofs AggTwoTree TableModel TableSpec TrimProofs TableProofs TableOpsSpec JoinProofs AverageProofs BitInjProofs
  OmJoinModel OmJoinSpec BlockProofs PackProofs OmJoinProofs OmJoinTop GroupByModel GroupBySpec GroupByArith GroupByLoad GroupByBlock GroupByProofs
  JoinRunModel JoinRunSpec GroupByRunModel GroupByRunSpec GroupByRunStages GroupByRunSum.

(* the steps before the circuits *)
Definition gb_front (enc : list N -> list N) (q0 q1 : gb_query) (sm : list (list N)) :=
  do k0 <- gb_load enc q0;
  do k1 <- gb_load enc q1;
  let w := gb_width q0 in
  let g := div_ceil (cBits (gKey q0)) 8 in
  let kc := div_ceil (gb_key_size q0) 8 in
  do p <- om_sort k0 k1;
  do d0 <- gb_concat false q0 k0 (gb_offsets q0);
  do d1 <- gb_concat true q1 k1 (gb_offsets q0);
  do d <- om_perm Inverse p sm (d0, d1);
  do g0 <- gb_cut w g (fst d);
  do g1 <- gb_cut w g (snd d);
  do c0 <- gb_cut (w + g) kc (fst d);
  do c1 <- gb_cut (w + g) kc (snd d);
  do f0 <- gb_bits (w + g + kc) (fst d);
  do f1 <- gb_bits (w + g + kc) (snd d);
  Ok (p, (d0, d1), d, (g0, g1), (c0, c1), (f0, f1)).

Lemma front_ok enc n kb q0 q1 sm : 2 <= n -> gb_queries_ok n kb q0 q1 -> gb_enc_ok n kb enc -> 
  rows_ok n (gb_width q0 + div_ceil (cBits (gKey q0)) 8 + div_ceil (gb_key_size q0) 8 + 1) sm ->
  (forall i, i < n -> (le_num (nth i (gb_keys q0 q1) []) < 2 ^ N.of_nat kb)%N) ->
  let C := gb_width q0 + div_ceil (cBits (gKey q0)) 8 + div_ceil (gb_key_size q0) 8 + 1 in
  exists p dd d gg c0 c1 f0 f1, gb_front enc q0 q1 sm = Ok (p, dd, d, gg, (c0, c1), (f0, f1)) /\ rows_ok n C (fst d) /\ rows_ok n C (snd d) /\
    rows_ok n (div_ceil (gb_key_size q0) 8) c0 /\ rows_ok n (div_ceil (gb_key_size q0) 8) c1 /\ length f0 = n /\ length f1 = n /\ is_perm n p.
Proof.
  intros Hn HQ HE Hsm HG. assert (Hn0 : 0 < n) by lia. pose proof HQ as (Q0 & Q1 & HI & HS0). pose proof (gb_load_shared HQ HE HG) as HPK.
  pose proof (gb_load_ok enc Q0) as EK0. pose proof (gb_load_ok enc Q1) as EK1.
  pose proof Q0 as (C0 & Ekb0 & FA0 & LA0 & BA0). pose proof Q1 as (C1 & Ekb1 & FA1 & LA1 & BA1).
  assert (En0 : gb_rows q0 = n) by apply C0. assert (En1 : gb_rows q1 = n) by apply C1.
  assert (Eks : gb_key_size q0 = Nat.min (kb + 1) (gb_comp n)) by (unfold gb_key_size; rewrite Ekb0, En0; reflexivity).
  assert (Eks1 : gb_key_size q1 = Nat.min (kb + 1) (gb_comp n)) by (unfold gb_key_size; rewrite Ekb1, En1; reflexivity).
  unfold gb_front. rewrite EK0, EK1. cbn [bind]. rewrite Ekb0 in *. rewrite Eks in *. set (ks := Nat.min (kb + 1) (gb_comp n)) in *. set (kc := div_ceil ks 8) in *. set (g := div_ceil kb 8) in *.
  set (G := gb_keys q0 q1) in *. set (A := gb_act q0 q1) in *. set (K := gb_seen_row n kb enc G A) in *.
  assert (Hks : 0 < ks) by (unfold ks, gb_comp; lia).
  pose proof HPK as (HK0 & HK1 & EKK). cbn [fst snd] in HK0, HK1, EKK.
  destruct (@om_sort_ok n kc (BM ks kc (map (party_key n kb enc q0) (seq 0 n))) (BM ks kc (map (party_key n kb enc q1) (seq 0 n)))) as (p & -> & HS); [apply HK0|reflexivity|exact HK0|exact HK1|].
  cbn [bRows] in HS. rewrite EKK in HS. cbn [bind]. pose proof (proj1 HS) as Hp. destruct (perm_inv_ex Hp) as (q & Hq & Hqp & Hpq).
  pose proof (same_sel_gb HS0) as HSel. fold (gb_sel q0) (gb_sel q1) in HSel. destruct (same_left_offs HSel) as [Eo Elb].
  assert (HKr : forall qq, rows_ok n kc (map (party_key n kb enc qq) (seq 0 n)) -> forall i, i < n -> length (party_key n kb enc qq i) = kc /\ bytes (party_key n kb enc qq i)).
  { intros qq H i Hi. pose proof (rows_nth H Hi) as X. rewrite nth_map_seq' in X by exact Hi. exact X. }
  pose proof (@gb_concat_ok false n kb q0 (gb_offsets q0) (party_key n kb enc q0) ks Hn0 Q0 (eq_sym Eks) eq_refl (HKr _ HK0)) as EC0. fold kc in EC0. rewrite EC0. cbn [bind].
  assert (Eoff : gb_offsets q0 = gb_offsets q1).
  { unfold gb_offsets. rewrite Eo, Elb, Ekb0, Ekb1, Eks, Eks1. reflexivity. }
  pose proof (@gb_concat_ok true n kb q1 (gb_offsets q0) (party_key n kb enc q1) ks Hn0 Q1 (eq_sym Eks1) Eoff (HKr _ HK1)) as EC1. fold kc in EC1. rewrite EC1. cbn [bind]. clear EC0 EC1.
  set (W := gb_width q0) in *. assert (EW : W = left_bits (gb_sel q0) / 8 + 8) by reflexivity.
  set (D := fun i => xl (gb_sel q0) (gb_sel q1) i ++ le_bytes 8 1 ++ nth i G [] ++ K i ++ [N.lxor (nth i (gAct q0) 0%N) (nth i (gAct q1) 0%N)]).
  pose proof (gb_sel_ok FA0) as FS0. pose proof (gb_sel_ok FA1) as FS1. fold (gb_sel q0) in FS0. fold (gb_sel q1) in FS1.
  pose proof (col_rows C0) as [RG0 _]. pose proof (col_rows C1) as [RG1 _]. rewrite Ekb0 in RG0. rewrite Ekb1 in RG1. fold g in RG0, RG1.
  assert (HGr : rows_ok n g G) by (apply (xor_rows_ok RG0 RG1)).
  assert (Lxl : forall j, length (xl (gb_sel q0) (gb_sel q1) j) = left_bits (gb_sel q0) / 8).
  { intros j. unfold xl. rewrite map2_length, (proj1 (lpart_len j FS0)), (proj1 (lpart_len j FS1)), <- Elb. apply Nat.min_id. }
  assert (HD : pair_of n (W + g + kc + 1) (map (gb_party_row false q0 (party_key n kb enc q0)) (seq 0 n), map (gb_party_row true q1 (party_key n kb enc q1)) (seq 0 n)) D).
  { assert (HR : forall role qq, Forall (sel_ok n n) (gb_sel qq) -> left_bits (gb_sel qq) / 8 + 8 = W -> rows_ok n kc (map (party_key n kb enc qq) (seq 0 n)) -> rows_ok n g (bRows (cDat (gKey qq))) ->
      length (gAct qq) = n -> bytes (gAct qq) -> rows_ok n (W + g + kc + 1) (map (gb_party_row role qq (party_key n kb enc qq)) (seq 0 n))).
    { intros role qq Fs Ew Hk Hg La Ba. apply rows_map. intros i Hi. unfold gb_party_row. destruct (lpart_len i Fs) as [Ll Bl]. destruct (HKr _ Hk i Hi) as [Lk Bk]. destruct (rows_nth Hg Hi) as [Lg Bg]. split.
      - rewrite !app_length, Ll, Lk, Lg. cbn [length]. rewrite repeat_length. lia.
      - apply bytes_app; [exact Bl|]. apply bytes_app; [destruct role; repeat constructor|]. apply bytes_app; [exact Bg|]. apply bytes_app; [exact Bk|].
        unfold bytes in Ba. rewrite Forall_forall in Ba. repeat constructor. apply Ba, nth_In. lia. }
    unfold pair_of. cbn [fst snd]. split; [apply HR; auto|]. split; [apply HR; auto; rewrite <- Elb; reflexivity|].
    apply nth_ext with [] []; [unfold xor_rows; rewrite map2_length, !map_length; lia|]. intros i Hi. unfold xor_rows in Hi. rewrite map2_length, !map_length, seq_length, Nat.min_id in Hi.
    rewrite (@nth_xor_rows n) by (rewrite ?map_length, ?seq_length; auto). rewrite !nth_map_seq' by exact Hi. cbn [Nat.add]. unfold gb_party_row, D, xl.
    rewrite map2_app by (rewrite (proj1 (lpart_len i FS0)), (proj1 (lpart_len i FS1)), Elb; reflexivity). f_equal.
    rewrite map2_app by reflexivity. f_equal. rewrite map2_app by (rewrite (proj1 (rows_nth RG0 Hi)), (proj1 (rows_nth RG1 Hi)); reflexivity).
    f_equal; [unfold G, gb_keys, shared_rows; rewrite (@nth_xor_rows n) by (try apply RG0; try apply RG1; exact Hi); reflexivity|].
    rewrite map2_app by (rewrite (proj1 (HKr _ HK0 i Hi)), (proj1 (HKr _ HK1 i Hi)); reflexivity). f_equal.
    pose proof (pair_row HPK Hi) as X. cbn [fst snd] in X. rewrite !nth_map_seq' in X by exact Hi. exact X. }
  destruct (om_perm_inv_ok Hp Hq Hqp Hsm HD) as (d & -> & Hd). cbn [bind]. pose proof Hd as (Hd0 & Hd1 & _).
  rewrite (@gb_cut_ok n (W + g + kc + 1) W g (fst d)) by (try assumption; lia). rewrite (@gb_cut_ok n (W + g + kc + 1) W g (snd d)) by (try assumption; lia).
  rewrite (@gb_cut_ok n (W + g + kc + 1) (W + g) kc (fst d)) by (try assumption; lia). rewrite (@gb_cut_ok n (W + g + kc + 1) (W + g) kc (snd d)) by (try assumption; lia). cbn [bind].
  pose proof (@cut_pair n _ W g d _ Hd ltac:(lia)) as HCG. pose proof (@cut_pair n _ (W + g) kc d _ Hd ltac:(lia)) as HCK.
  destruct (@gb_bits_ok n _ (W + g + kc) d _ Hd ltac:(lia)) as (f0 & f1 & -> & -> & Lf0 & Lf1 & Hf). cbn [bind].
  set (gg0 := map (fun i => slice (nth i (fst d) []) W g) (seq 0 n)) in *. set (gg1 := map (fun i => slice (nth i (snd d) []) W g) (seq 0 n)) in *.
  pose proof HCK as (K0 & K1 & _). exists p. eexists. exists d. eexists. eexists. eexists. exists f0, f1.
  split; [reflexivity|]. split; [exact Hd0|]. split; [exact Hd1|]. split; [exact K0|]. split; [exact K1|]. split; [exact Lf0|]. split; [exact Lf1|exact Hp].
Qed.

(* the rest, with the masks of the circuits *)
Lemma run_cir enc n kb gl q0 q1 sm um jl jt : 2 <= n -> gb_queries_ok n kb q0 q1 -> gb_enc_ok n kb enc ->
  rows_ok n (gb_width q0 + div_ceil (cBits (gKey q0)) 8 + div_ceil (gb_key_size q0) 8 + 1) sm -> rows_ok n (gb_width q0 + div_ceil (cBits (gKey q0)) 8 + 1) um ->
  Forall (fun s => cBits (snd s) mod 8 = 0) (gAvg q0) -> (forall i, i < n -> (le_num (nth i (gb_keys q0 q1) []) < 2 ^ N.of_nat kb)%N) ->
  gb_lib_ok (fold_right Nat.add 0 (gb_sizes q0)) gl -> gb_levels_fit gl (gb_sizes q0) (gb_key_size q0) jl -> tapes_fit n jl jt ->
  exists bc ba bf tr, gb_rand_ok n q0 (GbR sm bc ba bf um) /\
    gb_run_cir gl enc q0 q1 sm um jl jt = do t <- gb_run enc q0 q1 (GbR sm bc ba bf um); Ok (t, tr).
Proof.
  intros Hn HQ HE Hsm Hum HB HG HL HJ HT.
  destruct (front_ok Hn HQ HE Hsm HG) as (p & [d0 d1] & [D0 D1] & [g0 g1] & c0 & c1 & f0 & f1 & EF & H0 & H1 & K0 & K1 & Lf0 & Lf1 & _). cbn [fst snd] in H0, H1.
  assert (Hks : 0 < gb_key_size q0) by (unfold gb_key_size, gb_comp; lia).
  assert (Hsum : fold_right Nat.add 0 (gb_sizes q0) = 8 * gb_width q0).
  { fold (sum_of (gb_sizes q0)). unfold gb_sizes, gb_width. rewrite sum_app, (sizes_sum HB). fold (gb_sel q0). change (sum_of [64]) with 64. lia. }
  assert (HW : 0 < gb_width q0) by (unfold gb_width; lia).
  pose proof HT as (P0 & P1 & P2 & P3 & T1 & T2 & _). pose proof HJ as (LC & _ & _ & _ & LF).
  destruct (@control_any n (div_ceil (gb_key_size q0) 8) (gb_key_size q0) 0 (jlCtrl jl) (jtpCtrl jt) c0 c1) as (o0 & o1 & t1 & p0 & p1 & R1 & Lo0 & S0 & S1 & Lp0 & Lp1 & M1); try assumption; try lia.
  destruct (@sum_any n (gb_width q0 + div_ceil (cBits (gKey q0)) 8 + div_ceil (gb_key_size q0) 8 + 1) (gb_width q0) (gb_sizes q0) gl (gb_key_size q0) jl jt (concat d0) (concat d1) p0 p1 D0 D1 Hn HW Hsum ltac:(lia) HL HJ HT Lp0 Lp1 H0 H1) as (A0 & a & t2 & HA & R2 & M2).
  destruct (@flags_any n (jlFlag jl) (jtpFlag jt) p0 p1 f0 f1) as (mk & t3 & Lm & R3); try assumption; try lia.
  exists o0, A0, mk, (t1, t2, t3). split.
  { unfold gb_rand_ok. cbn [bSort bCtrl bAgg bFlag bUnsort]. split; [exact Hsm|]. split; [exact Lo0|]. split; [|split; [exact Lm|exact Hum]]. rewrite Hsum. replace (div_ceil (8 * gb_width q0) 8) with (gb_width q0) by (unfold div_ceil; lia). exact HA. }
  unfold gb_front in EF. unfold gb_run_cir, gb_run. cbn [bSort bCtrl bAgg bFlag bUnsort].
  apply bind_inv in EF. destruct EF as (k0 & -> & EF). cbn [bind]. apply bind_inv in EF. destruct EF as (k1 & -> & EF). cbn [bind]. cbv zeta in EF.
  apply bind_inv in EF. destruct EF as (p' & -> & EF). cbn [bind]. apply bind_inv in EF. destruct EF as (d0' & -> & EF). cbn [bind]. apply bind_inv in EF. destruct EF as (d1' & -> & EF). cbn [bind].
  apply bind_inv in EF. destruct EF as (d' & -> & EF). cbn [bind]. apply bind_inv in EF. destruct EF as (g0' & -> & EF). cbn [bind]. apply bind_inv in EF. destruct EF as (g1' & -> & EF). cbn [bind].
  apply bind_inv in EF. destruct EF as (c0' & -> & EF). cbn [bind]. apply bind_inv in EF. destruct EF as (c1' & -> & EF). cbn [bind]. apply bind_inv in EF. destruct EF as (f0' & -> & EF). cbn [bind]. apply bind_inv in EF. destruct EF as (f1' & -> & EF). cbn [bind].
  injection EF as -> -> -> -> -> -> -> -> -> ->. rewrite R1. cbn [bind fst snd]. rewrite S0, S1. cbn [bind]. rewrite M1. cbn [bind]. rewrite R2, M2. cbn [bind]. rewrite R3. cbn [bind fst snd].
  destruct (gb_concat2 _ _ (fst a) _ _) as [e0| | |]; cbn [bind]; try reflexivity. destruct (gb_concat2 _ _ (snd a) _ _) as [e1| | |]; cbn [bind]; try reflexivity.
  destruct (om_perm Regular _ um _) as [e| | |]; cbn [bind]; try reflexivity. destruct (gb_output q0 _) as [x0| | |]; cbn [bind]; try reflexivity. destruct (gb_output q1 _) as [x1| | |]; cbn [bind]; reflexivity.
Qed.
