From Verif Require Import Base Words PermModel PermSpec PermProofs PermCorModel PermCorSpec PermCorProofs
  Mod3Model ConvModel ConvSpec KeyMultModel KeyMultSpec PrfModel PrfSpec F3CodeModel PrfSharedProofs.

(* ---------- composed permutations ---------- *)
Lemma map_nth_perm n p q : is_perm n p -> is_perm n q -> is_perm n (map (fun i => nth i p 0) q).
Proof.
  intros Hp Hq. destruct (perm_compose_ok Hq Hp) as (c & _ & Hc & H).
  replace (map (fun i => nth i p 0) q) with c; [exact Hc|].
  apply nth_error_ext_len; [rewrite map_length, (is_perm_length Hc), (is_perm_length Hq); reflexivity|].
  intros i Hi. rewrite (is_perm_length Hc) in Hi. destruct (nthp Hq Hi) as [E Hl]. rewrite (H _ _ E), nth_error_map, E. simpl.
  apply (nthp Hp Hl).
Qed.

Lemma comp_perm_nth n c0 c1 i : is_perm n (csPerm (cpS c1)) -> i < n ->
  nth i (comp_perm c0 c1) 0 = nth (nth i (csPerm (cpS c1)) 0) (csPerm (cpS c0)) 0.
Proof.
  intros H Hi. unfold comp_perm. apply nth_error_nth. rewrite nth_error_map, (proj1 (nthp H Hi)). reflexivity.
Qed.

Lemma cround_ok n c S0 R op w xs xr : 0 < n -> (N.of_nat c < 2 ^ 64)%N -> cor_rel n c S0 R -> csOff S0 + w <= c ->
  length xs = n * w -> length xr = n * w ->
  exists ys yr, comp_round S0 R op (Mat n w xs) (Mat n w xr) =
      Ok ((Mat n w ys, CorS (csPerm S0) (csDelta S0) (csOff S0 + w)), (Mat n w yr, CorR (crA R) (crB R) (crOff R + w))) /\
    length ys = n * w /\ length yr = n * w /\ permuted op w (csPerm S0) (xors xs xr) (xors ys yr).
Proof.
  intros Hn Hc HR Ho Ls Lr. unfold comp_round. cbn [rows cols].
  destruct (@round_ok n c S0 R op w (Some (Mat n w xs)) (Mat n w xr) (zmat n w) (zmat n w))
    as (msg & yr & ys & E1 & E2 & L1 & L2 & H); auto; try apply zmat_len.
  rewrite E1. cbn [bind fst snd]. rewrite E2. cbn [bind]. exists ys, yr. auto.
Qed.

Lemma xors_comm a b : xors a b = xors b a.
Proof. unfold xors. revert b. induction a as [|x a IH]; intros [|y b]; simpl; auto. rewrite N.lxor_comm, IH. reflexivity. Qed.

Lemma comp_apply_ok n c c0 c1 op w x0 x1 o0 o1 : 0 < n -> (N.of_nat c < 2 ^ 64)%N -> comp_rel n c c0 c1 ->
  csOff (cpS c0) + w <= c -> csOff (cpS c1) + w <= c -> length x0 = n * w -> length x1 = n * w ->
  rows o0 = n -> cols o0 = w -> rows o1 = n -> cols o1 = w ->
  exists z0 z1 d0 d1, comp_apply c0 c1 op (Mat n w x0) (Mat n w x1) o0 o1 = Ok ((Mat n w z0, d0), (Mat n w z1, d1)) /\
    length z0 = n * w /\ length z1 = n * w /\
    permuted op w (comp_perm c0 c1) (xors x0 x1) (xors z0 z1) /\
    comp_rel n c d0 d1 /\ comp_perm d0 d1 = comp_perm c0 c1 /\
    csOff (cpS d0) = csOff (cpS c0) + w /\ csOff (cpS d1) = csOff (cpS c1) + w.
Proof.
  intros Hn Hc (I0 & I1 & HR0 & HR1) Ho0 Ho1 L0 L1 R0 C0 R1 C1.
  destruct c0 as [i0 s0 r0], c1 as [i1 s1 r1]. cbn [cpIdx cpS cpR] in *. subst i0 i1.
  pose proof HR0 as (Hp0 & RD0 & CD0 & _). pose proof HR1 as (Hp1 & RD1 & CD1 & _).
  unfold comp_apply. unfold comp_checks. cbn [cpIdx cpS cpR rows cols].
  rewrite R0, R1, C0, C1, RD0, RD1, CD0, CD1, !Nat.eqb_refl. cbn [negb orb throw_if bind].
  change (1 <? 0) with false. change (1 <? 1) with false. cbn [throw_if bind].
  rewrite !cor_left_le by lia.
  destruct (Nat.ltb_spec c (csOff s0 + w)); [lia|]. destruct (Nat.ltb_spec c (csOff s1 + w)); [lia|]. cbn [throw_if bind].
  assert (Lx : length (xors x0 x1) = n * w) by (apply xors_len; assumption).
  destruct op; unfold comp_roles; cbn [cpIdx Nat.eqb negb xorb].
  - destruct (@cround_ok n c s0 r1 Regular w x0 x1) as (y0 & y1 & E1 & Ly0 & Ly1 & H1); auto.
    rewrite E1. cbn [bind].
    destruct (@cround_ok n c s1 r0 Regular w y1 y0) as (z1 & z0 & E2 & Lz1 & Lz0 & H2); auto.
    rewrite E2. cbn [bind].
    eexists z0, z1, _, _. split; [reflexivity|]. split; [exact Lz0|]. split; [exact Lz1|].
    split; [|split; [|split; [reflexivity|split; reflexivity]]].
    + cbn [permuted] in *. rewrite (xors_comm z1), (xors_comm y1) in H2.
      assert (Ly : length (xors y0 y1) = n * w) by (apply xors_len; assumption).
      apply (gathered_cel (n := n)) in H1; [|assumption|assumption]. apply (gathered_cel (n := n)) in H2; [|assumption|assumption].
      apply (gathered_cel (n := n)); [apply map_nth_perm; assumption|assumption|].
      destruct H1 as [_ H1], H2 as [Lz H2]. split; [exact Lz|]. intros i j Hi Hj. rewrite H2 by assumption.
      rewrite H1 by (try assumption; apply (nthp Hp1 Hi)). rewrite (comp_perm_nth (n := n)) by assumption. reflexivity.
    + split; [reflexivity|]. split; [reflexivity|]. split; apply cor_rel_off; assumption.
  - destruct (@cround_ok n c s1 r0 Inverse w x1 x0) as (y1 & y0 & E1 & Ly1 & Ly0 & H1); auto.
    rewrite E1. cbn [bind].
    destruct (@cround_ok n c s0 r1 Inverse w y0 y1) as (z0 & z1 & E2 & Lz0 & Lz1 & H2); auto.
    rewrite E2. cbn [bind].
    eexists z0, z1, _, _. split; [reflexivity|]. split; [exact Lz0|]. split; [exact Lz1|].
    split; [|split; [|split; [reflexivity|split; reflexivity]]].
    + cbn [permuted] in *. rewrite (xors_comm x1), (xors_comm y1) in H1.
      assert (Ly : length (xors y0 y1) = n * w) by (apply xors_len; assumption).
      apply (scattered_cel (n := n)) in H1; [|assumption|assumption]. apply (scattered_cel (n := n)) in H2; [|assumption|assumption].
      apply (scattered_cel (n := n)); [apply map_nth_perm; assumption|assumption|].
      destruct H1 as [_ H1], H2 as [Lz H2]. split; [exact Lz|]. intros i j Hi Hj.
      rewrite (comp_perm_nth (n := n)) by assumption. cbn [cpS]. rewrite H2 by (try assumption; apply (nthp Hp1 Hi)). apply H1; assumption.
    + split; [reflexivity|]. split; [reflexivity|]. split; apply cor_rel_off; assumption.
Qed.

(* too few mask bytes on either side: an exception *)
Lemma comp_exhausted n c c0 c1 op w x0 x1 o0 o1 : (N.of_nat c < 2 ^ 64)%N -> comp_rel n c c0 c1 ->
  csOff (cpS c0) <= c -> csOff (cpS c1) <= c -> c < csOff (cpS c0) + w \/ c < csOff (cpS c1) + w ->
  cols x0 = w -> cols x1 = w ->
  comp_apply c0 c1 op x0 x1 o0 o1 = Throw.
Proof.
  intros Hc (I0 & I1 & HR0 & HR1) Ho0 Ho1 Hx C0 C1.
  pose proof HR0 as (Hp0 & RD0 & CD0 & _). pose proof HR1 as (Hp1 & RD1 & CD1 & _).
  unfold comp_apply, comp_checks. rewrite I0, I1, C0, C1, CD0, CD1, !cor_left_le by assumption.
  unfold throw_if.
  destruct (negb _); cbn [bind]; [reflexivity|]. destruct (_ || _)%bool; cbn [bind]; [reflexivity|].
  change (1 <? 0) with false. cbn [bind].
  destruct (Nat.ltb_spec c (csOff (cpS c0) + w)); cbn [bind]; [reflexivity|].
  destruct (negb _); cbn [bind]; [reflexivity|]. destruct (_ || _)%bool; cbn [bind]; [reflexivity|].
  change (1 <? 1) with false. cbn [bind].
  destruct (Nat.ltb_spec c (csOff (cpS c1) + w)); cbn [bind]; [reflexivity|lia].
Qed.

(* ---------- u32 vectors as bytes ---------- *)
Lemma u32_bytes_len v : length (u32_bytes v) = 4. Proof. reflexivity. Qed.
Lemma bytes_len l : length (bytes_of_u32s l) = length l * 4.
Proof. unfold bytes_of_u32s. rewrite (concat_length (m := 4)); [rewrite map_length; reflexivity|]. intros r Hr. apply in_map_iff in Hr. destruct Hr as (x & <- & _). reflexivity. Qed.

Lemma split8 v : N.lxor (N.land v 255) (N.shiftl (N.shiftr v 8) 8) = v.
Proof.
  apply N.bits_inj. intros k. change 255%N with (N.ones 8). rewrite N.lxor_spec, N.land_spec. destruct (N.lt_ge_cases k 8).
  - rewrite N.ones_spec_low, N.shiftl_spec_low by assumption. rewrite andb_true_r. apply xorb_false_r.
  - rewrite N.ones_spec_high, N.shiftl_spec_high', N.shiftr_spec' by assumption. rewrite andb_false_r, xorb_false_l. f_equal. lia.
Qed.

Lemma u32_round v : (v < 2 ^ 32)%N -> u32_of_bytes (u32_bytes v) = v.
Proof.
  intros Hv. unfold u32_of_bytes, u32_bytes. cbn [seq map fold_right].
  change (8 * N.of_nat 0)%N with 0%N. change (8 * N.of_nat 1)%N with 8%N. change (8 * N.of_nat 2)%N with (8 + 8)%N. change (8 * N.of_nat 3)%N with (8 + 8 + 8)%N.
  rewrite N.shiftr_0_r, <- !N.shiftr_shiftr.
  assert (E : N.shiftr (N.shiftr (N.shiftr (N.shiftr v 8) 8) 8) 8 = 0%N).
  { rewrite !N.shiftr_shiftr. rewrite N.shiftr_div_pow2. apply N.div_small. exact Hv. }
  rewrite <- E at 1. rewrite !split8. reflexivity.
Qed.

Lemma u32_of_bytes_xors a : forall b, length a = length b -> u32_of_bytes (xors a b) = N.lxor (u32_of_bytes a) (u32_of_bytes b).
Proof.
  unfold xors. induction a as [|x a IH]; intros [|y b] H; simpl in *; try discriminate; [reflexivity|].
  rewrite IH by lia. rewrite N.shiftl_lxor. rewrite !N.lxor_assoc. f_equal. rewrite <- !N.lxor_assoc. f_equal. apply N.lxor_comm.
Qed.

Lemma skipn_add A k : forall m (l : list A), skipn m (skipn k l) = skipn (k + m) l.
Proof. intros m l. apply nth_error_ext. intros i. rewrite !nth_error_skipn. f_equal. lia. Qed.
Lemma u32s_len n : forall b, length (u32s_of_bytes n b) = n.
Proof. induction n as [|n IH]; intros b; simpl; [reflexivity|]. rewrite IH. reflexivity. Qed.
Lemma u32s_nth n : forall b i, i < n -> nth i (u32s_of_bytes n b) 0%N = u32_of_bytes (row 4 b i).
Proof.
  induction n as [|n IH]; intros b i Hi; [lia|]. cbn [u32s_of_bytes]. destruct i as [|i]; cbn [nth]; [reflexivity|].
  rewrite IH by lia. unfold row. f_equal. f_equal. rewrite skipn_add. f_equal.
Qed.

Lemma row_bytes l i : i < length l -> row 4 (bytes_of_u32s l) i = u32_bytes (nth i l 0%N).
Proof.
  intros Hi. apply (nth_ext _ _ 0%N 0%N).
  - rewrite (row_length (n := length l) (bytes_len l) Hi). reflexivity.
  - rewrite (row_length (n := length l) (bytes_len l) Hi). intros j Hj.
    rewrite (cel_row (n := length l) (bytes_len l)) by assumption. unfold cel, bytes_of_u32s.
    rewrite nth_concat; [|intros r Hr; apply in_map_iff in Hr; destruct Hr as (x & <- & _); reflexivity|rewrite map_length; assumption|assumption].
    rewrite (nth_map_d _ 0%N) by assumption. reflexivity.
Qed.

Lemma byte_xor a b k : N.land (N.shiftr (N.lxor a b) k) 255 = N.lxor (N.land (N.shiftr a k) 255) (N.land (N.shiftr b k) 255).
Proof.
  apply N.bits_inj. intros i. rewrite N.shiftr_lxor, ?N.lxor_spec, ?N.land_spec, ?N.lxor_spec.
  destruct (N.testbit (N.shiftr a k) i), (N.testbit (N.shiftr b k) i), (N.testbit 255 i); reflexivity.
Qed.
Lemma u32_bytes_xor a b : u32_bytes (N.lxor a b) = xors (u32_bytes a) (u32_bytes b).
Proof. unfold u32_bytes, xors. cbn [seq map map2]. rewrite !byte_xor. reflexivity. Qed.

Lemma xors_bytes a : forall b, length a = length b -> xors (bytes_of_u32s a) (bytes_of_u32s b) = bytes_of_u32s (xors a b).
Proof.
  induction a as [|x a IH]; intros [|y b] H; simpl in H; try discriminate; [reflexivity|].
  unfold bytes_of_u32s in *. cbn [map concat]. unfold xors in *. cbn [map2 map concat]. rewrite map2_app by reflexivity.
  rewrite IH by lia. f_equal. symmetry. apply u32_bytes_xor.
Qed.

Lemma row_xors n c a b i : length a = n * c -> length b = n * c -> i < n -> row c (xors a b) i = xors (row c a i) (row c b i).
Proof.
  intros La Lb Hi. assert (L : length (xors a b) = n * c) by (apply xors_len; assumption).
  apply (nth_ext _ _ 0%N 0%N).
  - rewrite (row_length L Hi), (xors_len (n := c)); auto; apply (row_length (n := n)); assumption.
  - rewrite (row_length L Hi). intros j Hj. rewrite (cel_row L) by assumption. rewrite (cel_xors (n := n * c)) by assumption.
    rewrite (nth_xors (n := c)); [|apply (row_length (n := n)); assumption..]. rewrite !(cel_row (n := n)) by assumption. reflexivity.
Qed.

(* permuting shares of u32 vectors bytewise permutes the vector *)
Lemma u32_permuted n pi op a0 a1 z0 z1 : is_perm n pi -> length a0 = n -> length a1 = n ->
  (forall i, i < n -> (N.lxor (nth i a0 0%N) (nth i a1 0%N) < 2 ^ 32)%N) ->
  length z0 = n * 4 -> length z1 = n * 4 ->
  permuted op 4 pi (xors (bytes_of_u32s a0) (bytes_of_u32s a1)) (xors z0 z1) ->
  forall i, i < n ->
    let out k := N.lxor (nth k (u32s_of_bytes n z0) 0%N) (nth k (u32s_of_bytes n z1) 0%N) in
    let inp k := N.lxor (nth k a0 0%N) (nth k a1 0%N) in
    match op with Regular => out i = inp (nth i pi 0) | Inverse => out (nth i pi 0) = inp i end.
Proof.
  intros Hp L0 L1 HB Z0 Z1 H i Hi out inp. rewrite xors_bytes in H by congruence.
  assert (La : length (xors a0 a1) = n) by (apply xors_len; assumption).
  assert (O : forall k, k < n -> out k = u32_of_bytes (row 4 (xors z0 z1) k)).
  { intros k Hk. unfold out. rewrite !u32s_nth by assumption. rewrite (row_xors (n := n)) by assumption. symmetry.
    apply u32_of_bytes_xors. rewrite !(row_length (n := n)) by assumption. reflexivity. }
  assert (V : forall k, k < n -> u32_of_bytes (row 4 (bytes_of_u32s (xors a0 a1)) k) = inp k).
  { intros k Hk. rewrite row_bytes by lia. rewrite (nth_xors (n := n)) by assumption. apply u32_round. apply HB. exact Hk. }
  destruct (nthp Hp Hi) as [E Hl]. destruct op.
  - rewrite O by assumption. rewrite <- V by assumption. f_equal. apply H. exact E.
  - rewrite O by assumption. rewrite <- V by assumption. f_equal. apply H. exact E.
Qed.

Lemma compose_ok n c c0 c1 a0 a1 : 0 < n -> (N.of_nat c < 2 ^ 64)%N -> comp_rel n c c0 c1 ->
  csOff (cpS c0) + 4 <= c -> csOff (cpS c1) + 4 <= c -> length a0 = n -> length a1 = n ->
  (forall i, i < n -> (N.lxor (nth i a0 0%N) (nth i a1 0%N) < 2 ^ 32)%N) ->
  exists z0 z1 d0 d1, comp_compose c0 c1 a0 a1 = Ok ((z0, d0), (z1, d1)) /\ length z0 = n /\ length z1 = n /\ comp_rel n c d0 d1 /\
    comp_perm d0 d1 = comp_perm c0 c1 /\
    forall i, i < n -> N.lxor (nth i z0 0%N) (nth i z1 0%N) =
      N.lxor (nth (nth i (comp_perm c0 c1) 0) a0 0%N) (nth (nth i (comp_perm c0 c1) 0) a1 0%N).
Proof.
  intros Hn Hc HR Ho0 Ho1 L0 L1 HB. unfold comp_compose. rewrite L0, L1.
  destruct (@comp_apply_ok n c c0 c1 Regular 4 (bytes_of_u32s a0) (bytes_of_u32s a1) (zmat n 4) (zmat n 4))
    as (z0 & z1 & d0 & d1 & E & Lz0 & Lz1 & H & HR' & HP & _); auto; try (rewrite bytes_len; congruence).
  rewrite E. cbn [bind dat]. eexists _, _, d0, d1. split; [reflexivity|]. rewrite !u32s_len. split; [reflexivity|]. split; [reflexivity|].
  split; [exact HR'|]. split; [exact HP|].
  destruct HR as (_ & _ & (Hp0 & _) & (Hp1 & _)). assert (Hp : is_perm n (comp_perm c0 c1)) by (apply map_nth_perm; assumption).
  intros i Hi. apply (u32_permuted Hp L0 L1 HB Lz0 Lz1 H Hi).
Qed.

Lemma comp_derand_ok n c c0 c1 a0 a1 : 0 < n -> (N.of_nat c < 2 ^ 64)%N -> comp_rel n c c0 c1 ->
  csOff (cpS c1) + 4 <= c -> length a0 = n -> length a1 = n ->
  (forall i, i < n -> (N.lxor (nth i a0 0%N) (nth i a1 0%N) < 2 ^ 32)%N) ->
  is_perm n (map N.to_nat (xors a0 a1)) ->
  exists d0 d1, comp_derand c0 c1 a0 a1 = Ok (d0, d1) /\ comp_rel n c d0 d1 /\ comp_perm d0 d1 = map N.to_nat (xors a0 a1) /\
    csOff (cpS d0) = csOff (cpS c0) /\ csOff (cpS d1) = csOff (cpS c1) + 4.
Proof.
  intros Hn Hc (I0 & I1 & HR0 & HR1) Ho L0 L1 HB HQ.
  destruct c0 as [i0 s0 r0], c1 as [i1 s1 r1]. cbn [cpIdx cpS cpR] in *. subst i0 i1.
  pose proof HR0 as (Hp0 & _). pose proof HR1 as (Hp1 & _).
  unfold comp_derand. cbn [cpS cpR cpIdx]. rewrite L0, L1.
  destruct (@round_ok n c s1 r0 Inverse 4 (Some (Mat n 4 (bytes_of_u32s a1))) (Mat n 4 (bytes_of_u32s a0)) (zmat n 4) (zmat n 4))
    as (msg & yr & ys & E1 & E2 & Ls & Lr & H); auto; try apply zmat_len; try (cbn [dat rows cols]; rewrite bytes_len; try congruence).
  { auto. }
  rewrite E1. cbn [bind fst snd]. rewrite E2. cbn [bind fst snd dat]. rewrite u32s_len, Nat.eqb_refl. cbn [negb throw_if bind].
  cbn [option_map dat in_or_zero] in H. rewrite xors_comm, (xors_comm ys) in H.
  set (q := map N.to_nat (xors a0 a1)) in *.
  set (p := map N.to_nat (map2 N.lxor (u32s_of_bytes n ys) (u32s_of_bytes n yr))).
  rewrite xors_comm in H.
  assert (Lq : length q = n) by (unfold q; rewrite map_length; apply xors_len; assumption).
  assert (Lp : length p = n) by (unfold p; rewrite map_length, map2_length, !u32s_len; lia).
  assert (HP : forall i, i < n -> nth (nth i (csPerm s1) 0) p 0 = nth i q 0).
  { intros i Hi. rewrite xors_comm in H. pose proof (u32_permuted Hp1 L0 L1 HB Lr Ls H Hi) as K. cbv zeta in K.
    destruct (nthp Hp1 Hi) as [_ Hl].
    unfold p, q. fold (xors (u32s_of_bytes n ys) (u32s_of_bytes n yr)).
    rewrite !(nth_map_d _ 0%N) by (rewrite (xors_len (n := n)); rewrite ?u32s_len; auto).
    rewrite !(nth_xors (n := n)) by (rewrite ?u32s_len; auto). f_equal. rewrite N.lxor_comm. exact K. }
  assert (Hpp : is_perm n p).
  { destruct (perm_inverse_ok Hp1) as (inv & _ & Hinv & Hi). destruct (perm_compose_ok Hinv HQ) as (cc & _ & Hcc & Hcn).
    replace p with cc; [exact Hcc|]. apply nth_error_ext_len; [rewrite (is_perm_length Hcc); congruence|].
    intros k Hk. rewrite (is_perm_length Hcc) in Hk. destruct (is_perm_onto Hp1 Hk) as (i & Hil & Ei).
    pose proof Ei as Ei'. apply Hi in Ei'. destruct Ei' as [Ei' _]. rewrite (Hcn _ _ Ei').
    destruct (nthp Hp1 Hil) as [Ei2 _]. assert (Ek : nth i (csPerm s1) 0 = k) by congruence. specialize (HP i Hil). rewrite Ek in HP.
    rewrite !(nth_error_nth_lt 0) by congruence. f_equal. symmetry. exact HP. }
  destruct (derand_ok HR0 Hpp) as (delta & R' & F1 & F2 & HR' & Hoff & _). rewrite F1. cbn [bind fst snd]. rewrite F2. cbn [bind fst snd].
  eexists _, _. split; [reflexivity|]. split; [|split; [|split; reflexivity]].
  - split; [reflexivity|]. split; [reflexivity|]. split; [exact HR'|]. cbn [cpS cpR]. apply cor_rel_off. exact HR1.
  - unfold comp_perm. cbn [cpS csPerm]. apply nth_error_ext_len; [rewrite map_length, (is_perm_length Hp1); congruence|].
    intros i Hi. rewrite map_length, (is_perm_length Hp1) in Hi. rewrite nth_error_map. destruct (nthp Hp1 Hi) as [E _]. rewrite E. simpl.
    rewrite (nth_error_nth_lt 0) by congruence. f_equal. apply HP. exact Hi.
Qed.

(* ---------- trusted generation and validation ---------- *)
Lemma gen_cor_ok n c p d b : is_perm n p -> length d = n * c -> length b = n * c ->
  exists s r, gen_cor p c d b = Ok (s, r) /\ cor_rel n c s r /\ csPerm s = p /\ csOff s = 0 /\ dat (csDelta s) = d /\ dat (crB r) = b.
Proof.
  intros Hp Ld Lb. unfold gen_cor. rewrite (is_perm_length Hp).
  match goal with |- context [forN 0 n ?B ?s0] =>
    destruct (forN_inv (P := fun k a => length a = n * c /\ forall i j, i < k -> j < c ->
       cel c a (nth i p 0) j = N.lxor (cel c d i j) (cel c b i j)) (f := B) (n := n) (i := 0) (s := s0)) as (a & E & La & Ha) end.
  - split; [apply repeat_length|]. intros. lia.
  - intros i a Hi [La Ha]. assert (Hi' : i < n) by lia. destruct (nthp Hp Hi') as [Ei Hl].
    unfold get at 1. rewrite Ei. cbn [bind].
    match goal with |- context [forN 0 c ?B ?s0] =>
      destruct (forN_inv (P := fun j a' => length a' = n * c /\
         (forall i' j', i' < i -> j' < c -> cel c a' (nth i' p 0) j' = N.lxor (cel c d i' j') (cel c b i' j')) /\
         (forall j', j' < j -> cel c a' (nth i p 0) j' = N.lxor (cel c d i j') (cel c b i j'))) (f := B) (n := c) (i := 0) (s := s0)) as (a' & E' & La' & Ha1 & Ha2) end.
    + split; [exact La|]. split; [exact Ha|]. intros. lia.
    + intros j a' Hj (La' & Ha1 & Ha2).
      rewrite (getn 0%N (l := d)) by (rewrite Ld; apply idx_lt; lia). rewrite (getn 0%N (l := b)) by (rewrite Lb; apply idx_lt; lia). cbn [bind].
      assert (Hlt : nth i p 0 * c + j < length a') by (rewrite La'; apply idx_lt; lia).
      rewrite set_lt by exact Hlt. eexists. split; [reflexivity|]. split; [rewrite upd_length; exact La'|]. split.
      * intros i' j' Hi'' Hj'. unfold cel. rewrite nth_upd by exact Hlt.
        destruct (Nat.eqb_spec (nth i p 0 * c + j) (nth i' p 0 * c + j')) as [Eq|]; [|apply Ha1; assumption].
        exfalso. destruct (idx_inj (c := c) (i := nth i p 0) (j := j) (i' := nth i' p 0) (j' := j')) as [Ep _]; try lia.
        assert (Hi3 : i' < n) by lia. destruct (nthp Hp Hi3) as [Ei3 _]. rewrite <- Ep in Ei3.
        pose proof (NoDup_nth_error_inj (is_perm_NoDup Hp) Ei Ei3). lia.
      * intros j' Hj'. unfold cel. rewrite nth_upd by exact Hlt.
        destruct (Nat.eqb_spec (nth i p 0 * c + j) (nth i p 0 * c + j')) as [Eq|Ne]; [replace j' with j by lia; reflexivity|]. apply Ha2. lia.
    + exists a'. split; [exact E'|]. split; [exact La'|]. intros i' j' Hi'' Hj'. destruct (Nat.eq_dec i' i) as [->|]; [apply Ha2; lia|apply Ha1; lia].
  - rewrite E. cbn [bind]. eexists _, _. split; [reflexivity|]. split; [|auto].
    unfold cor_rel. cbn [csPerm csDelta csOff crA crB crOff rows cols dat].
    repeat (split; [first [assumption|reflexivity]|]). intros i j Hi Hj. symmetry. apply Ha; assumption.
Qed.

Lemma gen_comp_ok n c p sp0 d0 b0 d1 b1 : is_perm n p -> is_perm n sp0 ->
  length d0 = n * c -> length b0 = n * c -> length d1 = n * c -> length b1 = n * c ->
  exists c0 c1, gen_comp p sp0 c d0 b0 d1 b1 = Ok (c0, c1) /\ comp_rel n c c0 c1 /\ comp_perm c0 c1 = p /\
    csOff (cpS c0) = 0 /\ csOff (cpS c1) = 0.
Proof.
  intros Hp H0 L1 L2 L3 L4. unfold gen_comp.
  destruct (perm_inverse_ok H0) as (inv & E1 & Hinv & HI). rewrite E1. cbn [bind].
  destruct (perm_compose_ok Hp Hinv) as (sp1 & E2 & Hs & HS). rewrite E2. cbn [bind].
  destruct (gen_cor_ok H0 L1 L2) as (s0 & r1 & E3 & HR0 & P0 & O0 & _). rewrite E3. cbn [bind].
  destruct (gen_cor_ok Hs L3 L4) as (s1 & r0 & E4 & HR1 & P1 & O1 & _). rewrite E4. cbn [bind fst snd].
  eexists _, _. split; [reflexivity|]. split; [|split; [|split; assumption]].
  - split; [reflexivity|]. split; [reflexivity|]. split; assumption.
  - unfold comp_perm. cbn [cpS]. rewrite P0, P1.
    apply nth_error_ext_len; [rewrite map_length, (is_perm_length Hp), (is_perm_length Hs); reflexivity|].
    rewrite map_length, (is_perm_length Hs). intros i Hi. rewrite nth_error_map.
    destruct (nthp Hp Hi) as [Ep Hl]. rewrite (HS _ _ Ep), Ep. destruct (nthp Hinv Hl) as [Ei Hl']. rewrite Ei. simpl. f_equal.
    assert (K : nth_error sp0 (nth (nth i p 0) inv 0) = Some (nth i p 0)) by (apply HI; auto).
    destruct (nthp H0 Hl') as [K' _]. congruence.
Qed.

Lemma forN_unit_ok (f : nat -> unit -> outcome unit) : forall n i, forN i n f tt = Ok tt <-> forall k, i <= k < i + n -> f k tt = Ok tt.
Proof.
  induction n as [|n IH]; intros i; cbn [forN].
  - split; auto. intros. lia.
  - split.
    + intros H k Hk. apply bind_ok in H. destruct H as ([] & H1 & H2). destruct (Nat.eq_dec k i) as [->|]; [exact H1|].
      apply (proj1 (IH (i + 1)) H2). lia.
    + intros H. rewrite H by lia. cbn [bind]. apply IH. intros k Hk. apply H. lia.
Qed.

Lemma forN_unit_throw (f : nat -> unit -> outcome unit) : forall n i, (forall k, i <= k < i + n -> f k tt = Ok tt \/ f k tt = Throw) ->
  forN i n f tt = Ok tt \/ forN i n f tt = Throw.
Proof.
  induction n as [|n IH]; intros i H; cbn [forN]; [auto|]. destruct (H i) as [->| ->]; [lia| |right; reflexivity].
  cbn [bind]. apply IH. intros k Hk. apply H. lia.
Qed.

(* validation: accepts exactly the good correlations, and throws on the others *)
Lemma validate_iff n c s r : length (csPerm s) = n ->
  rows (csDelta s) = n -> cols (csDelta s) = c -> length (dat (csDelta s)) = n * c ->
  rows (crA r) = n -> cols (crA r) = c -> length (dat (crA r)) = n * c ->
  rows (crB r) = n -> cols (crB r) = c -> length (dat (crB r)) = n * c -> csOff s = crOff r ->
  (cor_rel n c s r -> cor_validate s (dat (crA r)) (dat (crB r)) = Ok tt) /\
  (~ cor_rel n c s r -> cor_validate s (dat (crA r)) (dat (crB r)) = Throw).
Proof.
  intros Lp RD CD LD RA CA LA RB CB LB HO. unfold cor_validate.
  assert (V : perm_validate (csPerm s) = Ok tt <-> is_perm n (csPerm s)).
  { rewrite <- Lp. apply perm_validate_iff. }
  rewrite LA, LB, LD, Nat.eqb_refl, CD, Lp. cbn [negb throw_if bind].
  assert (C : is_perm n (csPerm s) -> forall i j, i < n -> j < c ->
    (do x <- get (dat (crB r)) (i * c + j); do y <- get (dat (csDelta s)) (i * c + j); do p <- get (csPerm s) i;
     do z <- get (dat (crA r)) (p * c + j); throw_if (negb (N.eqb (N.lxor x y) z))) =
    throw_if (negb (N.eqb (N.lxor (cel c (dat (csDelta s)) i j) (cel c (dat (crB r)) i j)) (cel c (dat (crA r)) (nth i (csPerm s) 0) j)))).
  { intros Hp i j Hi Hj. destruct (nthp Hp Hi) as [_ Hl].
    rewrite (getn 0%N (l := dat (crB r))) by (rewrite LB; apply idx_lt; assumption). cbn [bind].
    rewrite (getn 0%N (l := dat (csDelta s))) by (rewrite LD; apply idx_lt; assumption). cbn [bind].
    rewrite (getn 0) by lia. cbn [bind].
    rewrite (getn 0%N (l := dat (crA r))) by (rewrite LA; apply idx_lt; assumption). cbn [bind].
    rewrite N.lxor_comm. reflexivity. }
  split.
  - intros HR. pose proof HR as (Hp & _ & _ & _ & _ & _ & _ & _ & _ & _ & _ & HI). rewrite (proj2 V Hp). cbn [bind].
    apply forN_unit_ok. intros i Hi. apply forN_unit_ok. intros j Hj. rewrite C by (auto; lia). rewrite HI by lia.
    rewrite N.eqb_refl. reflexivity.
  - intros HN. destruct (perm_validate (csPerm s)) as [[]| | |] eqn:EV.
    + cbn [bind]. assert (Hp : is_perm n (csPerm s)) by (apply V; reflexivity).
      match goal with |- forN 0 n ?B tt = _ => destruct (@forN_unit_throw B n 0) as [E|E] end; [|exfalso|exact E].
      * intros i Hi. apply forN_unit_throw. intros j Hj. rewrite C by (auto; lia). destruct (negb _); auto.
      * apply HN. unfold cor_rel. repeat (split; [assumption|]). intros i j Hi Hj.
        rewrite forN_unit_ok in E. specialize (E i ltac:(lia)). rewrite forN_unit_ok in E. specialize (E j ltac:(lia)).
        rewrite C in E by assumption. apply N.eqb_eq. destruct (N.eqb _ _); [reflexivity|discriminate].
    + reflexivity.
    + exfalso. destruct (perm_validate_total (csPerm s)) as [K|K]; congruence.
    + exfalso. destruct (perm_validate_total (csPerm s)) as [K|K]; congruence.
Qed.

(* ---------- generation with the PRF ---------- *)
Lemma points_len idx b : length (gen_points idx b) = length idx * b.
Proof.
  unfold gen_points. rewrite (concat_length (m := b)); [rewrite map_length; reflexivity|].
  intros r Hr. apply in_map_iff in Hr. destruct Hr as (x & <- & _). rewrite map_length. apply seq_length.
Qed.
Lemma points_nth idx b i j : i < length idx -> j < b -> nth (i * b + j) (gen_points idx b) 0%N = mkblock j (nth i idx 0).
Proof.
  intros Hi Hj. unfold gen_points. rewrite nth_concat; [|intros r Hr; apply in_map_iff in Hr; destruct Hr as (x & <- & _); rewrite map_length; apply seq_length|rewrite map_length; assumption|assumption].
  rewrite (nth_map_d _ 0) by assumption. rewrite (nth_map_d _ 0) by (rewrite seq_length; assumption). rewrite seq_nth by assumption. reflexivity.
Qed.

Lemma block_bytes_len l : length (bytes_of_blocks l) = length l * 16.
Proof.
  unfold bytes_of_blocks. rewrite (concat_length (m := 16)); [rewrite map_length; reflexivity|].
  intros r Hr. apply in_map_iff in Hr. destruct Hr as (x & <- & _). reflexivity.
Qed.
Lemma block_bytes_nth l k b : k < length l -> b < 16 ->
  nth (k * 16 + b) (bytes_of_blocks l) 0%N = N.land (N.shiftr (nth k l 0%N) (8 * N.of_nat b)) 255.
Proof.
  intros Hk Hb. unfold bytes_of_blocks. rewrite nth_concat; [|intros r Hr; apply in_map_iff in Hr; destruct Hr as (x & <- & _); reflexivity|rewrite map_length; assumption|assumption].
  rewrite (nth_map_d _ 0%N) by assumption. unfold block_bytes. rewrite (nth_map_d _ 0) by (rewrite seq_length; assumption). rewrite seq_nth by assumption. reflexivity.
Qed.

Lemma joint_none key : length key = 512 -> joint_key None key = key.
Proof.
  intros L. unfold joint_key. apply (nth_ext _ _ false false); [rewrite map_length, seq_length; congruence|].
  intros i Hi. rewrite map_length, seq_length in Hi. rewrite (nth_map_d _ 0) by (rewrite seq_length; exact Hi).
  rewrite seq_nth by exact Hi. cbn [Nat.add share_bit]. apply xorb_false_l.
Qed.

Lemma gen_ok G B A M p fuel cor aes pi n bytes ros sos key so ro : params_ok G A ->
  prf_make G B A = Ok p -> f3_getMatrix 512 256 A = Ok M ->
  0 < n -> 0 < bytes -> is_perm n pi -> length key = 512 -> ots_ok ros sos key -> cor_ok cor (n * ((bytes + 15) / 16)) ->
  altmod_gen fuel p cor aes pi n bytes ros sos key so ro = Hang \/
  exists s r, altmod_gen fuel p cor aes pi n bytes ros sos key so ro = Ok (s, r) /\
    csPerm s = pi /\ csOff s = so /\ crOff r = ro /\
    (so = ro -> cor_rel n (16 * ((bytes + 15) / 16)) s r) /\ bytes <= 16 * ((bytes + 15) / 16) /\
    forall i j y, i < n -> j < (bytes + 15) / 16 -> is_prf G M B key (aes (mkblock j i)) y ->
      forall b, b < 16 -> cel (16 * ((bytes + 15) / 16)) (dat (crA r)) i (16 * j + b) = N.land (N.shiftr y (8 * N.of_nat b)) 255.
Proof.
  intros HP Ep EM Hn Hb Hpi Lk HO HC.
  assert (Hbpr : 0 < (bytes + 15) / 16 /\ bytes <= 16 * ((bytes + 15) / 16)) by (clear - Hb; lia).
  unfold altmod_gen. set (b := (bytes + 15) / 16) in *. clearbody b. pose proof (is_perm_length Hpi) as Lp.
  rewrite (eqbF (a := n) (b := 0)) by (clear - Hn; lia). rewrite Lp, Nat.eqb_refl. cbn [negb throw_if bind].
  assert (L1 : length (map aes (gen_points pi b)) = n * b) by (rewrite map_length, points_len, Lp; reflexivity).
  assert (L2 : length (map aes (gen_points (seq 0 n) b)) = n * b) by (rewrite map_length, points_len, seq_length; reflexivity).
  assert (Hnb : 0 < n * b) by (apply Nat.mul_pos_pos; [exact Hn|apply Hbpr]).
  destruct (run_ro_total fuel None HP Ep EM Hnb L1 HC HO) as [E|(ys & yr & E & Ls & Lr & HY)].
  { left. rewrite E. reflexivity. }
  right. rewrite E. cbn [bind].
  destruct (eval_total Lk HP Ep EM L2) as (ya & E2 & La & HA). rewrite E2. cbn [bind].
  rewrite (joint_none Lk) in HY.
  eexists _, _. split; [reflexivity|]. cbn [csPerm csOff crOff]. split; [reflexivity|]. split; [reflexivity|]. split; [reflexivity|].
  assert (HX : forall i j, i < n -> j < b -> nth (i * b + j) (map aes (gen_points pi b)) 0%N = aes (mkblock j (nth i pi 0))).
  { intros i j Hi Hj. rewrite (nth_map_d _ 0%N) by (rewrite points_len, Lp; apply idx_lt; assumption). rewrite points_nth by (rewrite ?Lp; assumption). reflexivity. }
  assert (HX2 : forall i j, i < n -> j < b -> nth (i * b + j) (map aes (gen_points (seq 0 n) b)) 0%N = aes (mkblock j i)).
  { intros i j Hi Hj. rewrite (nth_map_d _ 0%N) by (rewrite points_len, seq_length; apply idx_lt; assumption). rewrite points_nth by (rewrite ?seq_length; assumption). rewrite seq_nth by assumption. reflexivity. }
  assert (IX : forall i jj, i * (16 * b) + jj = (i * b + jj / 16) * 16 + jj mod 16).
  { intros i jj. rewrite (Nat.div_mod jj 16) at 1 by discriminate. ring. }
  split; [|split; [apply Hbpr|]].
  - intros ->. unfold cor_rel. cbn [csPerm csDelta csOff crA crB crOff rows cols dat].
    split; [exact Hpi|]. split; [reflexivity|]. split; [reflexivity|]. split; [rewrite block_bytes_len, Lr; ring|].
    split; [reflexivity|]. split; [reflexivity|]. split; [rewrite block_bytes_len, La; ring|].
    split; [reflexivity|]. split; [reflexivity|]. split; [rewrite block_bytes_len, Ls; ring|]. split; [reflexivity|].
    intros i jj Hi Hjj. unfold cel. destruct (nthp Hpi Hi) as [_ Hl]. rewrite !IX.
    assert (Hj : jj / 16 < b) by (apply Nat.div_lt_upper_bound; [discriminate|exact Hjj]).
    assert (Hr : jj mod 16 < 16) by (apply Nat.mod_upper_bound; discriminate).
    assert (K1 : i * b + jj / 16 < n * b) by (apply idx_lt; assumption).
    assert (K2 : nth i pi 0 * b + jj / 16 < n * b) by (apply idx_lt; assumption).
    rewrite !block_bytes_nth by (first [rewrite Lr; exact K1|rewrite Ls; exact K1|rewrite La; exact K2|exact Hr]).
    rewrite <- byte_xor. f_equal. f_equal.
    pose proof (HY _ K1) as Y1. rewrite (HX _ _ Hi Hj) in Y1. pose proof (HA _ K2) as Y2. rewrite (HX2 _ _ Hl Hj) in Y2.
    rewrite N.lxor_comm. apply (is_prf_fun Y1 Y2).
  - intros i j y Hi Hj HY1 b' Hb'. unfold cel. cbn [crA dat].
    assert (K : i * b + j < n * b) by (apply idx_lt; assumption).
    replace (i * (16 * b) + (16 * j + b')) with ((i * b + j) * 16 + b') by ring.
    rewrite block_bytes_nth by (first [rewrite La; exact K|exact Hb']). f_equal. f_equal.
    pose proof (HA _ K) as Y2. rewrite (HX2 _ _ Hi Hj) in Y2. apply (is_prf_fun Y2 HY1).
Qed.

Lemma gen_throws fuel p cor aes pi n bytes ros sos key so ro : n = 0 \/ length pi <> n ->
  altmod_gen fuel p cor aes pi n bytes ros sos key so ro = Throw.
Proof.
  intros H. unfold altmod_gen. destruct (Nat.eqb_spec n 0); [reflexivity|]. cbn [throw_if bind].
  rewrite (eqbF (a := length pi) (b := n)) by tauto. reflexivity.
Qed.

(* every cell of the correlation is masked with the PRF at a different point *)
Lemma points_NoDup n b : (N.of_nat n <= 2 ^ 64)%N -> NoDup (gen_points (seq 0 n) b).
Proof.
  intros Hn. apply (NoDup_nth _ 0%N). intros k l Hk Hl E. rewrite points_len, seq_length in Hk, Hl.
  destruct (Nat.eq_dec b 0) as [->|Hb]; [lia|].
  assert (Q : forall k, k < n * b -> k / b < n) by (intros; apply Nat.div_lt_upper_bound; lia).
  assert (R : forall k, k mod b < b) by (intros; apply Nat.mod_upper_bound; exact Hb).
  assert (D : forall k, k = k / b * b + k mod b) by (intros x; rewrite (Nat.div_mod x b Hb) at 1; lia).
  rewrite (D k), (D l) in E. rewrite !points_nth in E by (rewrite ?seq_length; auto).
  rewrite !seq_nth in E by auto. cbn [Nat.add] in E. unfold mkblock in E.
  pose proof (Q _ Hk). pose proof (Q _ Hl). set (k1 := k / b) in *. set (l1 := l / b) in *. set (k2 := k mod b) in *. set (l2 := l mod b) in *.
  assert (k2 = l2 /\ k1 = l1).
  { clearbody k1 k2 l1 l2. clear - E Hn H H0.
    assert (A1 : (N.of_nat k1 < 2 ^ 64)%N) by lia. assert (A2 : (N.of_nat l1 < 2 ^ 64)%N) by lia.
    assert (B1 : ((N.of_nat k2 * 2 ^ 64 + N.of_nat k1) / 2 ^ 64 = N.of_nat k2)%N) by (rewrite N.div_add_l by discriminate; rewrite (N.div_small _ _ A1); apply N.add_0_r).
    assert (B2 : ((N.of_nat l2 * 2 ^ 64 + N.of_nat l1) / 2 ^ 64 = N.of_nat l2)%N) by (rewrite N.div_add_l by discriminate; rewrite (N.div_small _ _ A2); apply N.add_0_r).
    rewrite E in B1. rewrite B1 in B2. split; lia. }
  rewrite (D k), (D l). fold k1 l1 k2 l2. destruct H1 as [-> ->]. reflexivity.
Qed.

Lemma gen_offsets G B A M p fuel cor aes pi n bytes ros sos key so ro s r : params_ok G A ->
  prf_make G B A = Ok p -> f3_getMatrix 512 256 A = Ok M ->
  0 < n -> 0 < bytes -> is_perm n pi -> length key = 512 -> ots_ok ros sos key -> cor_ok cor (n * ((bytes + 15) / 16)) ->
  altmod_gen fuel p cor aes pi n bytes ros sos key so ro = Ok (s, r) -> csOff s = so /\ crOff r = ro.
Proof.
  intros HP Ep EM Hn Hb Hpi Lk HO HC E.
  destruct (gen_ok fuel aes so ro HP Ep EM Hn Hb Hpi Lk HO HC) as [E'|(s' & r' & E' & _ & E1 & E2 & _)]; [congruence|].
  rewrite E in E'. injection E' as <- <-. auto.
Qed.

Lemma zero_cor_rel : cor_rel 2 16 (CorS [1; 0] (zmat 2 16) 0) (CorR (zmat 2 16) (zmat 2 16) 0).
Proof.
  assert (P : is_perm 2 [1; 0]) by (apply (perm_validate_iff [1; 0]); reflexivity).
  unfold cor_rel. repeat (split; [first [exact P|reflexivity]|]). intros i j Hi Hj. cbn [csDelta crA crB dat zmat]. rewrite !cel_zero. reflexivity.
Qed.

(* a loop whose body only succeeds or reads out of bounds, and does so at some index *)
Lemma forN_reach_ub S (P : S -> Prop) (f : nat -> S -> outcome S) k : forall n i s, P s ->
  (forall j s, i <= j < i + n -> P s -> f j s = UB \/ exists s', f j s = Ok s' /\ P s') ->
  (forall s, P s -> f k s = UB) -> i <= k < i + n -> forN i n f s = UB.
Proof.
  induction n as [|n IH]; intros i s HP H Hk Hr; [lia|]. cbn [forN].
  destruct (Nat.eq_dec i k) as [->|Hne]; [rewrite Hk by exact HP; reflexivity|].
  destruct (H i s) as [E|(s' & E & HP')]; [lia|exact HP|rewrite E; reflexivity|]. rewrite E. cbn [bind].
  apply IH; [exact HP'| |exact Hk|lia]. intros j t Hj. apply H. lia.
Qed.

Lemma stale_ub n c r op w x ro : 0 < n -> 0 < w -> (N.of_nat c < 2 ^ 64)%N -> c < crOff r -> (N.of_nat (crOff r + w) < 2 ^ 64)%N ->
  rows (crA r) = n -> cols (crA r) = c -> length (dat (crA r)) = n * c ->
  rows (crB r) = n -> cols (crB r) = c -> length (dat (crB r)) = n * c ->
  rows x = n -> cols x = w -> length (dat x) = n * w -> rows ro = n -> cols ro = w -> length (dat ro) = n * w ->
  cor_recv_apply r op x ro = UB.
Proof.
  intros Hn Hw Hc Ho Ho2 RA CA LA RB CB LB Rx Cx Lx Rr Cr Lr. unfold cor_recv_apply.
  rewrite RA, Rx, Rr, Cx, Cr, CA, !Nat.eqb_refl. cbn [negb orb throw_if bind].
  rewrite (eqbF (a := n) (b := 0)) by lia. cbn [throw_if bind].
  assert (E : (cor_left c (crOff r) <? N.of_nat w)%N = false).
  { unfold cor_left. rewrite N.mod_small by lia. apply N.ltb_ge. lia. }
  rewrite E. cbn [throw_if bind].
  set (enc := match op with Regular => crA r | Inverse => crB r end).
  assert (Ce : cols enc = c) by (unfold enc; destruct op; assumption).
  assert (Le : length (dat enc) = n * c) by (unfold enc; destruct op; assumption).
  rewrite Ce. unfold xorShare.
  assert (BODY : forall i j (s : list N), i < n -> j < w -> length s = n * w ->
     let res := (do a <- get (dat enc) (i * c + crOff r + j); do b <- get (dat x) (i * w + j); set s (i * w + j) (N.lxor a b)) in
     res = UB \/ exists s', res = Ok s' /\ length s' = n * w).
  { intros i j s Hi Hj Ls. cbv zeta.
    assert (G : get (dat enc) (i * c + crOff r + j) = UB \/ exists a, get (dat enc) (i * c + crOff r + j) = Ok a) by (unfold get; destruct (nth_error (dat enc) _); eauto).
    destruct G as [G|[a G]]; rewrite G; cbn [bind]; [left; reflexivity|].
    rewrite (getn 0%N) by (rewrite Lx; apply idx_lt; assumption). cbn [bind]. rewrite set_lt by (rewrite Ls; apply idx_lt; assumption).
    right. eexists. split; [reflexivity|]. rewrite upd_length. exact Ls. }
  match goal with |- bind ?X _ = UB => assert (EX : X = UB); [|rewrite EX; reflexivity] end.
  apply (@forN_reach_ub _ (fun s => length s = n * w)) with (k := n - 1).
  - apply repeat_length.
  - intros i s Hi Ls. destruct (Nat.lt_ge_cases i n) as [Hi'|]; [|lia].
    assert (K : forall m j s, j + m = w -> length s = n * w ->
       let res := forN j m (fun j s => do a <- get (dat enc) (i * c + crOff r + j); do b <- get (dat x) (i * w + j); set s (i * w + j) (N.lxor a b)) s in
       res = UB \/ exists s', res = Ok s' /\ length s' = n * w).
    { induction m as [|m IH]; intros j t Hj Lt; cbn [forN]; [right; exists t; auto|].
      destruct (BODY i j t) as [E1|(t' & E1 & Lt')]; try assumption; [lia| |]; rewrite E1; [left; reflexivity|].
      cbn [bind]. apply IH; [lia|exact Lt']. }
    apply K; [reflexivity|exact Ls].
  - intros s Ls. destruct w as [|w']; [lia|]. cbn [forN].
    replace (get (dat enc) ((n - 1) * c + crOff r + 0)) with (@UB N); [reflexivity|].
    unfold get. rewrite (proj2 (nth_error_None _ _)); [reflexivity|]. rewrite Le. destruct n; [lia|]. simpl. nia.
  - lia.
Qed.

Lemma hist_windows n c : 0 < n -> (N.of_nat c < 2 ^ 64)%N -> forall h1 o h2 o' h3 s r, cor_rel n c s r ->
  Forall (op_ok n) (h1 ++ o :: h2 ++ o' :: h3) -> csOff s + widths (h1 ++ o :: h2 ++ o' :: h3) <= c ->
  exists outs s1 r1 outs' s2 r2,
    cor_hist (s, r) h1 = Ok (outs, (s1, r1)) /\ cor_hist (s, r) (h1 ++ o :: h2) = Ok (outs', (s2, r2)) /\
    csOff s1 = crOff r1 /\ csOff s2 = crOff r2 /\ csOff s1 + op_width o <= csOff s2 /\ csOff s2 + op_width o' <= c.
Proof.
  intros Hn Hc h1 o h2 o' h3 s r HR HF HW.
  rewrite widths_app in HW. cbn [widths fold_right] in HW. fold (widths (h2 ++ o' :: h3)) in HW. rewrite widths_app in HW. cbn [widths fold_right] in HW. fold (widths h3) in HW.
  apply Forall_app in HF. destruct HF as [F1 HF]. apply Forall_cons_iff in HF. destruct HF as [Fo HF]. apply Forall_app in HF. destruct HF as [F2 _].
  destruct (@hist_ok n c Hn Hc h1 s r) as (outs & s1 & r1 & E1 & _ & HR1 & O1 & _); auto; [lia|].
  destruct (@hist_ok n c Hn Hc (h1 ++ o :: h2) s r) as (outs' & s2 & r2 & E2 & _ & HR2 & O2 & _); auto.
  { apply Forall_app. split; [exact F1|]. constructor; assumption. }
  { rewrite widths_app. cbn [widths fold_right]. fold (widths h2). lia. }
  rewrite widths_app in O2. cbn [widths fold_right] in O2. fold (widths h2) in O2.
  exists outs, s1, r1, outs', s2, r2. split; [exact E1|]. split; [exact E2|]. split; [apply HR1|]. split; [apply HR2|]. lia.
Qed.
