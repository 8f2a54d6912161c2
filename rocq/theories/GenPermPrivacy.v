(* Proofs that the messages of a whole sort hide the keys. *)
From Verif Require Import Base Words PermModel PermSpec PermProofs PermCorModel PermCorSpec PermCorProofs CompPermProofs ShuffleModel ShuffleSpec ExtractSpec ExtractPrivacy PrivSpec PermViewModel PermPrivSpec PermPrivacy CompPrivacy.
From Verif Require Import KeyMultModel BitInjModel RadixModel RadixSpec BitInjProofs RadixProofs RadixSortProofs SortViewModel SortPrivSpec OtPrivacy RoundPrivacy RoundHides GenPermViewModel GenPermPrivSpec.

Lemma round_recv S0 R op xs xr a : comp_round S0 R op xs xr = Ok a -> exists m, cor_recv_apply R op xr (zmat (rows xr) (cols xr)) = Ok m.
Proof. unfold comp_round. destruct (cor_recv_apply _ _ _ _) as [m| | |]; try discriminate. eauto. Qed.

Lemma apply_msgs_ok c0 c1 op x0 x1 o0 o1 r : cpIdx c0 = 0 -> cpIdx c1 = 1 -> comp_apply c0 c1 op x0 x1 o0 o1 = Ok r -> exists m, comp_apply_msgs c0 c1 op x0 x1 = Ok m.
Proof.
  intros I0 I1 H. unfold comp_apply in H. destruct (comp_checks c0 x0 o0) as [?| | |]; try discriminate H. destruct (comp_checks c1 x1 o1) as [?| | |]; try discriminate H.
  cbn [bind] in H. unfold comp_roles in H. rewrite I0, I1 in H. unfold comp_apply_msgs. destruct op; cbn [xorb negb Nat.eqb] in H.
  - destruct (comp_round (cpS c0) (cpR c1) Regular x0 x1) as [[[y0 s0] [y1 r1]]| | |] eqn:E; try discriminate H. cbn [bind] in H.
    destruct (comp_round (cpS c1) (cpR c0) Regular y1 y0) as [b| | |] eqn:E'; try discriminate H.
    destruct (round_recv E) as [m1 ->]. destruct (round_recv E') as [m0 E0]. cbn [bind fst]. rewrite E0. cbn [bind]. eauto.
  - destruct (comp_round (cpS c1) (cpR c0) Inverse x1 x0) as [[[y0 s0] [y1 r1]]| | |] eqn:E; try discriminate H. cbn [bind] in H.
    destruct (comp_round (cpS c0) (cpR c1) Inverse y1 y0) as [b| | |] eqn:E'; try discriminate H.
    destruct (round_recv E) as [m1 ->]. destruct (round_recv E') as [m0 E0]. cbn [bind fst]. rewrite E0. cbn [bind]. eauto.
Qed.

Lemma derand_msgs_ok c0 c1 a0 a1 r : comp_derand c0 c1 a0 a1 = Ok r -> exists m, comp_derand_msgs c0 c1 a0 a1 = Ok m.
Proof.
  unfold comp_derand, comp_derand_msgs. destruct (cor_recv_apply _ _ _ _) as [x| | |]; try discriminate. cbn [bind].
  destruct (cor_send_apply_in _ _ _ _ _) as [y| | |]; try discriminate. cbn [bind]. destruct (throw_if _) as [?| | |]; try discriminate. cbn [bind].
  destruct (cor_send_derand _ _) as [z| | |]; try discriminate. cbn [bind]. eauto.
Qed.

(* ---------- one pass ---------- *)
(* shares of a permutation *)
Definition psh (n : nat) (d0 d1 : list N) : Prop := length d0 = n /\ length d1 = n /\ is_perm n (map N.to_nat (xors d0 d1)).
Lemma psh_bound n d0 d1 i : (N.of_nat n <= 2 ^ 32)%N -> psh n d0 d1 -> i < n -> (N.lxor (nth i d0 0%N) (nth i d1 0%N) < 2 ^ 32)%N.
Proof.
  intros Hn (L0 & L1 & HP) Hi. assert (Hin : nth i (map N.to_nat (xors d0 d1)) 0 < n).
  { apply (is_perm_lt HP (i := i)). apply nth_error_nth'. rewrite (is_perm_length HP). exact Hi. }
  rewrite (nth_indep _ 0 (N.to_nat 0%N)) in Hin by (rewrite (is_perm_length HP); exact Hi). rewrite map_nth in Hin.
  unfold xors in Hin. rewrite (@map2_nth _ _ _ N.lxor _ _ i 0%N 0%N) in Hin by lia. lia.
Qed.

(* the digits in the order of the permutation *)
Definition zv (n : nat) (d0 d1 s0 s1 : list N) : list N := map (fun j => nth (pos (map N.to_nat (xors d0 d1)) j) (xors s0 s1) 0%N) (seq 0 n).
Lemma zv_len n d0 d1 s0 s1 : length (zv n d0 d1 s0 s1) = n. Proof. unfold zv. rewrite map_length, seq_length. reflexivity. Qed.

Lemma zv_perm n d0 d1 s0 s1 z : is_perm n (map N.to_nat (xors d0 d1)) -> length (xors s0 s1) = n -> length z = n ->
  permuted Inverse 1 (map N.to_nat (xors d0 d1)) (xors s0 s1) z -> z = zv n d0 d1 s0 s1.
Proof.
  intros HP Ls Lz HPm. destruct HPm as [_ HPm]. apply list_eq_nth with (d := 0%N); [rewrite zv_len; exact Lz|]. rewrite Lz. intros j Hj.
  unfold zv. rewrite nth_map_seq' by exact Hj. cbn [Nat.add]. destruct (pos_perm HP Hj) as [E L].
  assert (Ei : nth_error (map N.to_nat (xors d0 d1)) (pos (map N.to_nat (xors d0 d1)) j) = Some j).
  { rewrite <- E at 2. apply nth_error_nth'. rewrite (is_perm_length HP). exact L. }
  specialize (HPm _ _ Ei). rewrite !row1 in HPm by lia. injection HPm as HPm. exact HPm.
Qed.

Definition hist2 (d0 d1 s0 s1 : list N) : list mop := [MDerand d0 d1; MApply Inverse 1 s0 s1].
Definition hist3 (rho : list N * list N) : list mop := [MApply Regular 4 (bytes_of_u32s (fst rho)) (bytes_of_u32s (snd rho))].
Definition dmsgs (m : list N * (list N * list nat)) : (list cmsg * list cmsg) * (list N * list N) := (([MBytes (fst m)], [MBytes (fst (snd m)); MPerm (snd (snd m))]), ([], [])).
Definition amsgs (m z : list N * list N) : (list cmsg * list cmsg) * (list N * list N) := (([MBytes (fst m)], [MBytes (snd m)]), z).

Lemma bytes_u32 l : bytes (bytes_of_u32s l).
Proof.
  apply Forall_forall. intros x Hx. unfold bytes_of_u32s in Hx. apply in_concat in Hx. destruct Hx as (y & Hy & Hx). apply in_map_iff in Hy. destruct Hy as (v & <- & _).
  unfold u32_bytes in Hx. apply in_map_iff in Hx. destruct Hx as (b & <- & _). change 255%N with (N.ones 8). rewrite N.land_ones. apply N.mod_lt. discriminate.
Qed.

Lemma Ok_inj' A (a b : A) : Ok a = Ok b -> a = b. Proof. congruence. Qed.
Lemma xors_solve n a b : length a = n -> length b = n -> a = xors b (xors a b).
Proof.
  intros La Lb. apply list_eq_nth with (d := 0%N); [rewrite (xors_len Lb (xors_len La Lb)); exact La|]. rewrite La. intros i Hi. unfold xors.
  rewrite (@map2_nth _ _ _ N.lxor _ _ i 0%N 0%N) by (rewrite ?map2_length; lia). rewrite (@map2_nth _ _ _ N.lxor _ _ i 0%N 0%N) by lia. xors.
Qed.
Lemma xors_solve' n a b : length a = n -> length b = n -> b = xors a (xors a b).
Proof.
  intros La Lb. apply list_eq_nth with (d := 0%N); [rewrite (xors_len La (xors_len La Lb)); exact Lb|]. rewrite Lb. intros i Hi. unfold xors.
  rewrite (@map2_nth _ _ _ N.lxor _ _ i 0%N 0%N) by (rewrite ?map2_length; lia). rewrite (@map2_nth _ _ _ N.lxor _ _ i 0%N 0%N) by lia. xors.
Qed.

Lemma trace_app h2 h1 : forall st l, comp_trace st (h1 ++ h2) = Ok l -> comp_trace st h1 = Ok (firstn (length h1) l).
Proof.
  induction h1 as [|o h1 IH]; intros st l H; [reflexivity|]. cbn [app comp_trace length] in *. destruct (comp_step st o) as [x| | |]; try discriminate H. cbn [bind] in *.
  destruct (comp_trace (snd x) (h1 ++ h2)) as [y| | |] eqn:E; try discriminate H. cbn [bind] in H. injection H as <-. rewrite (IH _ _ E). reflexivity.
Qed.

Lemma mv0_view n c c0 c1 h h' : 0 < n -> (N.of_nat c < 2 ^ 64)%N -> comp_bytes c1 -> Forall2 same_for1 h h' -> Forall (mop_ok n) h -> Forall (mop_ok n) h' ->
  crOff (cpR c1) + mwidth0 h <= c -> csOff (cpS c1) + mwidth1 h <= c -> mderands h <= 1 -> comp_rel n c c0 c1 -> comp_bytes c0 ->
  comp_view1 (mv0 n c c1 h h' c0) c1 h' = comp_view1 c0 c1 h.
Proof.
  intros Hn Hc B1 F K K' W0 W1 D R B0. destruct (mv0_ok B1 F K K' (conj R B0)) as [H1 C1].
  destruct R as (I0 & I1 & HR0 & HR1), H1 as [(I0' & _ & HR0' & HR1') _].
  assert (EO : csOff (cpS c0) = crOff (cpR c1)) by (destruct HR0 as (_ & _ & _ & _ & _ & _ & _ & _ & _ & _ & E & _); exact E).
  assert (EP : csPerm (cpS (mv0 n c c1 h h' c0)) = turned n (npair n (csPerm (cpS c1)) h h') (csPerm (cpS c0))) by reflexivity.
  destruct (mv0 n c c1 h h' c0) as [i0' s0' r0']. destruct c0 as [i0 s0 r0], c1 as [i1 s1 r1]. cbn [cpIdx cpS cpR] in *. subst i0 i1 i0'.
  apply (@mtrace1 n c Hn Hc h h' s0 r0 s1 r1 s0' r0' F K K' HR0 HR1 HR0' HR1'); [rewrite EO; exact W0|exact W1|exact D| |].
  + rewrite EP. destruct (npair n (csPerm s1) h h') as [[q q']|]; [reflexivity|exact I].
  + intros i j Hi Hj. rewrite C1 by (try assumption; lia). rewrite EP. reflexivity.
Qed.
Lemma mv1_view n c c0 c1 h h' : 0 < n -> (N.of_nat c < 2 ^ 64)%N -> comp_bytes c0 -> Forall2 same_for0 h h' -> Forall (mop_ok n) h -> Forall (mop_ok n) h' ->
  csOff (cpS c0) + mwidth0 h <= c -> crOff (cpR c0) + mwidth1 h <= c -> mderands h <= 1 -> comp_rel n c c0 c1 -> comp_bytes c1 ->
  comp_view0 c0 (mv1 n c c0 h h' c1) h' = comp_view0 c0 c1 h.
Proof.
  intros Hn Hc B0 F K K' W0 W1 D R B1. destruct (mv1_ok B0 F K K' (conj R B1)) as [H1 C1].
  destruct R as (I0 & I1 & HR0 & HR1), H1 as [(_ & I1' & HR0' & HR1') _].
  assert (EO : csOff (cpS c1) = crOff (cpR c0)) by (destruct HR1 as (_ & _ & _ & _ & _ & _ & _ & _ & _ & _ & E & _); exact E).
  assert (EP : csPerm (cpS (mv1 n c c0 h h' c1)) = turned n (mpair h h') (csPerm (cpS c1))) by reflexivity.
  destruct (mv1 n c c0 h h' c1) as [i1' s1' r1']. destruct c0 as [i0 s0 r0], c1 as [i1 s1 r1]. cbn [cpIdx cpS cpR] in *. subst i0 i1 i1'.
  apply (@mtrace0 n c Hn Hc h h' s0 r0 s1 r1 s1' r1' F K K' HR0 HR1 HR0' HR1'); [exact W0|rewrite EO; exact W1|exact D|rewrite EP; apply turned_spec|].
  intros i j Hi Hj. rewrite C1 by (try assumption; lia). rewrite EP. reflexivity.
Qed.

Section Pass.
Variables (L n cap : nat).
Hypothesis HL : 2 <= L <= 8.
Hypothesis Hcap : 9 <= cap.
Hypothesis Hcap' : (N.of_nat cap < 2 ^ 64)%N.
Hypothesis Hn : 0 < n.
Hypothesis Hn32 : (N.of_nat n <= 2 ^ 32)%N.

Lemma len_keys k : length k = n -> keys_ok L n k.
Proof. intros H. split; [exact H|lia]. Qed.

Lemma step_ok sk0 sk1 d0 d1 c0 c1 rd : comps_ok n cap (c0, c1) -> rround_ok L n rd -> length sk0 = n -> length sk1 = n -> psh n d0 d1 ->
  exists m1 m2 z0 z1 t m3 b0 b1,
    sort_step_v L n n sk0 sk1 d0 d1 ((c0, c1), rd) = Ok (STr m1 m2 (z0, z1) t m3 (u32s_of_bytes n b0, u32s_of_bytes n b1)) /\
    length z0 = n /\ length z1 = n /\ xors z0 z1 = zv n d0 d1 sk0 sk1 /\
    gen_bit_perm_v L n L n 1 z0 z1 rd = Ok t /\ psh n (fst (rvOut t)) (snd (rvOut t)) /\
    psh n (u32s_of_bytes n b0) (u32s_of_bytes n b1) /\
    comp_trace (c0, c1) (hist2 d0 d1 sk0 sk1) = Ok [dmsgs m1; amsgs m2 (z0, z1)] /\
    comp_trace (c0, c1) (hist2 d0 d1 sk0 sk1 ++ hist3 (rvOut t)) = Ok [dmsgs m1; amsgs m2 (z0, z1); amsgs m3 (b0, b1)].
Proof.
  intros (HC & O0 & O1) HRD Ls0 Ls1 HD. cbn [fst snd] in *. pose proof HD as (Ld0 & Ld1 & HP).
  destruct (@comp_derand_ok n cap c0 c1 d0 d1 Hn Hcap' HC ltac:(lia) Ld0 Ld1 (fun i => psh_bound Hn32 HD (i := i)) HP) as (e0 & e1 & E1 & HC1 & HP1 & Oe0 & Oe1).
  destruct (derand_msgs_ok E1) as [m1 M1].
  destruct (@comp_apply_ok n cap e0 e1 Inverse 1 sk0 sk1 (zmat n 1) (zmat n 1) Hn Hcap' HC1 ltac:(lia) ltac:(lia) ltac:(lia) ltac:(lia) eq_refl eq_refl eq_refl eq_refl)
    as (z0 & z1 & g0 & g1 & E2 & Lz0 & Lz1 & HPm & HC2 & HP2 & Og0 & Og1). rewrite Nat.mul_1_r in Lz0, Lz1.
  destruct (apply_msgs_ok (proj1 HC1) (proj1 (proj2 HC1)) E2) as [m2 M2].
  destruct (@round_out L n 1 ltac:(lia) ltac:(lia) Hn32 z0 z1 rd (len_keys Lz0) (len_keys Lz1) HRD) as (t & E3 & _).
  destruct (@round_run L n 1 ltac:(lia) ltac:(lia) Hn32 z0 z1 rd (len_keys Lz0) (len_keys Lz1) HRD) as (r0 & r1 & E3' & Lr0 & Lr1 & [HPr _]).
  rewrite gen_bit_perm_v_eq, E3 in E3'. cbn [bind] in E3'. injection E3' as Et.
  assert (HDr : psh n r0 r1) by (split; [exact Lr0|split; [exact Lr1|exact HPr]]).
  destruct (@compose_ok n cap g0 g1 r0 r1 Hn Hcap' HC2 ltac:(lia) ltac:(lia) Lr0 Lr1 (fun i => psh_bound Hn32 HDr (i := i))) as (y0 & y1 & h0 & h1 & E4 & Ly0 & Ly1 & _ & _ & HY).
  destruct (@comp_apply_ok n cap g0 g1 Regular 4 (bytes_of_u32s r0) (bytes_of_u32s r1) (zmat n 4) (zmat n 4) Hn Hcap' HC2 ltac:(lia) ltac:(lia) ltac:(rewrite bytes_len; lia) ltac:(rewrite bytes_len; lia) eq_refl eq_refl eq_refl eq_refl)
    as (b0 & b1 & f0 & f1 & E5 & Lb0 & Lb1 & _). destruct (apply_msgs_ok (proj1 HC2) (proj1 (proj2 HC2)) E5) as [m3 M3].
  assert (Y : y0 = u32s_of_bytes n b0 /\ y1 = u32s_of_bytes n b1).
  { assert (G := E4). unfold comp_compose in G. rewrite Lr0, Lr1, E5 in G. cbn [bind dat] in G. injection G as G1 _ G2 _. split; symmetry; assumption. }
  destruct Y as [-> ->]. exists m1, m2, z0, z1, t, m3, b0, b1.
  assert (RD : forall a b, comp_rel n cap a b -> rows (csDelta (cpS a)) = n /\ rows (csDelta (cpS b)) = n).
  { intros a b (_ & _ & (_ & A & _) & (_ & B & _)). split; assumption. }
  split; [|split; [exact Lz0|split; [exact Lz1|split; [|split; [exact E3|split; [rewrite Et; exact HDr|split; [|split]]]]]]].
  - unfold sort_step_v. rewrite M1, E1. cbn [bind fst snd]. rewrite M2, E2. cbn [bind dat]. rewrite E3. cbn [bind]. rewrite Et. cbn [fst snd]. rewrite Lr0, Lr1, M3, E4. reflexivity.
  - rewrite HP1 in HPm. apply (zv_perm HP); [apply xors_len; assumption|apply xors_len; assumption|exact HPm].
  - split; [exact Ly0|]. split; [exact Ly1|]. rewrite HP2, HP1 in HY. set (p := map N.to_nat (xors d0 d1)) in *.
    assert (EQ : map N.to_nat (xors (u32s_of_bytes n b0) (u32s_of_bytes n b1)) = map (fun i => nth i (map N.to_nat (xors r0 r1)) 0) p).
    { apply list_eq_nth with (d := 0); [rewrite !map_length, (is_perm_length HP); apply xors_len; assumption|]. intros i Hi. rewrite map_length, (xors_len Ly0 Ly1) in Hi.
      rewrite (@nth_map_d _ _ _ _ i 0%N) by (rewrite (xors_len Ly0 Ly1); exact Hi). rewrite (@nth_map_d _ _ _ _ i 0) by (rewrite (is_perm_length HP); exact Hi).
      assert (Bi : nth i p 0 < n). { apply (is_perm_lt HP (i := i)). apply nth_error_nth'. rewrite (is_perm_length HP). exact Hi. }
      rewrite (@nth_map_d _ _ _ _ _ 0%N) by (rewrite (xors_len Lr0 Lr1); exact Bi). f_equal. unfold xors. rewrite !(@map2_nth _ _ _ N.lxor _ _ _ 0%N 0%N) by lia. apply HY, Hi. }
    rewrite EQ. apply map_nth_perm; assumption.
  - cbn [hist2 comp_trace comp_step]. rewrite M1, E1. cbn [bind fst snd comp_trace comp_step]. destruct (RD _ _ HC1) as [-> ->]. rewrite M2, E2. reflexivity.
  - cbn [hist2 hist3 app comp_trace comp_step]. rewrite M1, E1. cbn [bind fst snd comp_trace comp_step]. destruct (RD _ _ HC1) as [-> ->]. rewrite M2, E2.
    cbn [bind fst snd comp_trace comp_step dat]. destruct (RD _ _ HC2) as [-> ->]. rewrite Et. cbn [fst snd]. rewrite M3, E5. reflexivity.
Qed.

Definition dround : radix_round := Round [] [] [] (HsOts [] [] [] []) [].
Definition dtr : round_tr := RTr ([], []) ([], []) ([], []) ([], []) ([], []).
Definition dstep : step_tr := STr ([], ([], [])) ([], []) ([], []) dtr ([], []) ([], []).

(* party 0 with other digits and another share of the permutation *)
Definition Smv1 (sk0 sk0' sk1 d0 d0' d1 : list N) (x : (comp * comp) * radix_round) : (comp * comp) * radix_round :=
  let '((c0, c1), rd) := x in
  let tr := okd dstep (sort_step_v L n n sk0 sk1 d0 d1 x) in
  let z0 := fst (stZ tr) in
  let z1 := snd (stZ tr) in
  let z0' := xors z1 (zv n d0' d1 sk0' sk1) in
  let rd' := Rmv1 L n 1 z0 z0' z1 rd in
  let rho' := rvOut (okd dtr (gen_bit_perm_v L n L n 1 z0' z1 rd')) in
  ((mv0 n cap c1 (hist2 d0 d1 sk0 sk1 ++ hist3 (rvOut (stR tr))) (hist2 d0' d1 sk0' sk1 ++ hist3 rho') c0, c1), rd').

Lemma hist_ok d0 d1 s0 s1 rho : psh n d0 d1 -> length s0 = n -> length s1 = n -> bytes s0 -> bytes s1 -> psh n (fst rho) (snd rho) ->
  Forall (mop_ok n) (hist2 d0 d1 s0 s1 ++ hist3 rho).
Proof.
  intros HD L0 L1 B0 B1 (R0 & R1 & _). pose proof HD as (D0 & D1 & HP). cbn [hist2 hist3 app]. repeat constructor; cbn [mop_ok].
  - exact D0.
  - exact D1.
  - intros i. apply psh_bound; assumption.
  - apply HP.
  - lia.
  - lia.
  - exact B0.
  - exact B1.
  - rewrite bytes_len. lia.
  - rewrite bytes_len. lia.
  - apply bytes_u32.
  - apply bytes_u32.
Qed.

Lemma rel_off c0 c1 : comp_rel n cap c0 c1 -> csOff (cpS c0) = crOff (cpR c1) /\ csOff (cpS c1) = crOff (cpR c0).
Proof. intros (_ & _ & (_ & _ & _ & _ & _ & _ & _ & _ & _ & _ & A & _) & (_ & _ & _ & _ & _ & _ & _ & _ & _ & _ & B & _)). split; assumption. Qed.

Lemma pass1 sk0 sk0' sk1 d0 d0' d1 x : pass_fits L n cap x -> psh n d0 d1 -> psh n d0' d1 -> length sk0 = n -> length sk0' = n -> length sk1 = n -> bytes sk0 -> bytes sk0' -> bytes sk1 ->
  let x' := Smv1 sk0 sk0' sk1 d0 d0' d1 x in
  exists tr tr', sort_step_v L n n sk0 sk1 d0 d1 x = Ok tr /\ sort_step_v L n n sk0' sk1 d0' d1 x' = Ok tr' /\ step_see1 tr' = step_see1 tr /\
    pass_fits L n cap x' /\ snd (fst x') = snd (fst x) /\ same_half1 (snd x) (snd x') /\
    psh n (fst (stY tr)) (snd (stY tr)) /\ psh n (fst (stY tr')) (snd (stY tr')) /\ Smv1 sk0' sk0 sk1 d0' d0 d1 x' = x.
Proof.
  destruct x as [[c0 c1] rd]. intros (CO & B0 & B1 & RF) HD HD' L0 L0' L1 K0 K0' K1. cbn [fst snd] in CO, B0, B1, RF.
  pose proof CO as (HC & O0 & O1). cbn [fst snd] in HC, O0, O1. destruct (rel_off HC) as [Q0 Q1].
  destruct (@step_ok sk0 sk1 d0 d1 c0 c1 rd CO (proj1 RF) L0 L1 HD) as (m1 & m2 & z0 & z1 & t & m3 & b0 & b1 & E & Lz0 & Lz1 & EZ & ET & HR & HY & _ & T3).
  set (z0' := xors z1 (zv n d0' d1 sk0' sk1)). assert (Lz0' : length z0' = n) by (apply xors_len; [exact Lz1|apply zv_len]).
  destruct (@Rmv1_spec L n 1 ltac:(lia) ltac:(lia) Hn32 z0 z0' z1 rd (len_keys Lz0) (len_keys Lz0') (len_keys Lz1) RF) as (RF' & RS & RI & RV).
  set (rd' := Rmv1 L n 1 z0 z0' z1 rd) in *.
  destruct (@round_out L n 1 ltac:(lia) ltac:(lia) Hn32 z0' z1 rd' (len_keys Lz0') (len_keys Lz1) (proj1 RF')) as (t' & ET' & _).
  destruct (@round_run L n 1 ltac:(lia) ltac:(lia) Hn32 z0' z1 rd' (len_keys Lz0') (len_keys Lz1) (proj1 RF')) as (r0 & r1 & ER' & Lr0 & Lr1 & [HPr _]).
  rewrite gen_bit_perm_v_eq, ET' in ER'. cbn [bind] in ER'. assert (Er : rvOut t' = (r0, r1)) by (clear - ER'; congruence). clear ER'.
  assert (HR' : psh n (fst (rvOut t')) (snd (rvOut t'))) by (rewrite Er; split; [exact Lr0|split; [exact Lr1|exact HPr]]).
  unfold round_view1 in RV. rewrite ET, ET' in RV. cbn [bind] in RV. assert (RV' : see1 t' = see1 t) by (clear - RV; congruence). clear RV.
  assert (Eo : snd (rvOut t') = snd (rvOut t)) by (exact (f_equal snd RV')).
  cbv zeta. set (h := hist2 d0 d1 sk0 sk1 ++ hist3 (rvOut t)). set (h' := hist2 d0' d1 sk0' sk1 ++ hist3 (rvOut t')).
  assert (ES : Smv1 sk0 sk0' sk1 d0 d0' d1 ((c0, c1), rd) = ((mv0 n cap c1 h h' c0, c1), rd')).
  { unfold Smv1. rewrite E. cbn [okd stZ stR fst snd]. fold z0'. fold rd'. rewrite ET'. reflexivity. }
  rewrite ES. cbn [fst snd].
  assert (F : Forall2 same_for1 h h') by (unfold h, h', hist2, hist3; cbn [app]; rewrite Eo; repeat constructor).
  assert (K : Forall (mop_ok n) h) by (apply hist_ok; assumption). assert (K' : Forall (mop_ok n) h') by (apply hist_ok; assumption).
  destruct (mv0_ok B1 F K K' (conj HC B0)) as [[HC' B0'] _].
  assert (VW : comp_view1 (mv0 n cap c1 h h' c0) c1 h' = comp_view1 c0 c1 h).
  { apply mv0_view; try assumption; [rewrite <- Q0, O0|rewrite O1|]; cbn; lia. }
  assert (INV := @mv0_inv n cap c1 h h' c0 B1 F K K' (conj HC B0)).
  set (c0' := mv0 n cap c1 h h' c0) in *.
  assert (CO' : comps_ok n cap (c0', c1)) by (destruct (rel_off HC') as [A _]; split; [exact HC'|split; [cbn [fst]; congruence|exact O1]]).
  destruct (@step_ok sk0' sk1 d0' d1 c0' c1 rd' CO' (proj1 RF') L0' L1 HD') as (n1 & n2 & w0 & w1 & u & n3 & e0 & e1 & E' & Lw0 & Lw1 & EW & EU & _ & HY' & T2' & T3').
  unfold comp_view1 in VW. fold h in T3. rewrite T3 in VW. cbn [bind map] in VW.
  destruct (comp_trace (c0', c1) h') as [l'| | |] eqn:TL; try discriminate VW. cbn [bind] in VW.
  assert (VL : map (fun m : list cmsg * list cmsg * (list N * list N) => (snd (fst m), snd (snd m))) l' = [(snd (fst (dmsgs m1)), snd (snd (dmsgs m1))); (snd (fst (amsgs m2 (z0, z1))), z1); (snd (fst (amsgs m3 (b0, b1))), b1)]) by (exact (Ok_inj' VW)). clear VW.
  assert (T2 := @trace_app (hist3 (rvOut t')) (hist2 d0' d1 sk0' sk1) (c0', c1) l' TL). rewrite T2' in T2.
  assert (T2q : firstn 2 l' = [dmsgs n1; amsgs n2 (w0, w1)]) by (clear - T2; cbn [hist2 length] in T2; congruence). clear T2.
  assert (V2 := f_equal (firstn 2) VL). rewrite firstn_map, T2q in V2. cbn [map firstn dmsgs amsgs fst snd] in V2. injection V2 as V21 V22 V23 V24.
  assert (Ew : w1 = z1) by congruence. subst w1.
  assert (Ew0 : w0 = z0') by (unfold z0'; rewrite <- EW; apply (xors_solve Lw0 Lz1)). subst w0.
  rewrite ET' in EU. assert (u = t') as -> by (clear - EU; congruence). fold h' in T3'. rewrite T3' in TL.
  assert (TLq : l' = [dmsgs n1; amsgs n2 (z0', z1); amsgs n3 (e0, e1)]) by (clear - TL; congruence). rewrite TLq in VL. cbn [map dmsgs amsgs fst snd] in VL.
  injection VL as _ _ _ V31 V32.
  exists (STr m1 m2 (z0, z1) t m3 (u32s_of_bytes n b0, u32s_of_bytes n b1)), (STr n1 n2 (z0', z1) t' n3 (u32s_of_bytes n e0, u32s_of_bytes n e1)).
  split; [exact E|]. split; [exact E'|]. split.
  { unfold step_see1. cbn [stD stA stZ stR stC stY fst snd]. rewrite RV'. clear - V21 V22 V23 V31 V32. destruct n1 as [? [? ?]], m1 as [? [? ?]], n2, m2, n3, m3. cbn [fst snd] in *. congruence. }
  split; [split; [exact CO'|split; [exact B0'|split; [exact B1|exact RF']]]|]. split; [reflexivity|]. split; [exact RS|]. cbn [stY fst snd]. split; [exact HY|]. split; [exact HY'|].
  unfold Smv1. rewrite E'. cbn [okd stZ stR fst snd]. rewrite <- EZ, <- (xors_solve Lz0 Lz1), RI, ET. cbn [okd]. fold h. fold h'. rewrite INV. reflexivity.
Qed.

(* party 1 with other digits and another share of the permutation *)
Definition Smv0 (sk0 sk1 sk1' d0 d1 d1' : list N) (x : (comp * comp) * radix_round) : (comp * comp) * radix_round :=
  let '((c0, c1), rd) := x in
  let tr := okd dstep (sort_step_v L n n sk0 sk1 d0 d1 x) in
  let z0 := fst (stZ tr) in
  let z1 := snd (stZ tr) in
  let z1' := xors z0 (zv n d0 d1' sk0 sk1') in
  let rd' := Rmv0 L n z0 z1 z1' rd in
  let rho' := rvOut (okd dtr (gen_bit_perm_v L n L n 1 z0 z1' rd')) in
  ((c0, mv1 n cap c0 (hist2 d0 d1 sk0 sk1 ++ hist3 (rvOut (stR tr))) (hist2 d0 d1' sk0 sk1' ++ hist3 rho') c1), rd').

Lemma pass0 sk0 sk1 sk1' d0 d1 d1' x : pass_fits L n cap x -> psh n d0 d1 -> psh n d0 d1' -> length sk0 = n -> length sk1 = n -> length sk1' = n -> bytes sk0 -> bytes sk1 -> bytes sk1' ->
  let x' := Smv0 sk0 sk1 sk1' d0 d1 d1' x in
  exists tr tr', sort_step_v L n n sk0 sk1 d0 d1 x = Ok tr /\ sort_step_v L n n sk0 sk1' d0 d1' x' = Ok tr' /\ step_see0 tr' = step_see0 tr /\
    pass_fits L n cap x' /\ fst (fst x') = fst (fst x) /\ same_half0 (snd x) (snd x') /\
    psh n (fst (stY tr)) (snd (stY tr)) /\ psh n (fst (stY tr')) (snd (stY tr')) /\ Smv0 sk0 sk1' sk1 d0 d1' d1 x' = x.
Proof.
  destruct x as [[c0 c1] rd]. intros (CO & B0 & B1 & RF) HD HD' L0 L1 L1' K0 K1 K1'. cbn [fst snd] in CO, B0, B1, RF.
  pose proof CO as (HC & O0 & O1). cbn [fst snd] in HC, O0, O1. destruct (rel_off HC) as [Q0 Q1].
  destruct (@step_ok sk0 sk1 d0 d1 c0 c1 rd CO (proj1 RF) L0 L1 HD) as (m1 & m2 & z0 & z1 & t & m3 & b0 & b1 & E & Lz0 & Lz1 & EZ & ET & HR & HY & _ & T3).
  set (z1' := xors z0 (zv n d0 d1' sk0 sk1')). assert (Lz1' : length z1' = n) by (apply xors_len; [exact Lz0|apply zv_len]).
  destruct (@Rmv0_spec L n 1 ltac:(lia) ltac:(lia) Hn32 z0 z1 z1' rd (len_keys Lz0) (len_keys Lz1) (len_keys Lz1') RF) as (RF' & RS & RI & RV).
  set (rd' := Rmv0 L n z0 z1 z1' rd) in *.
  destruct (@round_out L n 1 ltac:(lia) ltac:(lia) Hn32 z0 z1' rd' (len_keys Lz0) (len_keys Lz1') (proj1 RF')) as (t' & ET' & _).
  destruct (@round_run L n 1 ltac:(lia) ltac:(lia) Hn32 z0 z1' rd' (len_keys Lz0) (len_keys Lz1') (proj1 RF')) as (r0 & r1 & ER' & Lr0 & Lr1 & [HPr _]).
  rewrite gen_bit_perm_v_eq, ET' in ER'. cbn [bind] in ER'. assert (Er : rvOut t' = (r0, r1)) by (clear - ER'; congruence). clear ER'.
  assert (HR' : psh n (fst (rvOut t')) (snd (rvOut t'))) by (rewrite Er; split; [exact Lr0|split; [exact Lr1|exact HPr]]).
  unfold round_view0 in RV. rewrite ET, ET' in RV. cbn [bind] in RV. assert (RV' : see0 t' = see0 t) by (clear - RV; congruence). clear RV.
  assert (Eo : fst (rvOut t') = fst (rvOut t)) by (exact (f_equal snd RV')).
  cbv zeta. set (h := hist2 d0 d1 sk0 sk1 ++ hist3 (rvOut t)). set (h' := hist2 d0 d1' sk0 sk1' ++ hist3 (rvOut t')).
  assert (ES : Smv0 sk0 sk1 sk1' d0 d1 d1' ((c0, c1), rd) = ((c0, mv1 n cap c0 h h' c1), rd')).
  { unfold Smv0. rewrite E. cbn [okd stZ stR fst snd]. fold z1'. fold rd'. rewrite ET'. reflexivity. }
  rewrite ES. cbn [fst snd].
  assert (F : Forall2 same_for0 h h') by (unfold h, h', hist2, hist3; cbn [app]; rewrite Eo; repeat constructor).
  assert (K : Forall (mop_ok n) h) by (apply hist_ok; assumption). assert (K' : Forall (mop_ok n) h') by (apply hist_ok; assumption).
  destruct (mv1_ok B0 F K K' (conj HC B1)) as [[HC' B1'] _].
  assert (D1 : mderands h <= 1) by (cbn; lia).
  assert (VW : comp_view0 c0 (mv1 n cap c0 h h' c1) h' = comp_view0 c0 c1 h).
  { apply mv1_view; try assumption; [rewrite O0|rewrite <- Q1, O1]; cbn; lia. }
  assert (INV := @mv1_inv n cap c0 h h' c1 B0 F K K' D1 (conj HC B1)).
  set (c1' := mv1 n cap c0 h h' c1) in *.
  assert (CO' : comps_ok n cap (c0, c1')) by (destruct (rel_off HC') as [_ A]; split; [exact HC'|split; [exact O0|cbn [snd]; congruence]]).
  destruct (@step_ok sk0 sk1' d0 d1' c0 c1' rd' CO' (proj1 RF') L0 L1' HD') as (n1 & n2 & w0 & w1 & u & n3 & e0 & e1 & E' & Lw0 & Lw1 & EW & EU & _ & HY' & T2' & T3').
  unfold comp_view0 in VW. fold h in T3. rewrite T3 in VW. cbn [bind map] in VW.
  destruct (comp_trace (c0, c1') h') as [l'| | |] eqn:TL; try discriminate VW. cbn [bind] in VW.
  assert (VL : map (fun m : list cmsg * list cmsg * (list N * list N) => (fst (fst m), fst (snd m))) l' = [(fst (fst (dmsgs m1)), fst (snd (dmsgs m1))); (fst (fst (amsgs m2 (z0, z1))), z0); (fst (fst (amsgs m3 (b0, b1))), b0)]) by (exact (Ok_inj' VW)). clear VW.
  assert (T2 := @trace_app (hist3 (rvOut t')) (hist2 d0 d1' sk0 sk1') (c0, c1') l' TL). rewrite T2' in T2.
  assert (T2q : firstn 2 l' = [dmsgs n1; amsgs n2 (w0, w1)]) by (clear - T2; cbn [hist2 length] in T2; congruence). clear T2.
  assert (V2 := f_equal (firstn 2) VL). rewrite firstn_map, T2q in V2. cbn [map firstn dmsgs amsgs fst snd] in V2. injection V2 as V21 V22 V23.
  assert (Ew : w0 = z0) by congruence. subst w0.
  assert (Ew1 : w1 = z1') by (unfold z1'; rewrite <- EW; apply (xors_solve' Lz0 Lw1)). subst w1.
  rewrite ET' in EU. assert (u = t') as -> by (clear - EU; congruence). fold h' in T3'. rewrite T3' in TL.
  assert (TLq : l' = [dmsgs n1; amsgs n2 (z0, z1'); amsgs n3 (e0, e1)]) by (clear - TL; congruence). rewrite TLq in VL. cbn [map dmsgs amsgs fst snd] in VL.
  injection VL as _ _ V31 V32.
  exists (STr m1 m2 (z0, z1) t m3 (u32s_of_bytes n b0, u32s_of_bytes n b1)), (STr n1 n2 (z0, z1') t' n3 (u32s_of_bytes n e0, u32s_of_bytes n e1)).
  split; [exact E|]. split; [exact E'|]. split.
  { unfold step_see0. cbn [stD stA stZ stR stC stY fst snd]. rewrite RV'. clear - V21 V22 V31 V32. destruct n1 as [? [? ?]], m1 as [? [? ?]], n2, m2, n3, m3. cbn [fst snd] in *. congruence. }
  split; [split; [exact CO'|split; [exact B0|split; [exact B1'|exact RF']]]|]. split; [reflexivity|]. split; [exact RS|]. cbn [stY fst snd]. split; [exact HY|]. split; [exact HY'|].
  unfold Smv0. rewrite E'. cbn [okd stZ stR fst snd]. rewrite <- EZ, <- (xors_solve' Lz0 Lz1), RI, ET. cbn [okd]. fold h. fold h'. rewrite INV. reflexivity.
Qed.

(* ---------- all passes ---------- *)
Variable c : nat.
Definition dig (k : list N) (kIdx : nat) : list N := map (fun i => part kIdx L (keyn c k i)) (seq 0 n).
Lemma dig_len k kIdx : length (dig k kIdx) = n. Proof. unfold dig. rewrite map_length, seq_length. reflexivity. Qed.
Lemma dig_bytes k kIdx : bytes (dig k kIdx).
Proof.
  apply Forall_forall. intros x Hx. apply in_map_iff in Hx. destruct Hx as (i & <- & _). eapply N.lt_le_trans; [apply part_lt|].
  change 256%N with (2 ^ 8)%N. apply N.pow_le_mono_r; [discriminate|lia].
Qed.

Definition key_fits (k : list N) : Prop := bytes k /\ length k = n * c.

Fixpoint Lmv1 (k0 k0' k1 : list N) (kIdx : nat) (rds : list ((comp * comp) * radix_round)) (d0 d0' d1 : list N) : list ((comp * comp) * radix_round) :=
  match rds with
  | [] => []
  | x :: rds =>
    let x' := Smv1 (dig k0 kIdx) (dig k0' kIdx) (dig k1 kIdx) d0 d0' d1 x in
    let y := stY (okd dstep (sort_step_v L n n (dig k0 kIdx) (dig k1 kIdx) d0 d1 x)) in
    let y' := stY (okd dstep (sort_step_v L n n (dig k0' kIdx) (dig k1 kIdx) d0' d1 x')) in
    x' :: Lmv1 k0 k0' k1 (kIdx + L) rds (fst y) (fst y') (snd y)
  end.
Fixpoint Lmv0 (k0 k1 k1' : list N) (kIdx : nat) (rds : list ((comp * comp) * radix_round)) (d0 d1 d1' : list N) : list ((comp * comp) * radix_round) :=
  match rds with
  | [] => []
  | x :: rds =>
    let x' := Smv0 (dig k0 kIdx) (dig k1 kIdx) (dig k1' kIdx) d0 d1 d1' x in
    let y := stY (okd dstep (sort_step_v L n n (dig k0 kIdx) (dig k1 kIdx) d0 d1 x)) in
    let y' := stY (okd dstep (sort_step_v L n n (dig k0 kIdx) (dig k1' kIdx) d0 d1' x')) in
    x' :: Lmv0 k0 k1 k1' (kIdx + L) rds (fst y) (snd y) (snd y')
  end.

Lemma loop1 k0 k0' k1 : key_fits k0 -> key_fits k0' -> key_fits k1 -> forall rds kIdx d0 d0' d1, kIdx + (length rds - 1) * L < 8 * c \/ rds = [] ->
  Forall (pass_fits L n cap) rds -> psh n d0 d1 -> psh n d0' d1 ->
  let rds' := Lmv1 k0 k0' k1 kIdx rds d0 d0' d1 in
  exists t t', gen_perm_loop_v L n n c k0 k1 kIdx rds d0 d1 = Ok t /\ gen_perm_loop_v L n n c k0' k1 kIdx rds' d0' d1 = Ok t' /\
    map step_see1 (fst t') = map step_see1 (fst t) /\ snd (snd t') = snd (snd t) /\ Forall (pass_fits L n cap) rds' /\
    Forall2 (fun x0 x => snd (fst x) = snd (fst x0) /\ same_half1 (snd x0) (snd x)) rds rds' /\ Lmv1 k0' k0 k1 kIdx rds' d0' d0 d1 = rds.
Proof.
  intros [B0 L0] [B0' L0'] [B1 L1]. induction rds as [|x rds IH]; intros kIdx d0 d0' d1 Hk HR HD HD' rds'.
  - eexists _, _. split; [reflexivity|]. split; [reflexivity|]. repeat split; constructor.
  - destruct Hk as [Hk|Hk]; [|discriminate]. cbn [length] in Hk. apply Forall_cons_iff in HR. destruct HR as [HX HR].
    destruct (pass1 HX HD HD' (dig_len k0 kIdx) (dig_len k0' kIdx) (dig_len k1 kIdx) (dig_bytes k0 kIdx) (dig_bytes k0' kIdx) (dig_bytes k1 kIdx))
      as (tr & tr' & E & E' & ES & PX & P1 & P2 & HY & HY' & PI).
    assert (EY : snd (stY tr') = snd (stY tr)) by exact (f_equal snd ES). rewrite EY in HY'.
    destruct (IH (kIdx + L) (fst (stY tr)) (fst (stY tr')) (snd (stY tr))) as (t & t' & G & G' & S1 & S2 & F & F2 & GI); [|exact HR|exact HY|exact HY'|].
    { destruct rds as [|y rds]; [right; reflexivity|left]. cbn [length] in *. lia. }
    unfold rds'. cbn [Lmv1]. rewrite E, E'. cbn [okd]. cbn [gen_perm_loop_v]. rewrite !extract_ok by (assumption || lia).
    fold (dig k0 kIdx). fold (dig k1 kIdx). fold (dig k0' kIdx). cbn [bind]. rewrite E, E'. cbn [bind]. rewrite EY, G, G'. cbn [bind].
    eexists _, _. split; [reflexivity|]. split; [reflexivity|]. cbn [fst snd map]. rewrite ES, S1. split; [reflexivity|]. split; [exact S2|].
    split; [constructor; assumption|]. split; [constructor; [split; assumption|exact F2]|]. rewrite PI, E. cbn [okd]. rewrite ?EY, GI. reflexivity.
Qed.

Lemma loop0 k0 k1 k1' : key_fits k0 -> key_fits k1 -> key_fits k1' -> forall rds kIdx d0 d1 d1', kIdx + (length rds - 1) * L < 8 * c \/ rds = [] ->
  Forall (pass_fits L n cap) rds -> psh n d0 d1 -> psh n d0 d1' ->
  let rds' := Lmv0 k0 k1 k1' kIdx rds d0 d1 d1' in
  exists t t', gen_perm_loop_v L n n c k0 k1 kIdx rds d0 d1 = Ok t /\ gen_perm_loop_v L n n c k0 k1' kIdx rds' d0 d1' = Ok t' /\
    map step_see0 (fst t') = map step_see0 (fst t) /\ fst (snd t') = fst (snd t) /\ Forall (pass_fits L n cap) rds' /\
    Forall2 (fun x0 x => fst (fst x) = fst (fst x0) /\ same_half0 (snd x0) (snd x)) rds rds' /\ Lmv0 k0 k1' k1 kIdx rds' d0 d1' d1 = rds.
Proof.
  intros [B0 L0] [B1 L1] [B1' L1']. induction rds as [|x rds IH]; intros kIdx d0 d1 d1' Hk HR HD HD' rds'.
  - eexists _, _. split; [reflexivity|]. split; [reflexivity|]. repeat split; constructor.
  - destruct Hk as [Hk|Hk]; [|discriminate]. cbn [length] in Hk. apply Forall_cons_iff in HR. destruct HR as [HX HR].
    destruct (pass0 HX HD HD' (dig_len k0 kIdx) (dig_len k1 kIdx) (dig_len k1' kIdx) (dig_bytes k0 kIdx) (dig_bytes k1 kIdx) (dig_bytes k1' kIdx))
      as (tr & tr' & E & E' & ES & PX & P1 & P2 & HY & HY' & PI).
    assert (EY : fst (stY tr') = fst (stY tr)) by exact (f_equal snd ES). rewrite EY in HY'.
    destruct (IH (kIdx + L) (fst (stY tr)) (snd (stY tr)) (snd (stY tr'))) as (t & t' & G & G' & S1 & S2 & F & F2 & GI); [|exact HR|exact HY|exact HY'|].
    { destruct rds as [|y rds]; [right; reflexivity|left]. cbn [length] in *. lia. }
    unfold rds'. cbn [Lmv0]. rewrite E, E'. cbn [okd]. cbn [gen_perm_loop_v]. rewrite !extract_ok by (assumption || lia).
    fold (dig k0 kIdx). fold (dig k1 kIdx). fold (dig k1' kIdx). cbn [bind]. rewrite E, E'. cbn [bind]. rewrite EY, G, G'. cbn [bind].
    eexists _, _. split; [reflexivity|]. split; [reflexivity|]. cbn [fst snd map]. rewrite ES, S1. split; [reflexivity|]. split; [exact S2|].
    split; [constructor; assumption|]. split; [constructor; [split; assumption|exact F2]|]. rewrite PI, E. cbn [okd]. rewrite ?EY, GI. reflexivity.
Qed.
End Pass.

(* ---------- the whole sort ---------- *)
Definition sort_ok (L bits n cap c : nat) : Prop :=
  9 <= cap /\ (N.of_nat cap < 2 ^ 64)%N /\ (2 <= L <= 8 \/ L = 1 /\ bits = 1) /\ 0 < bits <= 8 * c /\ 0 < n /\ (N.of_nat n <= 2 ^ 32)%N.

Definition Gmv1 (L n cap c : nat) (k0 k0' k1 : list N) (R : radix_round * list ((comp * comp) * radix_round)) :=
  let rd' := Rmv1 L n 1 (dig L n c k0 0) (dig L n c k0' 0) (dig L n c k1 0) (fst R) in
  let d := rvOut (okd dtr (gen_bit_perm_v L n L n 1 (dig L n c k0 0) (dig L n c k1 0) (fst R))) in
  let d' := rvOut (okd dtr (gen_bit_perm_v L n L n 1 (dig L n c k0' 0) (dig L n c k1 0) rd')) in
  (rd', Lmv1 L n cap c k0 k0' k1 L (snd R) (fst d) (fst d') (snd d)).
Definition Gmv0 (L n cap c : nat) (k0 k1 k1' : list N) (R : radix_round * list ((comp * comp) * radix_round)) :=
  let rd' := Rmv0 L n (dig L n c k0 0) (dig L n c k1 0) (dig L n c k1' 0) (fst R) in
  let d := rvOut (okd dtr (gen_bit_perm_v L n L n 1 (dig L n c k0 0) (dig L n c k1 0) (fst R))) in
  let d' := rvOut (okd dtr (gen_bit_perm_v L n L n 1 (dig L n c k0 0) (dig L n c k1' 0) rd')) in
  (rd', Lmv0 L n cap c k0 k1 k1' L (snd R) (fst d) (snd d) (snd d')).

Lemma dig_keys L n c k kIdx : keys_ok L n (dig L n c k kIdx).
Proof.
  split; [apply dig_len|]. intros ->. apply Forall_forall. intros x Hx. apply in_map_iff in Hx. destruct Hx as (i & <- & _). apply (@part_lt kIdx 1).
Qed.

Lemma first_round L n s0 s1 rd : 0 < L <= 8 -> (N.of_nat n <= 2 ^ 32)%N -> keys_ok L n s0 -> keys_ok L n s1 -> round_fits L n rd ->
  exists t, gen_bit_perm_v L n L n 1 s0 s1 rd = Ok t /\ psh n (fst (rvOut t)) (snd (rvOut t)).
Proof.
  intros HL Hn K0 K1 RF. destruct (@round_out L n 1 ltac:(lia) ltac:(lia) Hn s0 s1 rd K0 K1 (proj1 RF)) as (t & ET & _).
  destruct (@round_run L n 1 ltac:(lia) ltac:(lia) Hn s0 s1 rd K0 K1 (proj1 RF)) as (r0 & r1 & ER & Lr0 & Lr1 & [HPr _]).
  rewrite gen_bit_perm_v_eq, ET in ER. cbn [bind] in ER. exists t. split; [exact ET|]. injection ER as ->. split; [exact Lr0|split; [exact Lr1|exact HPr]].
Qed.

Lemma rounds_bound L bits c (rds : list ((comp * comp) * radix_round)) : 0 < L -> 0 < bits <= 8 * c -> length rds = div_ceil bits L - 1 -> L + (length rds - 1) * L < 8 * c \/ rds = [].
Proof.
  intros HL Hb Hlen. destruct (@ceil_bound bits L HL) as [H1 H2]. specialize (H2 ltac:(lia)). destruct rds as [|x rds]; [right; reflexivity|left]. cbn [length] in *. nia.
Qed.

Lemma sort1 L bits n cap c k0 k0' k1 R : sort_ok L bits n cap c -> key_fits n c k0 -> key_fits n c k0' -> key_fits n c k1 -> length (snd R) = div_ceil bits L - 1 -> sort_fits L n cap R ->
  let R' := Gmv1 L n cap c k0 k0' k1 R in
  exists t t', gen_perm_v L n bits bits n c k0 k1 (fst R) (snd R) = Ok t /\ gen_perm_v L n bits bits n c k0' k1 (fst R') (snd R') = Ok t' /\
    sort_view1 L bits n c k0' k1 R' = sort_view1 L bits n c k0 k1 R /\ sort_fits L n cap R' /\ same_sort1 R R' /\ Gmv1 L n cap c k0' k0 k1 R' = R.
Proof.
  intros (Hcap & Hcap' & HL & Hb & Hn & Hn32) K0 K0' K1 Hlen [RF RP] R'. destruct R as [rd rds]. cbn [fst snd] in *. assert (HL8 : 0 < L <= 8) by lia.
  pose proof (dig_keys L n c k0 0) as D0. pose proof (dig_keys L n c k0' 0) as D0'. pose proof (dig_keys L n c k1 0) as D1.
  destruct (@Rmv1_spec L n 1 ltac:(lia) ltac:(lia) Hn32 _ _ _ rd D0 D0' D1 RF) as (RF' & RS & RI & RV).
  destruct (first_round HL8 Hn32 D0 D1 RF) as (u & EU & PU). destruct (first_round HL8 Hn32 D0' D1 RF') as (u' & EU' & PU').
  unfold round_view1 in RV. rewrite EU, EU' in RV. cbn [bind] in RV. assert (RV' : see1 u' = see1 u) by exact (Ok_inj' RV). clear RV.
  assert (Eo : snd (rvOut u') = snd (rvOut u)) by exact (f_equal snd RV'). rewrite Eo in PU'.
  assert (LP : let rds' := Lmv1 L n cap c k0 k0' k1 L rds (fst (rvOut u)) (fst (rvOut u')) (snd (rvOut u)) in
    exists t t', gen_perm_loop_v L n n c k0 k1 L rds (fst (rvOut u)) (snd (rvOut u)) = Ok t /\ gen_perm_loop_v L n n c k0' k1 L rds' (fst (rvOut u')) (snd (rvOut u)) = Ok t' /\
    map step_see1 (fst t') = map step_see1 (fst t) /\ snd (snd t') = snd (snd t) /\ Forall (pass_fits L n cap) rds' /\
    Forall2 (fun x0 x => snd (fst x) = snd (fst x0) /\ same_half1 (snd x0) (snd x)) rds rds' /\ Lmv1 L n cap c k0' k0 k1 L rds' (fst (rvOut u')) (fst (rvOut u)) (snd (rvOut u)) = rds).
  { destruct HL as [HL|[-> ->]].
    - apply loop1; try assumption. apply (rounds_bound (proj1 HL8) Hb Hlen).
    - destruct rds as [|x rds]; [|discriminate Hlen]. cbv zeta. cbn [Lmv1 gen_perm_loop_v]. eexists _, _. split; [reflexivity|]. split; [reflexivity|]. repeat split; constructor. }
  destruct LP as (t & t' & G & G' & S1 & S2 & F & F2 & GI).
  assert (EL : forall rds', Forall2 (fun x0 x : comp * comp * radix_round => snd (fst x) = snd (fst x0) /\ same_half1 (snd x0) (snd x)) rds rds' -> length rds' = length rds).
  { intros l H. symmetry. clear - H. induction H; cbn [length]; congruence. }
  assert (ER : R' = (Rmv1 L n 1 (dig L n c k0 0) (dig L n c k0' 0) (dig L n c k1 0) rd, Lmv1 L n cap c k0 k0' k1 L rds (fst (rvOut u)) (fst (rvOut u')) (snd (rvOut u)))).
  { unfold R', Gmv1. cbn [fst snd]. rewrite EU, EU'. reflexivity. }
  destruct (@ceil_bound bits L ltac:(lia)) as [HC1 _]. assert (HC0 : (div_ceil bits L =? 0) = false) by (apply Nat.eqb_neq; nia).
  assert (GP : gen_perm_v L n bits bits n c k0 k1 rd rds = Ok (u, t)).
  { unfold gen_perm_v. rewrite !Nat.eqb_refl. cbn [negb throw_if bind]. replace (L =? 0) with false by lia. cbv zeta. destruct K0, K1. rewrite !extract_ok by (assumption || lia).
    fold (dig L n c k0 0). fold (dig L n c k1 0). cbn [bind]. rewrite HC0, EU. cbn [bind]. rewrite Hlen, Nat.eqb_refl. cbn [negb]. rewrite G. reflexivity. }
  assert (GP' : gen_perm_v L n bits bits n c k0' k1 (fst R') (snd R') = Ok (u', t')).
  { rewrite ER. cbn [fst snd]. unfold gen_perm_v. rewrite !Nat.eqb_refl. cbn [negb throw_if bind]. replace (L =? 0) with false by lia. cbv zeta. destruct K0', K1. rewrite !extract_ok by (assumption || lia).
    fold (dig L n c k0' 0). fold (dig L n c k1 0). cbn [bind]. rewrite HC0, EU'. cbn [bind]. rewrite (EL _ F2), Hlen, Nat.eqb_refl. cbn [negb]. rewrite Eo, G'. reflexivity. }
  exists (u, t), (u', t'). split; [exact GP|]. split; [exact GP'|].
  split; [unfold sort_view1; rewrite GP'; cbn [fst snd]; rewrite GP; cbn [bind fst snd]; rewrite RV', S1, S2; reflexivity|].
  rewrite ER. split; [split; assumption|]. split; [split; assumption|]. unfold Gmv1. cbn [fst snd]. rewrite EU', RI, EU. cbn [okd]. rewrite Eo, GI. reflexivity.
Qed.

Lemma sort0 L bits n cap c k0 k1 k1' R : sort_ok L bits n cap c -> key_fits n c k0 -> key_fits n c k1 -> key_fits n c k1' -> length (snd R) = div_ceil bits L - 1 -> sort_fits L n cap R ->
  let R' := Gmv0 L n cap c k0 k1 k1' R in
  exists t t', gen_perm_v L n bits bits n c k0 k1 (fst R) (snd R) = Ok t /\ gen_perm_v L n bits bits n c k0 k1' (fst R') (snd R') = Ok t' /\
    sort_view0 L bits n c k0 k1' R' = sort_view0 L bits n c k0 k1 R /\ sort_fits L n cap R' /\ same_sort0 R R' /\ Gmv0 L n cap c k0 k1' k1 R' = R.
Proof.
  intros (Hcap & Hcap' & HL & Hb & Hn & Hn32) K0 K1 K1' Hlen [RF RP] R'. destruct R as [rd rds]. cbn [fst snd] in *. assert (HL8 : 0 < L <= 8) by lia.
  pose proof (dig_keys L n c k0 0) as D0. pose proof (dig_keys L n c k1' 0) as D1'. pose proof (dig_keys L n c k1 0) as D1.
  destruct (@Rmv0_spec L n 1 ltac:(lia) ltac:(lia) Hn32 _ _ _ rd D0 D1 D1' RF) as (RF' & RS & RI & RV).
  destruct (first_round HL8 Hn32 D0 D1 RF) as (u & EU & PU). destruct (first_round HL8 Hn32 D0 D1' RF') as (u' & EU' & PU').
  unfold round_view0 in RV. rewrite EU, EU' in RV. cbn [bind] in RV. assert (RV' : see0 u' = see0 u) by exact (Ok_inj' RV). clear RV.
  assert (Eo : fst (rvOut u') = fst (rvOut u)) by exact (f_equal snd RV'). rewrite Eo in PU'.
  assert (LP : let rds' := Lmv0 L n cap c k0 k1 k1' L rds (fst (rvOut u)) (snd (rvOut u)) (snd (rvOut u')) in
    exists t t', gen_perm_loop_v L n n c k0 k1 L rds (fst (rvOut u)) (snd (rvOut u)) = Ok t /\ gen_perm_loop_v L n n c k0 k1' L rds' (fst (rvOut u)) (snd (rvOut u')) = Ok t' /\
    map step_see0 (fst t') = map step_see0 (fst t) /\ fst (snd t') = fst (snd t) /\ Forall (pass_fits L n cap) rds' /\
    Forall2 (fun x0 x => fst (fst x) = fst (fst x0) /\ same_half0 (snd x0) (snd x)) rds rds' /\ Lmv0 L n cap c k0 k1' k1 L rds' (fst (rvOut u)) (snd (rvOut u')) (snd (rvOut u)) = rds).
  { destruct HL as [HL|[-> ->]].
    - apply loop0; try assumption. apply (rounds_bound (proj1 HL8) Hb Hlen).
    - destruct rds as [|x rds]; [|discriminate Hlen]. cbv zeta. cbn [Lmv0 gen_perm_loop_v]. eexists _, _. split; [reflexivity|]. split; [reflexivity|]. repeat split; constructor. }
  destruct LP as (t & t' & G & G' & S1 & S2 & F & F2 & GI).
  assert (EL : forall rds', Forall2 (fun x0 x : comp * comp * radix_round => fst (fst x) = fst (fst x0) /\ same_half0 (snd x0) (snd x)) rds rds' -> length rds' = length rds).
  { intros l H. symmetry. clear - H. induction H; cbn [length]; congruence. }
  assert (ER : R' = (Rmv0 L n (dig L n c k0 0) (dig L n c k1 0) (dig L n c k1' 0) rd, Lmv0 L n cap c k0 k1 k1' L rds (fst (rvOut u)) (snd (rvOut u)) (snd (rvOut u')))).
  { unfold R', Gmv0. cbn [fst snd]. rewrite EU, EU'. reflexivity. }
  destruct (@ceil_bound bits L ltac:(lia)) as [HC1 _]. assert (HC0 : (div_ceil bits L =? 0) = false) by (apply Nat.eqb_neq; nia).
  assert (GP : gen_perm_v L n bits bits n c k0 k1 rd rds = Ok (u, t)).
  { unfold gen_perm_v. rewrite !Nat.eqb_refl. cbn [negb throw_if bind]. replace (L =? 0) with false by lia. cbv zeta. destruct K0, K1. rewrite !extract_ok by (assumption || lia).
    fold (dig L n c k0 0). fold (dig L n c k1 0). cbn [bind]. rewrite HC0, EU. cbn [bind]. rewrite Hlen, Nat.eqb_refl. cbn [negb]. rewrite G. reflexivity. }
  assert (GP' : gen_perm_v L n bits bits n c k0 k1' (fst R') (snd R') = Ok (u', t')).
  { rewrite ER. cbn [fst snd]. unfold gen_perm_v. rewrite !Nat.eqb_refl. cbn [negb throw_if bind]. replace (L =? 0) with false by lia. cbv zeta. destruct K0, K1'. rewrite !extract_ok by (assumption || lia).
    fold (dig L n c k0 0). fold (dig L n c k1' 0). cbn [bind]. rewrite HC0, EU'. cbn [bind]. rewrite (EL _ F2), Hlen, Nat.eqb_refl. cbn [negb]. rewrite Eo, G'. reflexivity. }
  exists (u, t), (u', t'). split; [exact GP|]. split; [exact GP'|].
  split; [unfold sort_view0; rewrite GP'; cbn [fst snd]; rewrite GP; cbn [bind fst snd]; rewrite RV', S1, S2; reflexivity|].
  rewrite ER. split; [split; assumption|]. split; [split; assumption|]. unfold Gmv0. cbn [fst snd]. rewrite EU', RI, EU. cbn [okd]. rewrite Eo, GI. reflexivity.
Qed.

(* the messages belong to the run *)
Lemma step_eq mL mSize n sk0 sk1 d0 d1 c0 c1 rd t : sort_step_v mL mSize n sk0 sk1 d0 d1 ((c0, c1), rd) = Ok t ->
  (do d <- comp_derand c0 c1 d0 d1;
   do a <- comp_apply (fst d) (snd d) Inverse (Mat n 1 sk0) (Mat n 1 sk1) (zmat n 1) (zmat n 1);
   let '((z0, e0), (z1, e1)) := a in
   do rho <- gen_bit_perm mL mSize mL n 1 (dat z0) (dat z1) rd;
   do q <- comp_compose e0 e1 (fst rho) (snd rho);
   let '((y0, _), (y1, _)) := q in Ok (y0, y1)) = Ok (stY t).
Proof.
  unfold sort_step_v. destruct (comp_derand_msgs c0 c1 d0 d1) as [m1| | |]; try discriminate. cbn [bind]. destruct (comp_derand c0 c1 d0 d1) as [d| | |]; try discriminate. cbn [bind].
  destruct (comp_apply_msgs (fst d) (snd d) Inverse _ _) as [m2| | |]; try discriminate. cbn [bind]. destruct (comp_apply (fst d) (snd d) Inverse _ _ _ _) as [[[z0 e0] [z1 e1]]| | |]; try discriminate. cbn [bind].
  rewrite gen_bit_perm_v_eq. destruct (gen_bit_perm_v mL mSize mL n 1 (dat z0) (dat z1) rd) as [u| | |]; try discriminate. cbn [bind].
  destruct (comp_apply_msgs e0 e1 Regular _ _) as [m3| | |]; try discriminate. cbn [bind]. destruct (comp_compose e0 e1 _ _) as [[[y0 f0] [y1 f1]]| | |]; try discriminate. cbn [bind].
  intros H. injection H as <-. reflexivity.
Qed.
Lemma loop_eq mL mSize n c k0 k1 rds : forall kIdx d0 d1 t, gen_perm_loop_v mL mSize n c k0 k1 kIdx rds d0 d1 = Ok t -> gen_perm_loop mL mSize n c k0 k1 kIdx rds d0 d1 = Ok (snd t).
Proof.
  induction rds as [|[[c0 c1] rd] rds IH]; intros kIdx d0 d1 t H; cbn [gen_perm_loop_v gen_perm_loop] in *; [injection H as <-; reflexivity|].
  destruct (extract kIdx mL n c k0) as [sk0| | |]; try discriminate H. cbn [bind] in *. destruct (extract kIdx mL n c k1) as [sk1| | |]; try discriminate H. cbn [bind] in *.
  destruct (sort_step_v mL mSize n sk0 sk1 d0 d1 (c0, c1, rd)) as [u| | |] eqn:E; try discriminate H. cbn [bind] in H. apply step_eq in E.
  destruct (gen_perm_loop_v mL mSize n c k0 k1 (kIdx + mL) rds _ _) as [r| | |] eqn:G; try discriminate H. cbn [bind] in H. injection H as <-. cbn [snd]. apply IH in G.
  destruct (comp_derand c0 c1 d0 d1) as [d| | |]; try discriminate E. cbn [bind] in *. destruct (comp_apply _ _ _ _ _ _ _) as [[[z0 e0] [z1 e1]]| | |]; try discriminate E. cbn [bind] in *.
  destruct (gen_bit_perm _ _ _ _ _ _ _ _) as [rho| | |]; try discriminate E. cbn [bind] in *. destruct (comp_compose _ _ _ _) as [[[y0 f0] [y1 f1]]| | |]; try discriminate E. cbn [bind] in *.
  injection E as E. rewrite <- E in G. exact G.
Qed.
Lemma sort_eq mL mSize mB bits n c k0 k1 rd rds t : gen_perm_v mL mSize mB bits n c k0 k1 rd rds = Ok t -> gen_perm mL mSize mB bits n c k0 k1 rd rds = Ok (snd (snd t)).
Proof.
  unfold gen_perm_v, gen_perm. destruct (throw_if _) as [?| | |]; try discriminate. cbn [bind]. destruct (throw_if _) as [?| | |]; try discriminate. cbn [bind]. destruct (mL =? 0); try discriminate. cbv zeta.
  destruct (extract 0 mL n c k0) as [sk0| | |]; try discriminate. cbn [bind]. destruct (extract 0 mL n c k1) as [sk1| | |]; try discriminate. cbn [bind]. destruct (div_ceil bits mL =? 0); try discriminate.
  rewrite gen_bit_perm_v_eq. destruct (gen_bit_perm_v mL mSize mL n 1 sk0 sk1 rd) as [u| | |]; try discriminate. cbn [bind]. destruct (negb _); try discriminate.
  destruct (gen_perm_loop_v _ _ _ _ _ _ _ _ _ _) as [r| | |] eqn:E; try discriminate. cbn [bind]. intros H. injection H as <-. apply loop_eq, E.
Qed.
