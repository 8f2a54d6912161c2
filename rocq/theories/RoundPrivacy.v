(* Proofs that a round of the radix sort hides the keys. *)
From Verif Require Import Base Words GmwModel ShuffleModel ShuffleSpec PermCorModel PermCorSpec PrfModel KeyMultModel BitInjModel RadixModel RadixSpec BitInjProofs PrivSpec SortViewModel SortPrivSpec.
From Verif Require Import PermCorProofs GmwProofs HadamardProofs RadixProofs RadixFlagProofs RadixRankProofs OtPrivacy HsPrivacy.

Definition okd {A} (d : A) (o : outcome A) : A := match o with Ok x => x | _ => d end.

(* ---------- the traces compute what the model computes ---------- *)
Lemma bit_inject_v_eq rq nr nb req r c d0 d1 w ss rs : bit_inject rq nr nb req r c d0 d1 w ss rs = do v <- bit_inject_v rq nr nb req r c d0 d1 w ss rs; Ok (snd v).
Proof.
  unfold bit_inject, bit_inject_v. destruct (throw_if _); cbn [bind]; try reflexivity. destruct (throw_if _); cbn [bind]; try reflexivity. destruct (throw_if _); cbn [bind]; try reflexivity.
  destruct (bi_mask w); cbn [bind]; try reflexivity. destruct (throw_if _); cbn [bind]; try reflexivity.
  destruct (bi_recv1 _ _ _ _ _ _); cbn [bind]; try reflexivity. destruct (bi_send _ _ _ _ _ _ _ _ _); cbn [bind]; try reflexivity. destruct (bi_recv2 _ _ _ _); reflexivity.
Qed.
Lemma hs_pair_v_eq rows cols fA sA fB sB sgB : hs_pair rows cols fA sA fB sB sgB = do v <- hs_pair_v rows cols fA sA fB sB sgB; Ok (snd v).
Proof.
  unfold hs_pair, hs_pair_v. destruct (hs_send1 _ _ _ _ _); cbn [bind]; try reflexivity. destruct (hs_recv _ _ _ _ _ _ _); cbn [bind]; try reflexivity. destruct (hs_send2 _ _ _ _ _ _); reflexivity.
Qed.
Lemma gen_bit_perm_v_eq mL mSize L n kc k0 k1 rd : gen_bit_perm mL mSize L n kc k0 k1 rd = do t <- gen_bit_perm_v mL mSize L n kc k0 k1 rd; Ok (rvOut t).
Proof.
  unfold gen_bit_perm, gen_bit_perm_v, gen_val_masks, hadamard_sum, hadamard_arith. destruct (throw_if _); cbn [bind]; try reflexivity. cbv zeta.
  destruct (throw_if _); cbn [bind]; try reflexivity. destruct (throw_if _); cbn [bind]; try reflexivity. destruct (gen_fbin _ _ _ _ _) as [b| | |]; cbn [bind]; try reflexivity.
  destruct (pack_fbin _ _ (fst b)) as [b0| | |]; cbn [bind]; try reflexivity. destruct (pack_fbin _ _ (snd b)) as [b1| | |]; cbn [bind]; try reflexivity.
  rewrite bit_inject_v_eq. destruct (bit_inject_v _ _ _ _ _ _ _ _ _ _ _) as [[i [f0 f1]]| | |]; cbn [bind fst snd]; try reflexivity.
  destruct (aggregate_sum 0 _ _) as [s0| | |]; cbn [bind]; try reflexivity. destruct (aggregate_sum 1 _ _) as [s1| | |]; cbn [bind]; try reflexivity.
  rewrite hs_pair_v_eq. destruct (hs_pair_v n _ b0 _ b1 _ _) as [[m1 p]| | |]; cbn [bind fst snd]; try reflexivity.
  rewrite hs_pair_v_eq. destruct (hs_pair_v n _ b1 _ b0 _ _) as [[m2 q]| | |]; cbn [bind fst snd]; try reflexivity.
  destruct (throw_if _); cbn [bind]; try reflexivity. destruct (throw_if _); cbn [bind]; try reflexivity. destruct (throw_if _); reflexivity.
Qed.

(* ---------- the indicator bits ---------- *)
Definition oh (L n : nat) (k0 k1 : list N) : list N :=
  concat (map bits_bytes (map (fun i => map (fun v => v =? digit L k0 k1 i) (seq 0 (2 ^ L))) (seq 0 n))).
Definition key1 (L : nat) (k : list N) : Prop := L = 1 -> Forall (fun x => (x < 2)%N) k.
Definition kb0 (k : N) : N := N.lor (N.shiftl k 1) (N.land k 1).
Definition kb1 (k : N) : N := N.lor (N.shiftl k 1) (N.lxor (N.land k 1) 1).
Definition fbin0 (L n : nat) (k0 hot : list N) : list N := if L =? 1 then map (fun i => kb0 (nth i k0 0%N)) (seq 0 n) else hot.
Definition fbin1 (L n : nat) (k0 k1 hot : list N) : list N := if L =? 1 then map (fun i => kb1 (nth i k1 0%N)) (seq 0 n) else map2 N.lxor hot (oh L n k0 k1).
Lemma gen_fbin_eq L n k0 k1 r : 0 < L -> length k0 = n -> length k1 = n -> key1 L k0 -> key1 L k1 -> length r = n * div_ceil (2 ^ L) 8 ->
  gen_fbin L n k0 k1 r = Ok (fbin0 L n k0 r, fbin1 L n k0 k1 r).
Proof.
  intros HL L0 L1 K0 K1 Hr. unfold gen_fbin, fbin0, fbin1. destruct (Nat.eqb_spec L 1) as [->|HL1].
  - specialize (K0 eq_refl). specialize (K1 eq_refl). rewrite Forall_forall in K0, K1.
    rewrite (@mapM_seq _ _ (fun i => kb0 (nth i k0 0%N))).
    2:{ intros i Hi. rewrite (get_ok 0%N) by lia. cbn [bind]. assert (nth i k0 0 < 2)%N by (apply K0, nth_In; lia). replace (2 <=? nth i k0 0)%N with false by lia. reflexivity. }
    cbn [bind]. rewrite (@mapM_seq _ _ (fun i => kb1 (nth i k1 0%N))).
    2:{ intros i Hi. rewrite (get_ok 0%N) by lia. cbn [bind]. assert (nth i k1 0 < 2)%N by (apply K1, nth_In; lia). replace (2 <=? nth i k1 0)%N with false by lia. reflexivity. }
    reflexivity.
  - rewrite L0, L1, Nat.eqb_refl. cbn [andb negb throw_if bind].
    rewrite (@mapM_seq _ _ (fun i => map (fun v => v =? digit L k0 k1 i) (seq 0 (2 ^ L)))).
    2:{ intros i Hi. rewrite (get_ok 0%N) by lia. cbn [bind]. rewrite (get_ok 0%N) by lia. cbn [bind]. rewrite one_hot_ok by exact HL. reflexivity. }
    cbn [bind]. rewrite Hr, Nat.eqb_refl. reflexivity.
Qed.
Lemma oh_len L n k0 k1 : length (oh L n k0 k1) = n * div_ceil (2 ^ L) 8.
Proof.
  unfold oh. rewrite (@concat_length _ _ (div_ceil (2 ^ L) 8)); [rewrite !map_length, seq_length; reflexivity|].
  intros x Hx. apply in_map_iff in Hx. destruct Hx as (y & <- & Hy). apply in_map_iff in Hy. destruct Hy as (i & <- & _).
  rewrite bits_bytes_length, map_length, seq_length. reflexivity.
Qed.
Lemma of_bits_lt l m : length l <= m -> (of_bits l < 2 ^ N.of_nat m)%N.
Proof.
  intros H. apply N.div_small_iff; [apply N.pow_nonzero; discriminate|]. rewrite <- N.shiftr_div_pow2. apply N.bits_inj. intros i. rewrite N.shiftr_spec by apply N.le_0_l. rewrite N.bits_0.
  rewrite <- (N2Nat.id i), <- Nat2N.inj_add, PrfProofs.of_bits_bit. apply nth_overflow. lia.
Qed.
Lemma oh_bound L n k0 k1 : Forall (fun x => (x < 2 ^ N.of_nat (Nat.min 8 (2 ^ L)))%N) (oh L n k0 k1).
Proof.
  apply Forall_forall. intros x Hx. unfold oh in Hx. apply in_concat in Hx. destruct Hx as (r & Hr & Hx). apply in_map_iff in Hr. destruct Hr as (y & <- & Hy).
  apply in_map_iff in Hy. destruct Hy as (i & <- & _). unfold bits_bytes in Hx. apply in_map_iff in Hx. destruct Hx as (b & <- & _).
  apply of_bits_lt. rewrite firstn_length, skipn_length, map_length, seq_length. lia.
Qed.
Lemma fbin_lens L n k0 k1 hot : 0 < L -> length hot = n * div_ceil (2 ^ L) 8 ->
  length (fbin0 L n k0 hot) = n * div_ceil (2 ^ L) 8 /\ length (fbin1 L n k0 k1 hot) = n * div_ceil (2 ^ L) 8.
Proof.
  intros HL H. unfold fbin0, fbin1. destruct (Nat.eqb_spec L 1) as [->|_]; [rewrite !map_length, seq_length; change (div_ceil (2 ^ 1) 8) with 1; lia|].
  rewrite map2_length, oh_len. lia.
Qed.
Definition pk (L n : nat) (d : list N) : list N := okd [] (pack_fbin L n d).
Lemma pk_ok L n d : 0 < L -> length d = n * div_ceil (2 ^ L) 8 -> pack_fbin L n d = Ok (pk L n d) /\ n * 2 ^ L <= 8 * length (pk L n d) /\ length (pk L n d) = div_ceil (n * 2 ^ L) 8.
Proof. intros HL H. unfold pk. destruct (pack_fbin_ok HL H) as (d' & E & H1 & H2 & _). rewrite E. cbn [okd]. auto. Qed.

Lemma lxor_bound m a b : (a < 2 ^ m)%N -> (b < 2 ^ m)%N -> (N.lxor a b < 2 ^ m)%N.
Proof.
  intros Ha Hb. apply N.div_small_iff; [apply N.pow_nonzero; discriminate|]. rewrite <- N.shiftr_div_pow2. rewrite N.shiftr_lxor, !N.shiftr_div_pow2.
  rewrite !N.div_small by assumption. reflexivity.
Qed.
Lemma xors_bound m a b : Forall (fun x => (x < 2 ^ m)%N) a -> Forall (fun x => (x < 2 ^ m)%N) b -> Forall (fun x => (x < 2 ^ m)%N) (xors a b).
Proof.
  intros Ha. revert b. induction Ha as [|x a Hx Ha IH]; intros b Hb; [constructor|]. destruct Hb as [|y b Hy Hb]; [constructor|].
  cbn. constructor; [apply lxor_bound; assumption|apply IH; exact Hb].
Qed.
Lemma xors_len3 n a b : length a = n -> length b = n -> length (xors a b) = n.
Proof. intros H1 H2. unfold xors. rewrite map2_length. lia. Qed.
Lemma xors_cancel n a x y : length a = n -> length x = n -> length y = n -> xors (xors a (xors x y)) y = xors a x.
Proof.
  intros Ha Hx Hy. apply list_eq_nth with (d := 0%N); [unfold xors; rewrite !map2_length; lia|].
  intros i Hi. unfold xors in *. rewrite !map2_length in Hi. repeat (rewrite (@map2_nth _ _ _ N.lxor _ _ i 0%N 0%N); [|rewrite ?map2_length; lia..]).
  rewrite !N.lxor_assoc. rewrite N.lxor_nilpotent, N.lxor_0_r. reflexivity.
Qed.
Lemma xors_back n a x y : length a = n -> length x = n -> length y = n -> xors (xors a (xors x y)) (xors y x) = a.
Proof.
  intros Ha Hx Hy. apply list_eq_nth with (d := 0%N); [unfold xors; rewrite !map2_length; lia|].
  intros i Hi. unfold xors in *. rewrite !map2_length in Hi. repeat (rewrite (@map2_nth _ _ _ N.lxor _ _ i 0%N 0%N); [|rewrite ?map2_length; lia..]).
  rewrite (N.lxor_comm (nth i y 0%N)). rewrite N.lxor_assoc, N.lxor_nilpotent, N.lxor_0_r. reflexivity.
Qed.

(* ---------- a round from the indicator bits on ---------- *)
Definition core (n c : nat) (b0 b1 : list N) (rd : radix_round) : outcome round_tr :=
  do f <- bit_inject_v true 1 (n * c) (n * c) 1 (length b0) b0 b1 32 (rdInj0 rd) (rdInj1 rd);
  do s0 <- aggregate_sum 0 c (rows_of n c (fst (snd f)));
  do s1 <- aggregate_sum 1 c (rows_of n c (snd (snd f)));
  do p <- hs_pair_v n c b0 (h0r (rdHs rd)) b1 (concat s1) (h1s (rdHs rd));
  do q <- hs_pair_v n c b1 (h1r (rdHs rd)) b0 (concat s0) (h0s (rdHs rd));
  let a0 := map2 add32 (snd (snd q)) (fst (snd p)) in
  let a1 := map2 add32 (snd (snd p)) (fst (snd q)) in
  do _ <- throw_if (negb (length (rdA2b rd) =? n));
  Ok (RTr (b0, b1) (fst f) (fst p) (fst q)
    (rdA2b rd, map2 N.lxor (rdA2b rd) (map2 (fun x y => ((x + y) mod 2 ^ N.of_nat (a2b_bits n))%N) a0 a1))).

Lemma gbv_core L n kc k0 k1 rd : 0 < L -> L <= kc * 8 -> length k0 = n -> length k1 = n -> key1 L k0 -> key1 L k1 -> length (rdHot rd) = n * div_ceil (2 ^ L) 8 ->
  gen_bit_perm_v L n L n kc k0 k1 rd = core n (2 ^ L) (pk L n (fbin0 L n k0 (rdHot rd))) (pk L n (fbin1 L n k0 k1 (rdHot rd))) rd.
Proof.
  intros HL Hkc L0 L1 K0 K1 Hh. unfold gen_bit_perm_v, core. replace (kc * 8 <? L) with false by lia. cbn [throw_if bind]. cbv zeta. rewrite !Nat.eqb_refl. cbn [negb throw_if bind].
  rewrite gen_fbin_eq by assumption. cbn [bind fst snd]. destruct (@fbin_lens L n k0 k1 (rdHot rd) HL Hh) as [F0 F1].
  rewrite (proj1 (pk_ok HL F0)), (proj1 (pk_ok HL F1)). reflexivity.
Qed.

(* the pieces of a round *)
Definition injd (n c : nat) (b1 : list N) (rs : list ot_recv) : outcome (list (list bool * ot_recv)) := bi_recv1 (n * c) (n * c) (length b1) b1 rs 0.
Definition dI (n c : nat) (b1 : list N) (rs : list ot_recv) : list (list bool) := map fst (okd [] (injd n c b1 rs)).
Definition injs (n c : nat) (b0 : list N) (ss : list ot_send) (diffs : list (list bool)) := bi_send (n * c) (n * c) (length b0) b0 32 (N.ones 32) ss diffs 0.
Definition agg (p n c : nat) (f : list N) : list N := concat (okd [] (aggregate_sum p c (rows_of n c f))).
Definition sum0 (n c : nat) (b0 : list N) (ss : list ot_send) (diffs : list (list bool)) : list N := agg 0 n c (fst (okd ([], []) (injs n c b0 ss diffs))).
Definition sum1 (n c : nat) (b0 b1 : list N) (ss : list ot_send) (rs : list ot_recv) : list N :=
  agg 1 n c (okd [] (bi_recv2 32 (N.ones 32) (map snd (okd [] (injd n c b1 rs))) (snd (okd ([], []) (injs n c b0 ss (dI n c b1 rs)))))).
Definition dH (n c : nat) (b : list N) (rs : list ot_recv) : list (list bool) := fst (okd ([], []) (hs_send1 n c b rs 0)).

Lemma agg_ok p n c f : 0 < c -> length f = n * c -> exists s, aggregate_sum p c (rows_of n c f) = Ok s /\ agg p n c f = concat s /\ length (agg p n c f) = n * c.
Proof.
  intros Hc Hf. unfold agg. destruct (@rows_of_ok n c f Hf) as (RL & RF & _). destruct (@aggregate_ok p c (rows_of n c f) Hc RF) as (s & E & SL & SF & _).
  rewrite E. exists s. split; [reflexivity|]. cbn [okd]. split; [reflexivity|]. rewrite (concat_length (proj1 (Forall_forall _ _) SF)). lia.
Qed.
Lemma hs_parts rows cols fA fB sB ss rs : 0 < cols -> rows * cols <= 8 * length fA -> rows * cols <= 8 * length fB -> length sB = rows * cols ->
  ots_ok (rows * cols) ss rs -> Forall (fun s => length s mod cols = 0) ss ->
  exists x y a, hs_send1 rows cols fA rs 0 = Ok x /\ hs_recv rows cols sB fB ss (fst x) 0 = Ok y /\ hs_send2 rows cols fA (fst y) (snd x) 0 = Ok a /\
    hs_pair_v rows cols fA rs fB sB ss = Ok ((fst x, fst y), (a, snd y)) /\ length a = rows /\ length (snd y) = rows.
Proof.
  intros Hc H1 H2 H3 (R & N0 & K) M. destruct (@hs_pair_ok rows cols fA fB sB Hc H1 H2 H3 _ _ R (Forall_and N0 M) K) as (a & b & E & La & Lb & _).
  unfold hs_pair in E. unfold hs_pair_v. destruct (hs_send1 rows cols fA rs 0) as [x| | |]; cbn [bind] in *; try discriminate.
  destruct (hs_recv rows cols sB fB ss (fst x) 0) as [y| | |] eqn:Ey; cbn [bind] in *; try discriminate.
  destruct (hs_send2 rows cols fA (fst y) (snd x) 0) as [z| | |] eqn:Ez; cbn [bind] in *; try discriminate.
  injection E as -> <-. exists x, y, a. cbn [bind]. auto 10.
Qed.

(* all the pieces *)
Lemma core_parts n c b0 b1 rd : 0 < c -> n * c <= 8 * length b0 -> length b1 = length b0 -> ots_ok (n * c) (rdInj0 rd) (rdInj1 rd) -> hots_ok (n * c) c (rdHs rd) ->
  length (rdA2b rd) = n ->
  exists x y o1 p1 p2 p3 q1 q2 q3,
    injd n c b1 (rdInj1 rd) = Ok x /\ injs n c b0 (rdInj0 rd) (map fst x) = Ok y /\ bi_recv2 32 (N.ones 32) (map snd x) (snd y) = Ok o1 /\
    length (fst y) = n * c /\ length o1 = n * c /\
    let s0 := agg 0 n c (fst y) in let s1 := agg 1 n c o1 in
    length s0 = n * c /\ length s1 = n * c /\
    hs_send1 n c b0 (h0r (rdHs rd)) 0 = Ok p1 /\ hs_recv n c s1 b1 (h1s (rdHs rd)) (fst p1) 0 = Ok p2 /\ hs_send2 n c b0 (fst p2) (snd p1) 0 = Ok p3 /\
    hs_send1 n c b1 (h1r (rdHs rd)) 0 = Ok q1 /\ hs_recv n c s0 b0 (h0s (rdHs rd)) (fst q1) 0 = Ok q2 /\ hs_send2 n c b1 (fst q2) (snd q1) 0 = Ok q3 /\
    length p3 = n /\ length (snd p2) = n /\ length q3 = n /\ length (snd q2) = n /\
    core n c b0 b1 rd = Ok (RTr (b0, b1) (map fst x, snd y) (fst p1, fst p2) (fst q1, fst q2) (rdA2b rd,
      map2 N.lxor (rdA2b rd) (map2 (fun x y => ((x + y) mod 2 ^ N.of_nat (a2b_bits n))%N) (map2 add32 (snd q2) p3) (map2 add32 (snd p2) q3)))).
Proof.
  intros Hc HB HL (R & N0 & K) (O1 & O2 & M1 & M2) La.
  destruct (@bi_run 1 (n * c) (length b0) b0 b1 32 ltac:(lia) ltac:(lia) ltac:(lia) ltac:(left; reflexivity) (rdInj0 rd) (rdInj1 rd) 0 R N0 ltac:(lia) ltac:(lia))
    as (x & y & o1 & E1 & E2 & E3 & Ly & Lo & _). rewrite Nat.mul_1_l, Nat.sub_0_r in *. change (N.ones (N.of_nat 32)) with (N.ones 32) in *.
  destruct (@agg_ok 0 n c (fst y) Hc Ly) as (s0 & A0 & B0 & LA0). destruct (@agg_ok 1 n c o1 Hc Lo) as (s1 & A1 & B1 & LA1).
  destruct (@hs_parts n c b0 b1 (agg 1 n c o1) _ _ Hc HB ltac:(lia) LA1 O1 M1) as (p1 & p2 & p3 & P1 & P2 & P3 & P & LP1 & LP2).
  destruct (@hs_parts n c b1 b0 (agg 0 n c (fst y)) _ _ Hc ltac:(lia) HB LA0 O2 M2) as (q1 & q2 & q3 & Q1 & Q2 & Q3 & Q & LQ1 & LQ2).
  exists x, y, o1, p1, p2, p3, q1, q2, q3. unfold injd, injs. rewrite HL. cbv zeta. repeat (split; [assumption|]).
  unfold core, bit_inject_v. replace (length b0 * 8 <? n * c) with false by lia. cbn [Nat.eqb negb throw_if bind bi_mask]. rewrite Nat.mul_1_l, Nat.ltb_irrefl. cbn [throw_if bind].
  rewrite E1. cbn [bind]. rewrite E2. cbn [bind]. rewrite E3. cbn [bind fst snd]. rewrite A0. cbn [bind]. rewrite A1. cbn [bind]. rewrite <- B0, <- B1. rewrite P. cbn [bind]. rewrite Q. cbn [bind fst snd].
  rewrite La, Nat.eqb_refl. reflexivity.
Qed.
