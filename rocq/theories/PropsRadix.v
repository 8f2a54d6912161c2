(* C27-C30: bit injection, masked row sums, one radix round and genPerm *)
From Verif Require Import Base Words PermModel PermSpec PermProofs PermCorModel PermCorSpec CompPermProofs GmwModel ShuffleModel ShuffleSpec KeyMultModel PrfModel
  BitInjModel RadixModel RadixSpec BitInjProofs HadamardProofs RadixProofs RadixFlagProofs RadixRankProofs RadixSortProofs StableSortProofs.

(* ---- C29 ---- *)
(* every bit becomes a pair of additive shares modulo 2^w, for the widths that work: 25-30, 32 *)
(* Missing: the other widths, for which it is false (C29_narrow_refuted, C29_mask_refuted). *)
Theorem C29_bit_inject_partial : forall nr nb req r c d0 d1 w ss rs, nb <= c * 8 -> r = nr -> r * nb <= req ->
  length d0 = r * c -> length d1 = r * c -> w = 32 \/ 24 < w <= 30 -> ots_ok (r * nb) ss rs ->
  exists o0 o1, bit_inject true nr nb req r c d0 d1 w ss rs = Ok (o0, o1) /\ length o0 = r * nb /\ length o1 = r * nb /\
    forall i j, i < r -> j < nb -> shares_bit w (xorb (mbit c d0 i j) (mbit c d1 i j)) (nth (i * nb + j) o0 0%N) (nth (i * nb + j) o1 0%N).
Proof. exact bit_inject_ok. Qed.
Print Assumptions C29_bit_inject_partial.

(* the statement "all output widths" is false: at most 24 bits overrun the packed buffer, and
   31 or more than 32 bits shift a u32 too far *)
Theorem C29_narrow_refuted : forall nr nb req r c d0 d1 w ss rs, nb <= c * 8 -> r = nr -> r * nb <= req ->
  length d0 = r * c -> length d1 = r * c -> 0 < r * nb -> w <= 24 -> ots_ok (r * nb) ss rs ->
  bit_inject true nr nb req r c d0 d1 w ss rs = UB.
Proof. exact bit_inject_narrow. Qed.
Print Assumptions C29_narrow_refuted.

Theorem C29_mask_refuted : forall nb nr req r c d0 d1 w ss rs, nb <= c * 8 -> r = nr -> w = 31 \/ 32 < w ->
  bit_inject true nr nb req r c d0 d1 w ss rs = UB.
Proof. exact bit_inject_mask_ub. Qed.
Print Assumptions C29_mask_refuted.

Theorem C29_throws : forall rq nb nr req r c d0 d1 w ss rs, c * 8 < nb \/ r <> nr \/ rq = false \/ ((w = 32 \/ 24 < w <= 30) /\ req < r * nb) ->
  bit_inject rq nr nb req r c d0 d1 w ss rs = Throw.
Proof. exact bit_inject_throws. Qed.
Print Assumptions C29_throws.

(* segments of OTs for the examples *)
Definition ex_send (a k : nat) : ot_send := map (fun j => (N.of_nat (1000 * j + a), (2 ^ 32 - 1 - N.of_nat (77 * j + a))%N)) (seq 0 k).
Definition ex_recv (a k : nat) : ot_recv :=
  let ch := map (fun j => Nat.even (j / 3 + a)) (seq 0 k) in
  OtR ch (map (fun j => if nth j ch false then snd (nth j (ex_send a k) (0, 0)%N) else fst (nth j (ex_send a k) (0, 0)%N)) (seq 0 k)).
Lemma ex_ot_rel a k : ot_rel (ex_send a k) (ex_recv a k).
Proof.
  unfold ot_rel, ex_recv. cbn [oMsg oChoice]. rewrite !map_length, !seq_length. unfold ex_send at 1. rewrite map_length, seq_length.
  split; [reflexivity|]. split; [reflexivity|]. intros j Hj. unfold ex_send in Hj at 1. rewrite map_length, seq_length in Hj. rewrite nth_map_seq' by exact Hj. reflexivity.
Qed.
Lemma ex_ots l a : Forall (fun k => 0 < k) l -> ots_ok (list_sum l) (map (ex_send a) l) (map (ex_recv a) l).
Proof.
  intros H. split; [|split].
  - clear H. induction l; constructor; [apply ex_ot_rel|assumption].
  - apply Forall_forall. intros x Hx. apply in_map_iff in Hx. destruct Hx as (k & <- & Hk). rewrite Forall_forall in H. specialize (H k Hk).
    destruct k as [|k]; [lia|]. discriminate.
  - clear H. induction l as [|k l IH]; [cbn; lia|]. cbn [map concat list_sum fold_right]. rewrite app_length. unfold ex_send at 1. rewrite map_length, seq_length.
    unfold list_sum in IH. lia.
Qed.
Lemma ex_ots' k l a : k <= list_sum l -> Forall (fun k => 0 < k) l -> ots_ok k (map (ex_send a) l) (map (ex_recv a) l).
Proof. intros Hk H. destruct (@ex_ots l a H) as (A & B & C). split; [exact A|]. split; [exact B|]. lia. Qed.

Example C29_ex : ots_ok (2 * 3) (map (ex_send 5) [4; 3]) (map (ex_recv 5) [4; 3]) /\
  (do x <- bit_inject true 2 3 6 2 1 [5; 2]%N [3; 3]%N 32 (map (ex_send 5) [4; 3]) (map (ex_recv 5) [4; 3]);
   Ok (map2 add32 (fst x) (snd x))) = Ok [0; 1; 1; 1; 0; 0]%N.
Proof. split; [apply ex_ots'; [cbn; lia|repeat constructor; lia]|reflexivity]. Qed.

(* ---- C30 ---- *)
(* row sums of bits times values, shared additively modulo 2^32 *)
Theorem C30_arith : forall rows cols f0 f1 s0 s1 o, 0 < cols -> rows * cols <= 8 * length f0 -> rows * cols <= 8 * length f1 ->
  length s0 = rows * cols -> length s1 = rows * cols -> hots_ok (rows * cols) cols o ->
  exists a b, hadamard_arith rows cols f0 f1 s0 s1 o = Ok (a, b) /\ length a = rows /\ length b = rows /\
    forall i, i < rows -> ((Z.of_N (nth i a 0%N) + Z.of_N (nth i b 0%N)) mod 2 ^ 32 =
      (zsum cols (fun j => Z.b2z (xorb (sbit f0 (i * cols + j)) (sbit f1 (i * cols + j))) *
         (Z.of_N (nth (i * cols + j) s0 0%N) + Z.of_N (nth (i * cols + j) s1 0%N)))) mod 2 ^ 32)%Z.
Proof.
  intros rows cols f0 f1 s0 s1 o Hc H0 H1 L0 L1 Ho. destruct (@hadamard_arith_ok rows cols f0 f1 s0 s1 o Hc H0 H1 L0 L1 Ho) as (a & b & E & La & Lb & H).
  exists a, b. split; [exact E|]. split; [exact La|]. split; [exact Lb|]. intros i Hi. apply eqm_eq, H, Hi.
Qed.
Print Assumptions C30_arith.

(* hadamardSum: the same sums as xor shares, modulo 2^bits for the bits of a row number *)
Theorem C30_sum : forall rows cols f0 f1 s0 s1 o r, 0 < cols -> rows * cols <= 8 * length f0 -> rows * cols <= 8 * length f1 ->
  length s0 = rows * cols -> length s1 = rows * cols -> hots_ok (rows * cols) cols o -> length r = rows -> (N.of_nat rows <= 2 ^ 32)%N ->
  exists p0 p1, hadamard_sum (a2b_bits rows) rows rows cols f0 f1 s0 s1 o r = Ok (p0, p1) /\ length p0 = rows /\ length p1 = rows /\ p0 = r /\
    forall i, i < rows -> (Z.of_N (N.lxor (nth i p0 0%N) (nth i p1 0%N)) =
      (zsum cols (fun j => Z.b2z (xorb (sbit f0 (i * cols + j)) (sbit f1 (i * cols + j))) *
         (Z.of_N (nth (i * cols + j) s0 0%N) + Z.of_N (nth (i * cols + j) s1 0%N)))) mod 2 ^ Z.of_nat (a2b_bits rows))%Z.
Proof. exact hadamard_sum_ok. Qed.
Print Assumptions C30_sum.

(* a segment that is not a whole number of rows is refused *)
Theorem C30_segment_throws : forall rows cols f0 f1 s0 s1 o s l, 0 < rows -> 0 < cols -> h0r o = s :: l -> length (oMsg s) mod cols <> 0 ->
  hadamard_arith rows cols f0 f1 s0 s1 o = Throw.
Proof.
  intros rows cols f0 f1 s0 s1 o s l Hr Hc E H. unfold hadamard_arith, hs_pair. rewrite E. cbn [hs_send1].
  replace (rows <=? 0) with false by lia. replace (cols =? 0) with false by lia.
  destruct (Nat.eqb_spec (length (oMsg s) mod cols) 0) as [H'|_]; [contradiction|]. reflexivity.
Qed.
Print Assumptions C30_segment_throws.

Definition ex_hs (l : list nat) : hs_ots := HsOts (map (ex_recv 3) l) (map (ex_send 3) l) (map (ex_recv 8) l) (map (ex_send 8) l).
Lemma ex_hs_ok k cols l : k <= list_sum l -> Forall (fun k => 0 < k) l -> Forall (fun k => k mod cols = 0) l -> hots_ok k cols (ex_hs l).
Proof.
  intros Hk H Hm. split; [apply ex_ots'; assumption|]. split; [apply ex_ots'; assumption|].
  split; apply Forall_forall; intros x Hx; apply in_map_iff in Hx; destruct Hx as (j & <- & Hj); unfold ex_send; rewrite map_length, seq_length;
    rewrite Forall_forall in Hm; apply Hm; exact Hj.
Qed.

(* rows 10.. and 01.. with values 5 + 7, 4 + 2 *)
Example C30_ex : hots_ok (2 * 2) 2 (ex_hs [2; 4]) /\
  (do x <- hadamard_arith 2 2 [15]%N [6]%N [5; 1; 1; 4]%N [7; 1; 1; 2]%N (ex_hs [2; 4]); Ok (map2 add32 (fst x) (snd x))) = Ok [12; 6]%N.
Proof. split; [apply ex_hs_ok; [cbn; lia|repeat constructor; lia|repeat constructor]|reflexivity]. Qed.

(* ---- C27 ---- *)
(* one round sorts by the digit of L bits, stably; with L = 1 the shares must be bits *)
Theorem C27_round : forall L n kc k0 k1 rd, 0 < L -> L <= kc * 8 -> length k0 = n -> length k1 = n -> (N.of_nat n <= 2 ^ 32)%N ->
  (L = 1 -> Forall (fun k => (k < 2)%N) k0 /\ Forall (fun k => (k < 2)%N) k1) -> rround_ok L n rd ->
  exists p0 p1, gen_bit_perm L n L n kc k0 k1 rd = Ok (p0, p1) /\ length p0 = n /\ length p1 = n /\
    sorts n (fun i => (N.lxor (nth i k0 0%N) (nth i k1 0%N) mod 2 ^ N.of_nat L)%N) (map N.to_nat (xors p0 p1)).
Proof.
  intros L n kc k0 k1 rd HL Hk L0 L1 Hn H1 Hrd. destruct (@gen_bit_perm_ok L n kc k0 k1 rd HL Hk L0 L1 Hn H1 Hrd) as (p0 & p1 & E & P0 & P1 & HS).
  exists p0, p1. split; [exact E|]. split; [exact P0|]. split; [exact P1|]. revert HS. apply sorts_ext. intros i _. unfold digit. apply N2Nat.id.
Qed.
Print Assumptions C27_round.

(* what the position of a row is, in numbers *)
Theorem C27_positions : forall n key p, sorts n key p -> forall i, i < n ->
  Z.of_nat (nth i p 0) = (zsum n (fun i' => Z.b2z (key i' <? key i)%N) + zsum i (fun i' => Z.b2z (key i' =? key i)%N))%Z.
Proof.
  intros n key p HS i Hi. rewrite (@sorts_rank n key p HS i Hi). apply rank_sum. exact Hi.
Qed.
Print Assumptions C27_positions.

(* the same digit width must be used everywhere *)
Theorem C27_throws : forall mL mSize L n kc k0 k1 rd, kc * 8 < L \/ L <> mL \/ n <> mSize -> gen_bit_perm mL mSize L n kc k0 k1 rd = Throw.
Proof.
  intros mL mSize L n kc k0 k1 rd H. unfold gen_bit_perm, gen_val_masks. destruct (Nat.ltb_spec (kc * 8) L) as [_|H1]; [reflexivity|]. cbn [throw_if bind].
  destruct (Nat.eqb_spec L mL) as [E|_]; [|reflexivity]. cbn [negb throw_if bind]. destruct (Nat.eqb_spec n mSize) as [E2|_]; [|reflexivity]. lia.
Qed.
Print Assumptions C27_throws.

Definition ex_round (L n : nat) (segs : list nat) : radix_round :=
  Round (map (ex_send 1) segs) (map (ex_recv 1) segs) (map (fun i => (37 * N.of_nat i) mod 256)%N (seq 1 (n * div_ceil (2 ^ L) 8)))
    (ex_hs segs) (repeat 1%N n).
Lemma ex_round_ok L n segs : n * 2 ^ L <= list_sum segs -> Forall (fun k => 0 < k) segs -> Forall (fun k => k mod 2 ^ L = 0) segs ->
  rround_ok L n (ex_round L n segs).
Proof.
  intros Hk H Hm. split; [apply ex_ots'; assumption|]. split; [cbn [rdHot ex_round]; rewrite map_length, seq_length; reflexivity|].
  split; [apply ex_hs_ok; assumption|]. split; [apply repeat_length|]. cbn [rdA2b ex_round]. apply Forall_forall. intros x Hx. apply repeat_spec in Hx. subst x.
  apply N.pow_gt_1; [lia|]. pose proof (a2b_bits_pos n). lia.
Qed.

(* digits 3, 1, 3 *)
Example C27_ex : rround_ok 2 3 (ex_round 2 3 [8; 4]) /\
  (do x <- gen_bit_perm 2 3 2 3 1 [9; 4; 200]%N [10; 5; 203]%N (ex_round 2 3 [8; 4]); Ok (map N.to_nat (xors (fst x) (snd x)))) = Ok [1; 0; 2].
Proof. split; [apply ex_round_ok; [cbn; lia|repeat constructor; lia|repeat constructor]|vm_compute; reflexivity]. Qed.

(* ---- C28 ---- *)
(* genPerm: the stable sorting permutation of the keys, given cap >= 9 bytes of correlated
   randomness in each permutation.  Single bit digits work for single bit keys only. *)
(* Missing: the 5 bytes that are requested do not suffice (C28_requested_bytes_refuted), no rows (C28_no_rows_refuted) and digits of one bit (C28_one_bit_digits_refuted). *)
Theorem C28_genPerm_partial : forall L bits n cap c k0 k1 rd rds, 9 <= cap -> (N.of_nat cap < 2 ^ 64)%N ->
  (2 <= L <= 8 \/ L = 1 /\ bits = 1) -> 0 < bits <= 8 * c -> 0 < n -> (N.of_nat n <= 2 ^ 32)%N ->
  bytes k0 -> bytes k1 -> length k0 = n * c -> length k1 = n * c ->
  (forall i, i < n -> (keyn c (xors k0 k1) i < 2 ^ N.of_nat bits)%N) ->
  length rds = div_ceil bits L - 1 -> rround_ok L n rd -> Forall (fun x => comps_ok n cap (fst x) /\ rround_ok L n (snd x)) rds ->
  exists p0 p1, gen_perm L n bits bits n c k0 k1 rd rds = Ok (p0, p1) /\ length p0 = n /\ length p1 = n /\
    sorts n (keyn c (xors k0 k1)) (map N.to_nat (xors p0 p1)).
Proof. exact gen_perm_ok. Qed.
Print Assumptions C28_genPerm_partial.

(* the permutation is determined: genPerm and mockSort agree *)
Theorem C28_unique : forall n key p q, sorts n key p -> sorts n key q -> p = q.
Proof. exact sorts_unique. Qed.
Print Assumptions C28_unique.

Theorem C28_mock : forall n c k0 k1, bytes k0 -> bytes k1 -> length k0 = n * c -> length k1 = n * c ->
  exists p0 p1, mock_sort n c k0 k1 = Ok (p0, p1) /\ length p0 = n /\ length p1 = n /\
    sorts n (keyn c (xors k0 k1)) (map N.to_nat (xors p0 p1)).
Proof. exact mock_sort_ok. Qed.
Print Assumptions C28_mock.

(* init asks for divCeil(L, 8) + 4 = 5 bytes per permutation, which would not do: derandomize,
   apply and compose take 9.  genPerm works because the generator rounds up to 16 (C08). *)
Theorem C28_requested_bytes_refuted : forall L bits n cap c k0 k1 rd x rds, 5 <= cap < 9 -> 2 <= L <= 8 -> L < bits <= 8 * c -> 0 < n -> (N.of_nat n <= 2 ^ 32)%N ->
  bytes k0 -> bytes k1 -> length k0 = n * c -> length k1 = n * c ->
  length (x :: rds) = div_ceil bits L - 1 -> rround_ok L n rd -> comps_ok n cap (fst x) -> rround_ok L n (snd x) ->
  gen_perm L n bits bits n c k0 k1 rd (x :: rds) = Throw.
Proof. exact gen_perm_short. Qed.
Print Assumptions C28_requested_bytes_refuted.

(* no rows: rows - 1 wraps around in extract *)
Theorem C28_no_rows_refuted : forall L bits c k0 k1 rd rds, 0 < L <= 8 -> 0 < c -> gen_perm L 0 bits bits 0 c k0 k1 rd rds = UB.
Proof.
  intros L bits c k0 k1 rd rds HL Hc. unfold gen_perm. rewrite !Nat.eqb_refl. cbn [negb throw_if bind]. replace (L =? 0) with false by lia.
  unfold extract. replace (8 <? L) with false by lia. cbn [throw_if bind]. replace (c * 8 <=? 0) with false by lia. replace (L =? 0) with false by lia. reflexivity.
Qed.
Print Assumptions C28_no_rows_refuted.

Definition ex_comp (n : nat) : outcome (comp * comp) :=
  gen_comp (rev (seq 0 n)) (seq 0 n) 16 (map N.of_nat (seq 1 (n * 16))) (map N.of_nat (seq 100 (n * 16))) (map N.of_nat (seq 50 (n * 16))) (map N.of_nat (seq 90 (n * 16))).
Definition ex_comps (n : nat) : comp * comp :=
  match ex_comp n with Ok x => x | _ => (Comp 9 (CorS [] (Mat 0 0 []) 0) (CorR (Mat 0 0 []) (Mat 0 0 []) 0), Comp 9 (CorS [] (Mat 0 0 []) 0) (CorR (Mat 0 0 []) (Mat 0 0 []) 0)) end.
Lemma ex_comps_ok n : comps_ok n 16 (ex_comps n).
Proof.
  unfold ex_comps, ex_comp.
  assert (P1 : is_perm n (rev (seq 0 n))) by (unfold is_perm; symmetry; apply Permutation_rev).
  assert (P2 : is_perm n (seq 0 n)) by (apply Permutation_refl).
  destruct (@gen_comp_ok n 16 (rev (seq 0 n)) (seq 0 n) (map N.of_nat (seq 1 (n * 16))) (map N.of_nat (seq 100 (n * 16))) (map N.of_nat (seq 50 (n * 16))) (map N.of_nat (seq 90 (n * 16))) P1 P2)
    as (c0 & c1 & E & H1 & _ & H2 & H3); try (rewrite map_length, seq_length; reflexivity).
  rewrite E. split; [exact H1|]. split; assumption.
Qed.

(* keys 5, 2, 5 of three bits in two rounds *)
Example C28_ex : rround_ok 2 3 (ex_round 2 3 [8; 4]) /\ comps_ok 3 16 (ex_comps 3) /\
  (forall i, i < 3 -> (keyn 1 (xors [255; 1; 7] [250; 3; 2])%N i < 2 ^ N.of_nat 3)%N) /\
  (do x <- gen_perm 2 3 3 3 3 1 [255; 1; 7]%N [250; 3; 2]%N (ex_round 2 3 [8; 4]) [(ex_comps 3, ex_round 2 3 [8; 4])];
   Ok (map N.to_nat (xors (fst x) (snd x)))) = Ok [1; 0; 2] /\
  (do x <- mock_sort 3 1 [255; 1; 7]%N [250; 3; 2]%N; Ok (map N.to_nat (xors (fst x) (snd x)))) = Ok [1; 0; 2].
Proof.
  split; [apply ex_round_ok; [cbn; lia|repeat constructor; lia|repeat constructor]|]. split; [apply ex_comps_ok|].
  split; [intros i Hi; destruct i as [|[|[|]]]; try lia; reflexivity|]. split; vm_compute; reflexivity.
Qed.

(* digits of one bit: the debug assert on the share bytes fails in the second round, the
   shares that the permutation returns are whole bytes *)
Theorem C28_one_bit_digits_refuted : exists n bits k0 k1 rd rds, rround_ok 1 n rd /\ Forall (fun x => comps_ok n 16 (fst x) /\ rround_ok 1 n (snd x)) rds /\
  length rds = div_ceil bits 1 - 1 /\ (forall i, i < n -> (keyn 1 (xors k0 k1) i < 2 ^ N.of_nat bits)%N) /\
  gen_perm 1 n bits bits n 1 k0 k1 rd rds = UB.
Proof.
  exists 2, 2, [3; 1]%N, [1; 1]%N, (ex_round 1 2 [4]), [(ex_comps 2, ex_round 1 2 [4])].
  assert (H : rround_ok 1 2 (ex_round 1 2 [4])) by (apply ex_round_ok; [cbn; lia|repeat constructor; lia|repeat constructor]).
  split; [exact H|]. split; [constructor; [split; [apply ex_comps_ok|exact H]|constructor]|]. split; [reflexivity|].
  split; [intros i Hi; destruct i as [|[|]]; try lia; reflexivity|]. vm_compute. reflexivity.
Qed.
Print Assumptions C28_one_bit_digits_refuted.
