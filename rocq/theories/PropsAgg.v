(* C24-C26: the aggregation tree. *)
From Verif Require Import Base GmwModel ShuffleModel ShuffleSpec AggModel AggSpec ShuffleSpanProofs AggSizeProofs AggLoadProofs AggTreeProofs AggProofs.

(* ---------------- C26 ---------------- *)

(* For both implementations (sse or portable) and rows of any number of bits: unshuffling 2m bits
   puts the even positions into the first row and the odd ones into the second.  Bits behind the
   touched bytes stay. *)
Theorem C26_unshuffle sse m r r0 r1 : bytes r -> bytes r0 -> bytes r1 -> 0 < m ->
  div_ceil m 8 <= length r0 -> div_ceil m 8 <= length r1 -> div_ceil (2 * m) 8 <= length r ->
  exists r0' r1', unshuffle_row sse (2 * m) r r0 r1 = Ok (r0', r1') /\ bytes r0' /\ bytes r1' /\
    length r0' = length r0 /\ length r1' = length r1 /\
    row_bits m r0' = evens (row_bits (2 * m) r) /\ row_bits m r1' = odds (row_bits (2 * m) r) /\
    (forall k, 8 * div_ceil m 8 <= k -> sbit r0' k = sbit r0 k /\ sbit r1' k = sbit r1 k).
Proof. apply unshuffle_row_ok. Qed.
Print Assumptions C26_unshuffle.

Example C26_unshuffle_ex :
  unshuffle_row true 20 [0xca; 0x5e; 0xf3]%N [0; 0; 7]%N [0xff; 0xff]%N = Ok ([232; 13; 7]%N, [59; 13]%N) /\
  evens (row_bits 20 [0xca; 0x5e; 0xf3]%N) = row_bits 10 [232; 13; 7]%N /\
  odds (row_bits 20 [0xca; 0x5e; 0xf3]%N) = row_bits 10 [59; 13]%N.
Proof. vm_compute. repeat split. Qed.

Theorem C26_shuffle sse m r0 r1 r : bytes r0 -> bytes r1 -> bytes r ->
  div_ceil m 8 <= length r0 -> div_ceil m 8 <= length r1 -> div_ceil (2 * m) 8 <= length r ->
  exists r', shuffle_row sse (2 * m) r0 r1 r = Ok r' /\ bytes r' /\ length r' = length r /\
    row_bits (2 * m) r' = interleave (row_bits m r0) (row_bits m r1) /\
    (forall k, 8 * div_ceil (2 * m) 8 <= k -> sbit r' k = sbit r k).
Proof. apply shuffle_row_ok. Qed.
Print Assumptions C26_shuffle.

Example C26_shuffle_ex :
  shuffle_row false 20 [200; 1]%N [59; 3]%N [0; 0; 0; 9]%N = Ok [0xca; 0x5a; 0x0b; 9]%N.
Proof. vm_compute. reflexivity. Qed.

(* The two are inverse to each other, whichever implementation runs on either side. *)
Theorem C26_shuffle_unshuffle s s' in0 in1 out o0 o1 : bytes in0 -> bytes in1 -> bytes out -> bytes o0 -> bytes o1 ->
  length in0 = length in1 -> length out = 2 * length in0 -> length o0 = length in0 -> length o1 = length in0 ->
  (do r <- shuffle_span s in0 in1 out; unshuffle_span s' r o0 o1) = Ok (in0, in1).
Proof. apply roundtrip_ok. Qed.
Print Assumptions C26_shuffle_unshuffle.

Example C26_shuffle_unshuffle_ex :
  (do r <- shuffle_span true [1; 2; 0x83]%N [255; 0; 9]%N [0; 0; 0; 0; 0; 0]%N; unshuffle_span false r [7; 7; 7]%N [0; 0; 0]%N)
  = Ok ([1; 2; 0x83]%N, [255; 0; 9]%N).
Proof. vm_compute. reflexivity. Qed.

Theorem C26_unshuffle_shuffle s s' m r r0 r1 q : bytes r -> bytes r0 -> bytes r1 -> bytes q -> 0 < m ->
  div_ceil m 8 <= length r0 -> div_ceil m 8 <= length r1 -> div_ceil (2 * m) 8 <= length r -> div_ceil (2 * m) 8 <= length q ->
  exists r', (do o <- unshuffle_row s (2 * m) r r0 r1; shuffle_row s' (2 * m) (fst o) (snd o) q) = Ok r' /\
    row_bits (2 * m) r' = row_bits (2 * m) r.
Proof.
  intros B B0 B1 Bq Hm H0 H1 Hr Hq.
  destruct (unshuffle_row_ok s B B0 B1 Hm H0 H1 Hr) as [r0' [r1' [-> [C0 [C1 [L0 [L1 [E0 [E1 _]]]]]]]]]. cbn [bind fst snd].
  destruct (@shuffle_row_ok s' m r0' r1' q C0 C1 Bq) as [r' [E [_ [_ [ER _]]]]]; try lia.
  exists r'. split; [exact E|]. rewrite ER, E0, E1.
  apply (@interleave_evens _ _ m). unfold row_bits. rewrite map_length, seq_length. reflexivity.
Qed.
Print Assumptions C26_unshuffle_shuffle.

Example C26_unshuffle_shuffle_ex :
  (do o <- unshuffle_row true 20 [0xca; 0x5e; 0x03]%N [0; 0]%N [0; 0]%N; shuffle_row false 20 (fst o) (snd o) [0; 0; 0]%N)
  = Ok [0xca; 0x5e; 0x03]%N.
Proof. vm_compute. reflexivity. Qed.

(* The vector implementation and the portable one compute the same bytes. *)
Theorem C26_variants_agree in0 in1 out : bytes in0 -> bytes in1 -> bytes out ->
  length in0 = length in1 -> length in0 = (length out + 1) / 2 ->
  sse_shuffle_span in0 in1 out = c_shuffle_span in0 in1 out.
Proof. apply variants_agree. Qed.
Print Assumptions C26_variants_agree.

Theorem C26_unshuffle_variants_agree inp out0 out1 : bytes inp -> bytes out0 -> bytes out1 ->
  length out0 = length out1 -> length out0 = (length inp + 1) / 2 ->
  sse_unshuffle_span inp out0 out1 = c_unshuffle_span inp out0 out1.
Proof. apply unvariants_agree. Qed.
Print Assumptions C26_unshuffle_variants_agree.

Example C26_variants_agree_ex :
  sse_shuffle_span [0x81; 0x55; 3]%N [0x0f; 0xaa; 4]%N [0; 0; 0; 0; 0]%N = Ok [0xab; 0x40; 0x99; 0x99; 0x25]%N /\
  c_shuffle_span [0x81; 0x55; 3]%N [0x0f; 0xaa; 4]%N [0; 0; 0; 0; 0]%N = Ok [0xab; 0x40; 0x99; 0x99; 0x25]%N /\
  sse_unshuffle_span [0xab; 0x40; 0x99; 0x99; 0x25]%N [0; 0; 0]%N [0; 0; 0]%N = c_unshuffle_span [0xab; 0x40; 0x99; 0x99; 0x25]%N [0; 0; 0]%N [0; 0; 0]%N.
Proof. vm_compute. repeat split. Qed.

(* ---------------- C25 ---------------- *)

(* Full statement: for every n >= 1.  Missing: n = 1, where it is false (C25_one_row_refuted).
   For n >= 2 rows: the sizes describe a binary tree (see tree_shape) over the padded leaves. *)
Theorem C25_shape_partial n : 2 <= n -> exists sh, tree_sizes n = Ok sh /\ sN sh = n /\
  n <= sN16 sh /\ sN16 sh = Nat.min (2 ^ Nat.log2_up n) (round_up n 16) /\ Nat.even (sN16 sh) = true /\
  tree_shape (sN16 sh) (sSizes sh).
Proof.
  intros Hn. destruct (tree_sizes_ok Hn) as [sh [E HF]]. exists sh. split; [exact E|].
  destruct (facts_half HF) as [E1 [E2 [h Eh]]]. split; [exact E1|]. split; [exact E2|]. split; [|split].
  - unfold tree_sizes in E. destruct (n =? 0); [discriminate E|]. cbv zeta in E.
    repeat match type of E with
    | (do _ <- ?o; _) = _ => destruct o; cbn [bind] in E; try discriminate E
    | (if ?b then UB else _) = _ => destruct b; try discriminate E
    end.
    assert (E' := f_equal (fun o => match o with Ok s => sN16 s | _ => 0 end) E). symmetry. exact E'.
  - rewrite Eh. rewrite Nat.even_mul. reflexivity.
  - apply (size_facts_shape HF).
Qed.
Print Assumptions C25_shape_partial.

(* 37 rows: 48 leaves, 32 of them below level 1 and 16 on it *)
Example C25_shape_ex : tree_sizes 37 = Ok (Shape 37 48 false 16 [32; 32; 16; 8; 4; 2; 1]) /\
  tree_sizes 5 = Ok (Shape 5 8 true 0 [8; 4; 2; 1]).
Proof. vm_compute. split; reflexivity. Qed.

(* Loading: the leaves, read alternately from the two halves, are the rows in order followed by
   zeros; the prefix tree carries the row's own control bit, the suffix tree the next row's. *)
Theorem C25_load_pre V (zero : V) h src ctrl : length src = length ctrl -> length src <= 2 * h ->
  exists l r, load_pre zero (2 * h) src ctrl = Ok (l, r) /\ length l = h /\ length r = h /\
    interleave l r = combine src ctrl ++ repeat (zero, false) (2 * h - length src).
Proof.
  intros HL Hn. pose proof (pre_leaves_length zero HL Hn) as HX. destruct (evens_length HX) as [L1 L2].
  do 2 eexists. split; [apply load_pre_ok; assumption|]. split; [exact L1|]. split; [exact L2|].
  apply (interleave_evens HX).
Qed.
Print Assumptions C25_load_pre.

Theorem C25_load_suf V (zero : V) h src ctrl : length src = length ctrl -> 2 <= length src -> length src <= 2 * h ->
  exists l r, load_suf zero (2 * h) src ctrl = Ok (l, r) /\ length l = h /\ length r = h /\
    interleave l r = combine src (tl ctrl ++ [false]) ++ repeat (zero, false) (2 * h - length src).
Proof.
  intros HL H2 Hn. assert (HX : length (suf_leaves zero (2 * h) src ctrl) = 2 * h) by (apply suf_leaves_length; try assumption; lia).
  destruct (evens_length HX) as [L1 L2].
  do 2 eexists. split; [apply load_suf_ok; assumption|]. split; [exact L1|]. split; [exact L2|].
  apply (interleave_evens HX).
Qed.
Print Assumptions C25_load_suf.

Example C25_load_ex :
  load_pre 0 4 [7; 8; 9] [false; true; false] = Ok ([(7, false); (9, false)], [(8, true); (0, false)]) /\
  load_suf 0 4 [7; 8; 9] [false; true; false] = Ok ([(7, true); (9, false)], [(8, false); (0, false)]).
Proof. vm_compute. split; reflexivity. Qed.

(* FINDING.  One row: mLevelSizes has a single entry, and mLevelSizes[1] is written out of bounds. *)
Theorem C25_one_row_refuted : tree_sizes 1 = UB /\
  forall V (op : V -> V -> V) (zero x : V) c ty, agg_apply ty op zero [x] [c] = UB.
Proof. split; [reflexivity|]. intros V op zero x c ty. destruct ty; reflexivity. Qed.
Print Assumptions C25_one_row_refuted.

(* ---------------- C24 ---------------- *)

Theorem C24_prefix V (op : V -> V -> V) (zero : V) src ctrl : assoc_op op ->
  2 <= length src -> length src = length ctrl -> nth_error ctrl 0 = Some false ->
  agg_apply Prefix op zero src ctrl
  = Ok (map (fun i => agg_range op zero src (blk_start ctrl i) (i + 1)) (seq 0 (length src))).
Proof. intros H. apply agg_prefix_ok. exact H. Qed.
Print Assumptions C24_prefix.

(* the suffix scan does not read the first control bit *)
Theorem C24_suffix V (op : V -> V -> V) (zero : V) src ctrl : assoc_op op ->
  2 <= length src -> length src = length ctrl ->
  agg_apply Suffix op zero src ctrl
  = Ok (map (fun i => agg_range op zero src i (blk_end ctrl i)) (seq 0 (length src))).
Proof. intros H. apply agg_suffix_ok. exact H. Qed.
Print Assumptions C24_suffix.

Theorem C24_full V (op : V -> V -> V) (zero : V) src ctrl : assoc_op op ->
  2 <= length src -> length src = length ctrl -> nth_error ctrl 0 = Some false ->
  agg_apply Full op zero src ctrl
  = Ok (map (fun i => agg_range op zero src (blk_start ctrl i) (blk_end ctrl i)) (seq 0 (length src))).
Proof. intros H. apply agg_full_ok. exact H. Qed.
Print Assumptions C24_full.

(* concatenation: associative and not commutative; blocks {1,2,3}, {4}, {5} *)
Example C24_ex :
  let src := [[1]; [2]; [3]; [4]; [5]] in
  let c := [false; true; true; false; false] in
  agg_apply Prefix (@app nat) [] src c = Ok [[1]; [1; 2]; [1; 2; 3]; [4]; [5]] /\
  agg_apply Suffix (@app nat) [] src c = Ok [[1; 2; 3]; [2; 3]; [3]; [4]; [5]] /\
  agg_apply Full (@app nat) [] src c = Ok [[1; 2; 3]; [1; 2; 3]; [1; 2; 3]; [4]; [5]] /\
  map (blk_start c) (seq 0 5) = [0; 0; 0; 3; 4] /\ map (blk_end c) (seq 0 5) = [3; 3; 3; 4; 5] /\
  assoc_op (@app nat).
Proof. vm_compute. repeat split. intros a b d. apply app_assoc. Qed.

(* an incomplete tree: 37 rows, sums of blocks of 5 *)
Example C24_incomplete_ex :
  agg_apply Full Nat.add 0 (repeat 1 37) (map (fun i => negb (i mod 5 =? 0)) (seq 0 37)) = Ok (repeat 5 35 ++ [2; 2]).
Proof. vm_compute. reflexivity. Qed.

(* FINDING.  Nothing forces the first control bit to 0, and with a 1 the aggregate at the root is
   combined into the first block. *)
Theorem C24_first_bit_refuted :
  let src := [1; 2; 4; 5] in
  let c := [true; true; false; true] in
  agg_apply Prefix Nat.add 0 src c = Ok [10; 12; 4; 9] /\ map (fun i => agg_range Nat.add 0 src (blk_start c i) (i + 1)) (seq 0 4) = [1; 3; 4; 9].
Proof. vm_compute. split; reflexivity. Qed.
Print Assumptions C24_first_bit_refuted.
