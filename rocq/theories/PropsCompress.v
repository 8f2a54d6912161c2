(* C42, C43, C53: compressed correlations and the SIMD helpers they use. *)
From Verif Require Import Base Words Mod3Model Mod3Spec GF4Model GF4Spec SimdModel CompressModel CompressSpec SimdProofs CompressProofs.

(* C42: for every hash H, every delta and every correlated OT vector of k blocks of 128, both
   compressions succeed, fill their k-block outputs, and in every bit position
   add_s xor add_r = mult_s and mult_r; the receiver's mult is its choice bit. *)
Theorem C42_ole : forall (H : N -> N) delta A B k, length A = k * 128 -> cot delta A B ->
  exists addR multR addS multS,
   ole_compress_recver H A k k = Ok (addR, multR) /\ ole_compress_sender H delta B k k = Ok (addS, multS) /\
   length addR = k * 8 /\ length multR = k * 16 /\ length addS = k * 8 /\ length multS = k * 8 /\
   forall p, p < k * 128 ->
    buf_bit 8 multR p = N.testbit (nth p A 0%N) 0 /\
    xorb (buf_bit 16 addS p) (buf_bit 16 addR p) = buf_bit 16 multS p && buf_bit 8 multR p.
Proof. exact ole_compress_ok. Qed.
Print Assumptions C42_ole.

(* C42: the sender's mult bit is the xor of the two hash bits: not a constant *)
Theorem C42_ole_sender_bits : forall (H : N -> N) delta B k, length B = k * 128 ->
  exists add mult, ole_compress_sender H delta B k k = Ok (add, mult) /\ length add = k * 8 /\ length mult = k * 8 /\
   (forall p, p < k * 128 -> buf_bit 16 add p = N.testbit (H (N.land (nth p B 0%N) mask1)) 0) /\
   (forall p, p < k * 128 -> buf_bit 16 mult p =
      xorb (N.testbit (H (N.land (nth p B 0%N) mask1)) 0)
           (N.testbit (H (N.lxor (N.land (nth p B 0%N) mask1) (N.land delta mask1))) 0)).
Proof. exact ole_sender_ok. Qed.
Print Assumptions C42_ole_sender_bits.

(* C42: output spans of the wrong size are rejected *)
Theorem C42_size_check : forall (H : N -> N) delta A a m, a * 128 <> length A \/ m * 128 <> length A ->
  ole_compress_recver H A a m = Throw /\ ole_compress_sender H delta A a m = Throw.
Proof.
  intros H delta A a m Hn. unfold ole_compress_recver, ole_compress_sender.
  destruct (Nat.eqb_spec (a * 128) (length A)); [|split; reflexivity].
  destruct (Nat.eqb_spec (m * 128) (length A)); [|split; reflexivity]. lia.
Qed.
Print Assumptions C42_size_check.

(* C42: libOTe's correlated OTs with packed choice bits meet the hypothesis *)
Theorem C42_cot : forall delta c B, length c = length B -> N.testbit delta 0 = true ->
  (forall b, In b B -> N.testbit b 0 = false) ->
  cot delta (map2 (fun (x : bool) b => if x then N.lxor b delta else b) c B) B.
Proof. exact cot_intro. Qed.
Print Assumptions C42_cot.

(* C42: the mock OLEs are valid for every batch and size *)
Theorem C42_mock : forall aes m, (aes < 2 ^ 128)%N -> (N.of_nat m <= 2 ^ 64)%N ->
  exists addS multS addR multR, ole_mock_sender aes m = Ok (addS, multS) /\ ole_mock_recver aes m = Ok (addR, multR) /\
   length addS = m /\ length multS = m /\ length addR = m /\ length multR = m /\
   forall i, i < m -> N.lxor (nth i addS 0%N) (nth i addR 0%N) = N.land (nth i multS 0%N) (nth i multR 0%N).
Proof. exact ole_mock_ok. Qed.
Print Assumptions C42_mock.

Definition ex_c := map (fun i => Nat.eqb (i mod 3) 1) (seq 0 128).
Definition ex_B := map (fun i => N.of_nat (2 * i)) (seq 0 128).
Definition ex_delta : N := 0x1235.
Definition ex_A := map2 (fun (x : bool) b => if x then N.lxor b ex_delta else b) ex_c ex_B.
Definition ex_H (x : N) : N := N.shiftr x 2.

Example C42_ex : length ex_A = 1 * 128 /\ cot ex_delta ex_A ex_B /\
  (exists a m, ole_compress_recver ex_H ex_A 1 1 = Ok (a, m) /\ nth 0 m 0%N = 0x92%N /\ nth 0 a 0%N = 59486%N).
Proof.
  split; [reflexivity|]. split.
  - apply cot_intro; [reflexivity|reflexivity|]. intros b Hb. apply in_map_iff in Hb.
    destruct Hb as (i & <- & _). rewrite Nat2N.inj_mul. apply N.testbit_even_0.
  - eexists _, _. split; [vm_compute; reflexivity|]. split; reflexivity.
Qed.

(* C43, trit OT: whenever the sender's compression completes (it does unless some hash is
   all ones, see C46_sample_all_ones_refuted), so does the receiver's, and in each position the
   receiver's trit is the sender's trit number c, c the receiver's choice bit; all trits are
   valid encodings. *)
(* Missing: a hash that is all ones, which is undefined. *)
Theorem C43_trit_partial : forall (H : N -> N) delta A B k m0 l0 m1 l1, length A = k * 128 -> cot delta A B ->
  trit_compress_sender H delta B = Ok ((m0, l0), (m1, l1)) ->
  exists ch ms ls, trit_compress_recver H A = Ok (ch, ms, ls) /\
   length ch = k * 16 /\ length ms = k * 16 /\ length ls = k * 16 /\
   length m0 = k * 16 /\ length l0 = k * 16 /\ length m1 = k * 16 /\ length l1 = k * 16 /\
   forall p, p < k * 128 -> let c := N.testbit (nth p A 0%N) 0 in
    buf_bit 8 ch p = c /\
    buf_bit 8 ms p = (if c then buf_bit 8 m1 p else buf_bit 8 m0 p) /\
    buf_bit 8 ls p = (if c then buf_bit 8 l1 p else buf_bit 8 l0 p) /\
    buf_bit 8 m0 p && buf_bit 8 l0 p = false /\ buf_bit 8 m1 p && buf_bit 8 l1 p = false.
Proof. exact trit_compress_ok. Qed.
Print Assumptions C43_trit_partial.

(* C43, trit OT: the sender's compression completes when no hash it takes is all ones, and its
   trits are the samples of the two hashes *)
Theorem C43_trit_sender : forall (H : N -> N) delta B k, length B = k * 128 ->
  (forall p, p < length B -> exists t, (t < 64)%N /\ pair_at (H (N.land (nth p B 0%N) mask1)) t <> (true, true)) ->
  (forall p, p < length B -> exists t, (t < 64)%N /\
     pair_at (H (N.lxor (N.land (nth p B 0%N) mask1) (N.land delta mask1))) t <> (true, true)) ->
  exists m0 l0 m1 l1, trit_compress_sender H delta B = Ok ((m0, l0), (m1, l1)).
Proof.
  intros H delta B k HL H0 H1. destruct (@trit_sender_ok H delta B k HL H0 H1) as (a & b & c & d & E & _).
  exists a, b, c, d. exact E.
Qed.
Print Assumptions C43_trit_sender.

Definition ex_H3 (x : N) : N := N.lor (N.shiftl x 60) (N.shiftl x 122).
Example C43_trit_ex : cot ex_delta ex_A ex_B /\
  (exists m0 l0 m1 l1, trit_compress_sender ex_H3 ex_delta ex_B = Ok ((m0, l0), (m1, l1)) /\ nth 5 l0 0%N = 240%N).
Proof.
  split; [apply C42_ex|]. eexists _, _, _, _. split; [vm_compute; reflexivity|]. reflexivity.
Qed.

(* C43, F4 OT: for every F4 VOLE of 16k entries the receiver's bit is the sender's bit number
   c = lsb + 2 msb, the receiver's two choice bits *)
Theorem C43_f4 : forall (H : N -> N) delta A B k, length A = k * 16 -> f4_vole delta A B ->
  exists ots ls ms o0 o1 o2 o3, f4_compress_recver H A = Ok (ots, ls, ms) /\
   f4_compress_sender H delta B = Ok (o0, o1, o2, o3) /\
   length ots = k /\ length ls = 2 * k /\ length ms = 2 * k /\
   length o0 = k /\ length o1 = k /\ length o2 = k /\ length o3 = k /\
   forall p, p < 16 * k ->
    buf_bit 8 ls p = N.testbit (nth p A 0%N) 0 /\ buf_bit 8 ms p = N.testbit (nth p A 0%N) 1 /\
    buf_bit 16 ots p = nth (b2n (buf_bit 8 ls p) + 2 * b2n (buf_bit 8 ms p))
      [buf_bit 16 o0 p; buf_bit 16 o1 p; buf_bit 16 o2 p; buf_bit 16 o3 p] false.
Proof. exact f4_compress_ok. Qed.
Print Assumptions C43_f4.

(* C43, F4 OT: there is no size check: a vector whose size is no multiple of 16 is read out of
   bounds (TritOtBatch and BinOleBatch throw) *)
Theorem C43_f4_size_refuted : exists (A : list N), length A mod 16 <> 0 /\
  f4_compress_recver (fun x => x) A = UB /\ f4_compress_sender (fun x => x) 0 A = UB.
Proof. exists [0%N]. split; [discriminate|]. split; reflexivity. Qed.
Print Assumptions C43_f4_size_refuted.

(* C43: the mock trit OTs are valid *)
Theorem C43_mock : forall m i k, i < m -> (k < 128)%N ->
  let '((m0, l0), (m1, l1)) := trit_mock_sender m in
  let '(ch, ms, ls) := trit_mock_recver m in
  let bit (l : list N) := N.testbit (nth i l 0%N) k in
  bit ms = (if bit ch then bit m1 else bit m0) /\ bit ls = (if bit ch then bit l1 else bit l0) /\
  bit m0 && bit l0 = false /\ bit m1 && bit l1 = false.
Proof. exact trit_mock_ok. Qed.
Print Assumptions C43_mock.

(* C43: VOLEs with packed choices meet the hypothesis *)
Theorem C43_vole : forall delta cs B, length cs = length B -> (forall c, In c cs -> (c < 4)%N) ->
  gelem delta 0 = g1 -> (forall b, In b B -> gelem b 0 = g0) -> f4_vole delta (map2 (vole_entry delta) cs B) B.
Proof. exact f4_vole_intro. Qed.
Print Assumptions C43_vole.

Definition ex4_c := map (fun i => N.of_nat (i mod 4)) (seq 0 16).
Definition ex4_B := map (fun i => N.of_nat (4 * i)) (seq 0 16).
Definition ex4_A := map2 (vole_entry 0xB1) ex4_c ex4_B.
Definition ex_H4 (x : N) : N := N.lxor (N.shiftr x 4) (N.shiftr x 5).
Example C43_f4_ex : length ex4_A = 1 * 16 /\ f4_vole 0xB1 ex4_A ex4_B /\ nth 6 ex4_A 0%N = 202%N /\
  f4_compress_recver ex_H4 ex4_A = Ok ([49980%N], [170%N; 170%N], [204%N; 204%N]) /\
  f4_compress_sender ex_H4 0xB1 ex4_B = Ok ([4080%N], [4080%N], [61455%N], [61455%N]).
Proof.
  split; [reflexivity|]. split.
  - apply f4_vole_intro; [reflexivity| |reflexivity|].
    + intros c Hc. apply in_map_iff in Hc. destruct Hc as (i & <- & _).
      pose proof (Nat.mod_upper_bound i 4 ltac:(lia)). lia.
    + intros b Hb. apply in_map_iff in Hb. destruct Hb as (i & <- & Hi). apply in_seq in Hi.
      destruct Hi as [_ Hi]. do 16 (destruct i as [|i]; [reflexivity|]). lia.
  - split; [reflexivity|]. split; vm_compute; reflexivity.
Qed.

(* C53: the portable fallbacks.  slli_epi16 and storeu_si32 equal the instructions. *)
Theorem C53_slli : forall s v, slli_epi16_fb s v = slli_epi16 s v.
Proof. exact slli_fb_ok. Qed.
Print Assumptions C53_slli.
Theorem C53_storeu : forall a, storeu_si32_fb a = storeu_si32 a.
Proof. exact storeu_fb_ok. Qed.
Print Assumptions C53_storeu.

(* C53, partial: shuffle_epi8 agrees when no control byte has its top bit set.  Missing: control
   bytes with the top bit, for which the fallback is wrong (next theorems). *)
Theorem C53_shuffle_partial : forall a b, (forall j, j < 16 -> N.testbit b (8 * N.of_nat j + 7) = false) ->
  shuffle_epi8_fb a b = shuffle_epi8 a b.
Proof. exact shuffle_fb_ok. Qed.
Print Assumptions C53_shuffle_partial.

(* the hardware semantics used above, bit by bit *)
Theorem C53_hardware_bits :
  (forall a b j k, j < 16 -> (k < 8)%N -> N.testbit (shuffle_epi8 a b) (8 * N.of_nat j + k) =
    if N.testbit b (8 * N.of_nat j + 7) then false else N.testbit (byte_of a (N.land (byteN b j) 15)) k) /\
  (forall s v q r, q < 8 -> (r < 16)%N -> N.testbit (slli_epi16 s v) (16 * N.of_nat q + r) =
    (s <=? r)%N && N.testbit v (16 * N.of_nat q + (r - s))) /\
  (forall v j, N.testbit (movemask_epi8 v) (N.of_nat j) = (j <? 16) && N.testbit v (8 * N.of_nat j + 7)).
Proof. exact (conj shuffle_bit (conj slli_bit movemask_bit)). Qed.
Print Assumptions C53_hardware_bits.

(* C53, findings: line 48 computes the mask 0xFE instead of 0; line 74 always reads byte 0 and
   takes bit 2i; line 96 stores 32-bit elements and runs past the block *)
Theorem C53_shuffle_refuted : exists a b, (a < 2 ^ 128)%N /\ (b < 2 ^ 128)%N /\ shuffle_epi8_fb a b <> shuffle_epi8 a b.
Proof. exists 2%N, 128%N. split; [reflexivity|]. split; [reflexivity|]. vm_compute. discriminate. Qed.
Print Assumptions C53_shuffle_refuted.
Theorem C53_movemask_refuted : exists v, (v < 2 ^ 128)%N /\ movemask_epi8_fb v <> movemask_epi8 v.
Proof. exists 128%N. split; [reflexivity|]. vm_compute. discriminate. Qed.
Print Assumptions C53_movemask_refuted.
Theorem C53_cmpeq_refuted : forall a b, cmpeq_epi16_fb a b = UB.
Proof. exact cmpeq_fb_ub. Qed.
Print Assumptions C53_cmpeq_refuted.

(* C53, consequence: without ENABLE_SSE every packed hash word is 0, whatever the hashes, so the
   sender's and receiver's OLE shares are all 0: still a valid correlation, but no mask at all *)
Theorem C53_compress_zero_refuted : forall m, compress16_fb m = 0%N.
Proof. exact compress16_fb_zero. Qed.
Print Assumptions C53_compress_zero_refuted.

Example C53_ex : shuffle_epi8_fb 0x030201 0x000102 = 0x01010101010101010101010101010203%N /\
  compress16 (repeat 1%N 16) = 0xFFFF%N /\ compress16_fb (repeat 1%N 16) = 0%N.
Proof. split; [vm_compute; reflexivity|]. split; vm_compute; reflexivity. Qed.
