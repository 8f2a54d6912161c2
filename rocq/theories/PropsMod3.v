(* C45, C46: bit-sliced arithmetic mod 3 and sampling of trits. *)
From Verif Require Import Base Words Mod3Tables Mod3Model Mod3Spec Mod3Proofs.

(* C45: the block overloads, in every lane i *)
Theorem C45_block_ops : forall x1 x0 y1 y0 y i, tvalid x1 x0 i -> tvalid y1 y0 i ->
  (let z := mod3Add x1 x0 y1 y0 in tvalid (fst z) (snd z) i /\
     trit (fst z) (snd z) i = (trit x1 x0 i + trit y1 y0 i) mod 3) /\
  (let z := mod3Sub x1 x0 y1 y0 in tvalid (fst z) (snd z) i /\
     trit (fst z) (snd z) i = (trit x1 x0 i + 3 - trit y1 y0 i) mod 3) /\
  (let z := mod3Add1 x1 x0 y in tvalid (fst z) (snd z) i /\
     trit (fst z) (snd z) i = (trit x1 x0 i + b2n (N.testbit y i)) mod 3) /\
  (let z := mod3AddIn1 x1 x0 y in tvalid (fst z) (snd z) i /\
     trit (fst z) (snd z) i = (trit x1 x0 i + b2n (N.testbit y i)) mod 3).
Proof.
  exact (fun x1 x0 y1 y0 y i Vx Vy =>
    conj (mod3Add_lane Vx Vy) (conj (mod3Sub_lane Vx Vy)
      (conj (mod3Add1_lane y Vx) (mod3AddIn1_lane y Vx)))).
Qed.
Print Assumptions C45_block_ops.

(* C45: the six span overloads on spans of any (equal) length; in particular no
   out-of-bounds access.  [nthN l k] is the k-th block. *)
Theorem C45_span_ops : forall z1 z0 x1 x0 y1 y0 y n,
  length z1 = n -> length z0 = n -> length x1 = n -> length x0 = n -> length y1 = n -> length y0 = n ->
  length y = n -> span_valid x1 x0 -> span_valid y1 y0 ->
  (exists r, mod3Add_span z1 z0 x1 x0 y1 y0 = Ok r /\ span_lanes n r (fun k m l i =>
     tvalid m l i /\ trit m l i = (trit (nthN x1 k) (nthN x0 k) i + trit (nthN y1 k) (nthN y0 k) i) mod 3)) /\
  (exists r, mod3Sub_span z1 z0 x1 x0 y1 y0 = Ok r /\ span_lanes n r (fun k m l i =>
     tvalid m l i /\ trit m l i = (trit (nthN x1 k) (nthN x0 k) i + 3 - trit (nthN y1 k) (nthN y0 k) i) mod 3)) /\
  (exists r, mod3Add1_span z1 z0 x1 x0 y = Ok r /\ span_lanes n r (fun k m l i =>
     tvalid m l i /\ trit m l i = (trit (nthN x1 k) (nthN x0 k) i + b2n (N.testbit (nthN y k) i)) mod 3)) /\
  (exists r, mod3Sub1_span z1 z0 x1 x0 y = Ok r /\ span_lanes n r (fun k m l i =>
     tvalid m l i /\ trit m l i = (trit (nthN x1 k) (nthN x0 k) i + 3 - b2n (N.testbit (nthN y k) i)) mod 3)) /\
  (exists r, mod3AddIn_span x1 x0 y1 y0 = Ok r /\ span_lanes n r (fun k m l i =>
     tvalid m l i /\ trit m l i = (trit (nthN x1 k) (nthN x0 k) i + trit (nthN y1 k) (nthN y0 k) i) mod 3)) /\
  (exists r, mod3AddIn1_span x1 x0 y = Ok r /\ span_lanes n r (fun k m l i =>
     tvalid m l i /\ trit m l i = (trit (nthN x1 k) (nthN x0 k) i + b2n (N.testbit (nthN y k) i)) mod 3)).
Proof. exact mod3_spans_correct. Qed.
Print Assumptions C45_span_ops.

(* all nine lane combinations at once: x = 0,1,2 repeated, y = 0,0,0,1,1,1,2,2,2 *)
Example C45_ex :
  (forall i, (i < 9)%N -> tvalid 292 146 i) /\ (forall i, (i < 9)%N -> tvalid 448 56 i) /\
  map (fun i => trit 292 146 i) [0;1;2;3;4;5;6;7;8]%N = [0;1;2;0;1;2;0;1;2] /\
  map (fun i => trit 448 56 i) [0;1;2;3;4;5;6;7;8]%N = [0;0;0;1;1;1;2;2;2] /\
  mod3Add_span [0%N] [0%N] [292%N] [146%N] [448%N] [56%N] = Ok ([84%N], [266%N]) /\
  map (fun i => trit 84 266 i) [0;1;2;3;4;5;6;7;8]%N = [0;1;2;1;2;0;2;0;1].
Proof.
  assert (F : forall a b i, (i < 9)%N -> forallb (fun k => negb (N.testbit a (N.of_nat k) && N.testbit b (N.of_nat k))) (seq 0 9) = true -> tvalid a b i).
  { intros a b i Hi H. rewrite forallb_forall in H. specialize (H (N.to_nat i)).
    rewrite Nnat.N2Nat.id in H. unfold tvalid. apply negb_true_iff, H, in_seq. lia. }
  repeat split; try reflexivity; intros; apply F; auto.
Qed.

(* C46: table-driven sampling.  Whatever the PRNG stream, if the call returns then all
   lanes are valid trits, and the trits of every 32-bit word are exactly the base 3 digits
   of bytes below 243 (so uniform bytes give uniform trits); no out-of-bounds access. *)
Theorem C46_lookup_valid : forall fuel rnd idx n,
  sampleMod3Lookup fuel rnd idx n n = Hang \/
  exists idx' ms ls, sampleMod3Lookup fuel rnd idx n n = Ok (idx', (ms, ls)) /\
    length ms = n /\ length ls = n /\
    forall k m l, nth_error ms k = Some m -> nth_error ls k = Some l ->
      (m < 2 ^ 128)%N /\ (l < 2 ^ 128)%N /\ (forall i, tvalid m l i) /\
      forall q, q < 4 -> exists acc, trits_of_bytes (word32 m q) (word32 l q) acc.
Proof. exact sampleMod3Lookup_ok. Qed.
Print Assumptions C46_lookup_valid.

(* C46: it does return when every 16-byte block of the PRNG stream has a byte below 243 *)
Theorem C46_lookup_terminates : forall rnd idx n,
  (forall c, exists k, (k < 16)%N /\ (byte_of (rnd c) k < 243)%N) ->
  exists r, sampleMod3Lookup 128 rnd idx n n = Ok r.
Proof. exact sampleMod3Lookup_terminates. Qed.
Print Assumptions C46_lookup_terminates.

Theorem C46_lookup_size_mismatch : forall fuel rnd idx n n', n <> n' ->
  sampleMod3Lookup fuel rnd idx n n' = Throw.
Proof. exact sampleMod3Lookup_throw. Qed.
Print Assumptions C46_lookup_size_mismatch.

(* C46: no part of the key stream is used twice: the unread parts of both buffers are always
   disjoint, every pass moves on to a later 32-byte unit, every single-byte fix to a later
   byte *)
Theorem C46_fresh : forall rnd,
  (forall idx, smp_ok (smp_init idx)) /\
  (forall s ls s' ls', smp_ok s -> sample_pass rnd (s, ls) = Ok (s', ls') ->
     smp_ok s' /\ (next_unit s + 2 <= next_unit s')%N /\ sBase2 s' = sBase2 s /\ sPos2 s' = sPos2 s /\ (sIdx s <= sIdx s')%N) /\
  (forall fuel s ln s' ln', smp_ok s -> lane_fix fuel rnd s ln = Ok (s', ln') ->
     smp_ok s' /\ (next_byte s <= next_byte s')%N /\ ((lSize ln < 32)%N -> (next_byte s < next_byte s')%N) /\
     sBase1 s' = sBase1 s /\ sPos1 s' = sPos1 s /\ (sIdx s <= sIdx s')%N).
Proof. exact (fun rnd => conj smp_init_ok (conj (@sample_pass_fresh rnd) (@lane_fix_fresh rnd))). Qed.
Print Assumptions C46_fresh.

(* C46: the three lookup tables and the combined table are the base-3 digits of the index *)
Theorem C46_tables : forall b, b < 256 -> exists v lb mb w,
  nth_error mod3TableV b = Some v /\ nth_error mod3TableLsb b = Some lb /\
  nth_error mod3TableMsb b = Some mb /\ nth_error mod3Table b = Some w /\
  entry_ok b v lb mb /\
  entry_ok b (5 * N.shiftr w 16)%N (N.land w 255) (N.land (N.shiftr w 8) 255).
Proof.
  exact (fun b Hb =>
    match lookup_tables_ok Hb, full_table_ok Hb with
    | ex_intro _ v (ex_intro _ lb (ex_intro _ mb (conj H1 (conj H2 (conj H3 H4))))),
      ex_intro _ w (conj H5 H6) =>
      ex_intro _ v (ex_intro _ lb (ex_intro _ mb (ex_intro _ w
        (conj H1 (conj H2 (conj H3 (conj H5 (conj H4 H6))))))))
    end).
Qed.
Print Assumptions C46_tables.

Definition ex_rnd (c : N) : N := ((c + 3) * 299876543219876543219876543219876543211 mod 2 ^ 128)%N.
Example C46_lookup_ex : match sampleMod3Lookup 128 ex_rnd 7 9 9 with
  | Ok (i, (ms, ls)) => (i =? 143)%N && (length ms =? 9) && (length ls =? 9) &&
       negb (nth 0 ms 0 =? 0)%N && negb (nth 8 ls 0 =? 0)%N
  | _ => false end = true.
Proof. vm_compute. reflexivity. Qed.

(* C46: hash-output sampling.  Every seed other than all-ones (in the sense that some bit
   pair is not 11) gives the topmost pair that is not 11. *)
(* Missing: the seed of ones only, which is undefined (C46_sample_all_ones_refuted). *)
Theorem C46_sample_seed_partial : forall x, (exists t, (t < 64)%N /\ pair_at x t <> (true, true)) ->
  exists m l : bool, m && l = false /\ sample1Mod3 x = Ok (if m then 1%N else 0%N, if l then 1%N else 0%N) /\
   exists t, (t < 64)%N /\ pair_at x t = (m, l) /\ (forall u, (t < u < 64)%N -> pair_at x u = (true, true)).
Proof. exact sample1Mod3_val. Qed.
Print Assumptions C46_sample_seed_partial.

(* C46: n*128 seeds fill n blocks; bit t of the two outputs is the sample of seed t *)
(* Missing: seeds of ones only. *)
Theorem C46_sampleMod3_partial : forall seed n, length seed = n * 128 ->
  (forall x, In x seed -> exists t, (t < 64)%N /\ pair_at x t <> (true, true)) ->
  exists ms ls, sampleMod3 seed n n = Ok (ms, ls) /\ length ms = n * 16 /\ length ls = n * 16 /\
   forall t x, nth_error seed t = Some x ->
    exists m l p q, nth_error ms (t / 8) = Some m /\ nth_error ls (t / 8) = Some l /\
      sample1Mod3 x = Ok (p, q) /\
      N.testbit m (N.of_nat (t mod 8)) = (p =? 1)%N /\ N.testbit l (N.of_nat (t mod 8)) = (q =? 1)%N /\
      tvalid m l (N.of_nat (t mod 8)).
Proof. exact sampleMod3_spec. Qed.
Print Assumptions C46_sampleMod3_partial.

(* C46, finding: the all-ones seed makes the shift amount -1 (undefined) although the
   comment at mod3.cpp:668 promises the output 0 *)
Theorem C46_sample_all_ones_refuted : exists x, (x < 2 ^ 128)%N /\ sample1Mod3 x = UB.
Proof. exact (ex_intro _ (N.ones 128) (conj eq_refl eq_refl)). Qed.
Print Assumptions C46_sample_all_ones_refuted.

Example C46_seed_ex :
  let x := (2 ^ 128 - 2 ^ 70 - 1)%N in
  (exists t, (t < 64)%N /\ pair_at x t <> (true, true)) /\ sample1Mod3 x = Ok (0%N, 1%N) /\
  sample8Mod3 [x; 0; 1; 2 ^ 64; x; x; 5; 2 ^ 127]%N = Ok (128%N, 49%N).
Proof. split; [exists 6%N; split; [reflexivity|vm_compute; discriminate]|split; vm_compute; reflexivity]. Qed.
