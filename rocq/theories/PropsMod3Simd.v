(* C69: the two builds of the trit sampler, and the printers of its lookup tables. *)
From Verif Require Import Base Words Mod3Tables Mod3Model Mod3Spec Mod3SimdModel Mod3SimdSpec Mod3SimdProofs Mod3Proofs.

(* C69: for every key stream and every length, the build with vector instructions and the
   portable build return the same trits and leave the generator at the same place. *)
Theorem C69_same : forall fuel rnd idx n n',
  sampleMod3Simd true fuel rnd idx n n' = sampleMod3Simd false fuel rnd idx n n'.
Proof. exact (fun fuel rnd idx n n' => eq_trans (simd_eq true fuel rnd idx n n') (eq_sym (simd_eq false fuel rnd idx n n'))). Qed.
Print Assumptions C69_same.

(* C69: in both builds no assertion fails, no index leaves its table, no signed operation
   overflows and no shift amount is out of range; what comes out are n blocks of valid trits,
   the base 3 digits of stream bytes below 243. *)
Theorem C69_valid : forall sse fuel rnd idx n,
  sampleMod3Simd sse fuel rnd idx n n = Hang \/
  exists idx' ms ls, sampleMod3Simd sse fuel rnd idx n n = Ok (idx', (ms, ls)) /\
    length ms = n /\ length ls = n /\
    forall k m l, nth_error ms k = Some m -> nth_error ls k = Some l ->
      (m < 2 ^ 128)%N /\ (l < 2 ^ 128)%N /\ (forall i, tvalid m l i) /\
      forall q, q < 4 -> exists acc, trits_of_bytes (word32 m q) (word32 l q) acc.
Proof.
  intros sse fuel rnd idx n. rewrite simd_eq. exact (sampleMod3Lookup_ok fuel rnd idx n).
Qed.
Print Assumptions C69_valid.

(* C69: and both end as soon as every block of the stream has a byte below 243 *)
Theorem C69_terminates : forall sse rnd idx n,
  (forall c, exists k, (k < 16)%N /\ (byte_of (rnd c) k < 243)%N) ->
  exists r, sampleMod3Simd sse 128 rnd idx n n = Ok r.
Proof. intros sse rnd idx n H. rewrite simd_eq. exact (sampleMod3Lookup_terminates idx n H). Qed.
Print Assumptions C69_terminates.

(* C69: the vector model is the lane model of C46 *)
Theorem C69_lane_model : forall sse fuel rnd idx n n',
  sampleMod3Simd sse fuel rnd idx n n' = sampleMod3Lookup fuel rnd idx n n'.
Proof. exact simd_eq. Qed.
Print Assumptions C69_lane_model.

(* C69: the operations themselves do not agree everywhere.  The shift down agrees exactly on
   lanes without the top bit; the shift up exactly for amounts below 32, and the portable one
   is undefined otherwise. *)
Theorem C69_ops_agree : forall x s, w32 x -> w32 s ->
  ((0 < s < 32)%N -> (srli1 true s x = srli1 false s x <-> (x < 2 ^ 31)%N)) /\
  (sllv1 true x s = sllv1 false x s <-> (s < 32)%N) /\
  ((32 <= s)%N -> sllv1 false x s = UB).
Proof.
  exact (fun x s Hx Hs => conj (fun H => srli_agree Hx H) (sllv_agree x Hs)).
Qed.
Print Assumptions C69_ops_agree.

(* C69, finding: srli_epi32 of the portable type is not the instruction of the same name *)
Theorem C69_srli_refuted : exists x, w32 x /\ srli1 true 8 x <> srli1 false 8 x.
Proof. exists 2147483648%N. split; [reflexivity|]. vm_compute. discriminate. Qed.
Print Assumptions C69_srli_refuted.

(* C69: the digit counter of the table printers, for every number s of digits: after i steps
   it holds the last s base 3 digits of i, and after 3^s steps it is back at zero. *)
Theorem C69_counter : forall s i, 0 < s ->
  iter_o (vals_next s) i (repeat 0%N s) = Ok (digits3 s i) /\ digits3 s (3 ^ s) = repeat 0%N s.
Proof. exact (fun s i Hs => conj (counter_ok i Hs) (counter_wraps Hs)). Qed.
Print Assumptions C69_counter.

(* C69: the printers print the tables that are compiled in, and the third table of the second
   printer is the digits themselves *)
Theorem C69_tables : buildMod3Table = Ok mod3Table /\
  buildMod3Table2 = Ok (mod3TableV, (mod3TableLsb, (mod3TableMsb,
    map (digits3 5) (seq 0 243) ++ repeat (repeat 0%N 5) 13))).
Proof. split; vm_compute; reflexivity. Qed.
Print Assumptions C69_tables.

(* a stream whose words have the top bit set; two groups of blocks in both builds *)
Definition ex69_rnd (c : N) : N := ((c + 3) * 299876543219876543219876543219876543211 mod 2 ^ 128)%N.
Example C69_ex :
  match sampleMod3Simd true 128 ex69_rnd 7 9 9, sampleMod3Simd false 128 ex69_rnd 7 9 9 with
  | Ok (i, (ms, ls)), Ok (i', (ms', ls')) =>
      ((i =? 143) && (i' =? 143) && (nth 0 ms 0 =? nth 0 ms' 0) && negb (nth 0 ms 0 =? 0) &&
       (nth 8 ls 0 =? nth 8 ls' 0) && negb (nth 8 ls 0 =? 0))%N
  | _, _ => false end = true /\
  existsb (N.leb (2 ^ 31)) (unit_load ex69_rnd (refill1 (smp_init 7))) = true /\
  srli1 true 8 4026531840 = 15728640%N /\ srli1 false 8 4026531840 = 4293918720%N /\
  iter_o (vals_next 3) 17 (repeat 0%N 3) = Ok [2; 2; 1]%N.
Proof. repeat split; vm_compute; reflexivity. Qed.
