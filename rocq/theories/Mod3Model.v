(* Model of secure-join/Prf/mod3.h and mod3.cpp: bit-sliced arithmetic mod 3 and the
   sampling of trits.  A block is an N below 2^128; a span<block> is a [list N]. *)
From Verif Require Import Base Words Mod3Tables.

(* mod3Add(block& z1, z0, x1, x0, y1, y0), mod3.h:15-26; result (z1, z0) *)
Definition mod3Add (x1 x0 y1 y0 : N) : N * N :=
  let x1x0 := N.lxor x1 x0 in
  let zz1 := andnot (N.lxor y0 x0) (N.lxor x1x0 y1) in
  let zz0 := andnot (N.lxor x1 y1) (N.lxor x1x0 y0) in
  (zz1, zz0).

(* mod3Sub(block...), mod3.h:30-37 *)
Definition mod3Sub (x1 x0 y1 y0 : N) : N * N := mod3Add x1 x0 y0 y1.

(* mod3Add(block& z1, z0, x1, x0, y0) with a one-bit summand, mod3.h:68-83 *)
Definition mod3Add1 (x1 x0 y0 : N) : N * N :=
  let ab := N.lxor x1 x0 in
  let abc := N.land ab y0 in
  let zz1 := N.lxor x1 abc in
  let nac := andnot x1 y0 in
  let zz0 := N.lxor x0 nac in
  (zz1, zz0).

(* loop body of mod3Sub(span..., y0) with a one-bit subtrahend, mod3.h:127-135 *)
Definition mod3Sub1 (x1 x0 y : N) : N * N :=
  let x1x0 := N.lxor x1 x0 in
  (andnot x0 (N.lxor x1x0 y), andnot (N.lxor x1 y) x1x0).

(* mod3Add(block& z1, block& z0, y0), in place, mod3.h:183-190 *)
Definition mod3AddIn1 (z1 z0 y0 : N) : N * N :=
  let x1 := z1 in
  let x0 := z0 in
  let x1x0 := N.lxor x1 x0 in
  (andnot (N.lxor y0 x0) x1x0, andnot x1 (N.lxor x1x0 y0)).

(* One iteration of the span loops: store the pair at index i of the two outputs.
   All overloads load their operands of index i into locals (or __restrict reads)
   before the two stores, mod3.h:58-64, 107, 129-134, 172-178, 206. *)
Definition put2 (i : nat) (p : N * N) (z : list N * list N) : outcome (list N * list N) :=
  do a <- set (fst z) i (fst p);
  do b <- set (snd z) i (snd p);
  Ok (a, b).

(* mod3Add(span z1, z0, x1, x0, y1, y0), mod3.h:41-66.  The asserts at 46-50 are compiled
   out in release builds; a length mismatch shows up as UB here. *)
Definition mod3Add_span (z1 z0 x1 x0 y1 y0 : list N) : outcome (list N * list N) :=
  forN 0 (length z0) (fun i z =>
    do a1 <- get x1 i; do a0 <- get x0 i; do b1 <- get y1 i; do b0 <- get y0 i;
    put2 i (mod3Add a1 a0 b1 b0) z) (z1, z0).

(* mod3Sub(span z1, z0, x1, x0, y1, y0), mod3.h:142-149 *)
Definition mod3Sub_span (z1 z0 x1 x0 y1 y0 : list N) : outcome (list N * list N) :=
  mod3Add_span z1 z0 x1 x0 y0 y1.

(* mod3Add(span z1, z0, x1, x0, y0), mod3.h:92-109 *)
Definition mod3Add1_span (z1 z0 x1 x0 y0 : list N) : outcome (list N * list N) :=
  forN 0 (length x1) (fun i z =>
    do a1 <- get x1 i; do a0 <- get x0 i; do b0 <- get y0 i;
    put2 i (mod3Add1 a1 a0 b0) z) (z1, z0).

(* mod3Sub(span z1, z0, x1, x0, y0), mod3.h:117-136 *)
Definition mod3Sub1_span (z1 z0 x1 x0 y0 : list N) : outcome (list N * list N) :=
  forN 0 (length x1) (fun i z =>
    do a1 <- get x1 i; do a0 <- get x0 i; do b0 <- get y0 i;
    put2 i (mod3Sub1 a1 a0 b0) z) (z1, z0).

(* mod3Add(span z1, z0, y1, y0), in place, mod3.h:153-180 *)
Definition mod3AddIn_span (z1 z0 y1 y0 : list N) : outcome (list N * list N) :=
  forN 0 (length z0) (fun i z =>
    do a1 <- get (fst z) i; do a0 <- get (snd z) i; do b1 <- get y1 i; do b0 <- get y0 i;
    put2 i (mod3Add a1 a0 b1 b0) z) (z1, z0).

(* mod3Add(span z1, z0, y0), in place, mod3.h:193-208 *)
Definition mod3AddIn1_span (z1 z0 y0 : list N) : outcome (list N * list N) :=
  forN 0 (length z0) (fun i z =>
    do a1 <- get (fst z) i; do a0 <- get (snd z) i; do b0 <- get y0 i;
    put2 i (mod3AddIn1 a1 a0 b0) z) (z1, z0).

(* ---------------- sample8Mod3, mod3.cpp:664-692 ---------------- *)

(* one seed: mod3.cpp:674-686.  oc::countl_zero(valid) is 64 for valid = 0, so idx = -1
   and the shifts by idx are undefined.  Result (m, l). *)
Definition sample1Mod3 (x : N) : outcome (N * N) :=
  let lsbs := (x mod 2 ^ 64)%N in
  let msbs := (N.shiftr x 64 mod 2 ^ 64)%N in
  let valid := wnot 64 (N.land lsbs msbs) in
  if (valid =? 0)%N then UB else
  let idx := N.log2 valid in
  Ok (N.land (N.shiftr msbs idx) 1, N.land (N.shiftr lsbs idx) 1).

(* sample8Mod3: state (msb, lsb), bytes *)
Definition sample8Mod3 (seed : list N) : outcome (N * N) :=
  forN 0 8 (fun j ml =>
    do x <- get seed j;
    do p <- sample1Mod3 x;
    Ok (N.lor (fst ml) (N.shiftl (fst p) (N.of_nat j)),
        N.lor (snd ml) (N.shiftl (snd p) (N.of_nat j)))) (0%N, 0%N).

(* sampleMod3(seed, msbVec, lsbVec), mod3.cpp:696-711.  The two output spans are given by
   their size [nOut] in blocks; the result is their content as bytes (block b is bytes
   16b..16b+15, little endian, so bit t of the output belongs to seed t). *)
Definition sampleMod3 (seed : list N) (nOut nOutL : nat) : outcome (list N * list N) :=
  do _ <- throw_if (negb (nOut * 128 =? length seed));
  do _ <- throw_if (negb (nOut =? nOutL));
  forN 0 (length seed / 8) (fun i ml =>
    do s <- readN seed (8 * i) 8;
    do p <- sample8Mod3 s;
    Ok (fst ml ++ [fst p], snd ml ++ [snd p])) ([], []).

(* ---------------- sampleMod3Lookup, mod3.cpp:506-661 ---------------- *)

(* a u32 lane of lsbSum, msbSum and size (mod3.cpp:527-529) *)
Record lane := Lane { lLsb : N; lMsb : N; lSize : N }.

(* byte b of a key stream block, in memory order (mod3.cpp:523-525) *)
Definition byte_of (x : N) (b : N) : N := N.land (N.shiftr x (8 * b)) 255.

(* one byte goes through the three tables and is shifted in, mod3.cpp:566-613;
   sllv_epi32 / add_epi32 act on u32 lanes. *)
Definition lane_byte (ln : lane) (b : N) : outcome lane :=
  do v <- get mod3TableV (N.to_nat b);
  do lb <- get mod3TableLsb (N.to_nat b);
  do mb <- get mod3TableMsb (N.to_nat b);
  Ok (Lane (N.lor (N.shiftl (lLsb ln) v mod 2 ^ 32) lb)
           (N.lor (N.shiftl (lMsb ln) v mod 2 ^ 32) mb)
           ((lSize ln + v) mod 2 ^ 32))%N.

(* The PRNG: [rnd i] is the i-th block of the AES counter mode stream.  The two
   buffers rands (128 blocks, read in units of 32 bytes) and rands2 (8 blocks, read
   bytewise) hold consecutive stream blocks, so each is its first counter and a
   position (mod3.cpp:519-525).  sIdx is prng.mBlockIdx. *)
Record smp := Smp { sIdx : N; sBase1 : N; sPos1 : N; sBase2 : N; sPos2 : N }.

(* randsPtr = e; rands2Ptr = e2: both buffers start empty, mod3.cpp:522-525 *)
Definition smp_init (idx : N) : smp := Smp idx 0 64 0 128.

(* mod3.cpp:542-549: refill rands if it is used up *)
Definition refill1 (s : smp) : smp :=
  if (64 <=? sPos1 s)%N then Smp (sIdx s + 128) (sIdx s) 0 (sBase2 s) (sPos2 s) else s.

(* mod3.cpp:631-636: refill rands2 if it is used up *)
Definition refill2 (s : smp) : smp :=
  if (sPos2 s =? 128)%N then Smp (sIdx s + 8) (sBase1 s) (sPos1 s) (sIdx s) 0 else s.

(* byte j (0..3) of u32 lane k (0..7) of the current 256-bit unit, mod3.cpp:549-553:
   (indexBase >> 8j) & 255.  The unit is stream blocks base+2p, base+2p+1. *)
Definition unit_byte (rnd : N -> N) (s : smp) (j k : nat) : N :=
  let blk := rnd (sBase1 s + 2 * sPos1 s + N.of_nat (k / 4))%N in
  byte_of blk (N.of_nat (4 * (k mod 4) + j)).

(* one pass k of the loop mod3.cpp:540-614 over all 32 lanes; lane index 8*j + k is
   lane k of the j-th SampleBlock256 *)
Definition sample_pass (rnd : N -> N) (st : smp * list lane) : outcome (smp * list lane) :=
  let s := refill1 (fst st) in
  do lanes' <- forN 0 32 (fun q ls =>
      do ln <- get ls q;
      do ln' <- lane_byte ln (unit_byte rnd s (q / 8) (q mod 8));
      set ls q ln') (snd st);
  Ok (Smp (sIdx s) (sBase1 s) (sPos1 s + 1) (sBase2 s) (sPos2 s), lanes').

(* while (sizek < 32), mod3.cpp:629-648, at most [fuel] iterations *)
Fixpoint lane_fix (fuel : nat) (rnd : N -> N) (s : smp) (ln : lane) : outcome (smp * lane) :=
  if (lSize ln <? 32)%N then
    match fuel with
    | 0 => Hang
    | S f =>
      let s := refill2 s in
      let b := byte_of (rnd (sBase2 s + sPos2 s / 16)%N) (sPos2 s mod 16) in
      let s := Smp (sIdx s) (sBase1 s) (sPos1 s) (sBase2 s) (sPos2 s + 1) in
      do v <- get mod3Table (N.to_nat b);
      let lsbj := N.land v 255 in
      let msbj := N.land (N.shiftr v 8) 255 in
      let flag := (5 * N.shiftr v 16)%N in
      lane_fix f rnd s
        (Lane (N.lor (N.shiftl (lLsb ln) flag mod 2 ^ 32) lsbj)
              (N.lor (N.shiftl (lMsb ln) flag mod 2 ^ 32) msbj)
              (lSize ln + flag)%N)
    end
  else Ok (s, ln).

(* the loops over j and k, mod3.cpp:616-650 *)
Definition sample_fix (fuel : nat) (rnd : N -> N) (st : smp * list lane)
  : outcome (smp * list lane) :=
  forN 0 32 (fun q st =>
    do ln <- get (snd st) q;
    do r <- lane_fix fuel rnd (fst st) ln;
    do ls <- set (snd st) q (snd r);
    Ok (fst r, ls)) st.

(* four consecutive u32 lanes form one output block (std::copy of the raw bytes,
   mod3.cpp:655-656) *)
Definition block_of (ws : list N) : N :=
  match ws with
  | [a; b; c; d] => N.lor (N.lor a (N.shiftl b 32)) (N.lor (N.shiftl c 64) (N.shiftl d 96))
  | _ => 0%N
  end.

(* the body of the loop over i, mod3.cpp:531-660: one group of up to 8 blocks.
   State: sampler, msb output, lsb output. [n] is msbVec.size(). *)
Definition sample_group (fuel : nat) (rnd : N -> N) (n g : nat)
  (st : smp * (list N * list N)) : outcome (smp * (list N * list N)) :=
  do r <- forN 0 8 (fun _ st => sample_pass rnd st) (fst st, repeat (Lane 0 0 0) 32);
  do r <- sample_fix fuel rnd r;
  let cnt := Nat.min (n - 8 * g) 8 in
  let blk f q := block_of (map f (slice (snd r) (4 * q) 4)) in
  Ok (fst r, (fst (snd st) ++ map (blk lMsb) (seq 0 cnt),
              snd (snd st) ++ map (blk lLsb) (seq 0 cnt))).

(* sampleMod3Lookup, mod3.cpp:506-661; n = msbVec.size(), n' = lsbVec.size().
   The result is (prng.mBlockIdx afterwards, msbVec, lsbVec). *)
Definition sampleMod3Lookup (fuel : nat) (rnd : N -> N) (idx : N) (n n' : nat)
  : outcome (N * (list N * list N)) :=
  do _ <- throw_if (negb (n =? n'));
  do r <- forN 0 ((n + 7) / 8) (sample_group fuel rnd n) (smp_init idx, ([], []));
  Ok (sIdx (fst r), snd r).
