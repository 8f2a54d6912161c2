(* SampleBlock256, the vector type of sampleMod3Lookup, in its two versions: the AVX2 one
   (mod3.cpp:310-384, compiled when ENABLE_SSE) and the portable one (mod3.cpp:385-504); the
   sampling loop at the level of these vectors with its debug assertions; and the two
   functions that print the lookup tables (mod3.cpp:159-308). *)
From Verif Require Import Base Words Mod3Tables Mod3Model.
Local Open Scope N_scope.

(* a SampleBlock256 as its eight 32 bit lanes, mod3.cpp:313 and 390 *)
Definition s256 := list N.

(* the lane read through (const i32 * )&mVal, mod3.cpp:448-449, and an i32 stored back *)
Definition to_i32 (x : N) : Z := if x <? 2 ^ 31 then Z.of_N x else (Z.of_N x - 2 ^ 32)%Z.
(* mod3.cpp:451: rr[i] = ... keeps the 32 bits *)
Definition of_i32 (z : Z) : N := Z.to_N (z mod 2 ^ 32).

(* for (i < 8) rr[i] = f(vv[i], ss[i]), the loops of mod3.cpp:444-501; the vector
   instructions of mod3.cpp:338-382 act on every lane in the same way *)
Definition lanes2 (f : N -> N -> outcome N) (a b : s256) : outcome s256 :=
  forN 0 8 (fun i r => do x <- get a i; do y <- get b i; do z <- f x y; set r i z) (repeat 0 8).

(* zero, mod3.cpp:315-317 and 392-395 *)
Definition s_zero : s256 := repeat 0 8.
(* set32, mod3.cpp:333-336 and 409-415 *)
Definition s_set32 (v : N) : s256 := repeat v 8.
(* operator&, mod3.cpp:338-341 and 417-423 *)
Definition s_and (a b : s256) : s256 := map2 N.land a b.
(* operator|, mod3.cpp:349-352 and 434-440 *)
Definition s_or (a b : s256) : s256 := map2 N.lor a b.

(* srli_epi32<s>: the instruction shifts in zeros (mod3.cpp:355-359); the portable loop
   shifts an i32, which is an arithmetic shift (mod3.cpp:443-454) *)
Definition srli1 (sse : bool) (s : N) (x : N) : N :=
  if sse then N.shiftr x s else of_i32 (Z.shiftr (to_i32 x) (Z.of_N s)).
(* mod3.cpp:355-359 and 443-454 on all lanes *)
Definition s_srli (sse : bool) (s : N) (a : s256) : s256 := map (srli1 sse s) a.

(* sllv_epi32: the instruction gives 0 for amounts from 32 on (mod3.cpp:362-365); the
   portable shift of an i32 by an i32 is undefined for amounts outside 0..31
   (mod3.cpp:457-467) *)
Definition sllv1 (sse : bool) (x s : N) : outcome N :=
  if sse then Ok (if s <? 32 then N.shiftl x s mod 2 ^ 32 else 0)
  else let d := to_i32 s in
       if ((0 <=? d) && (d <? 32))%Z then Ok (of_i32 (Z.shiftl (to_i32 x) d)) else UB.
(* mod3.cpp:362-365 and 457-467 on all lanes *)
Definition s_sllv (sse : bool) (a s : s256) : outcome s256 := lanes2 (sllv1 sse) a s.

(* i32gather_epi32<4>: both versions read the 32 bits at ptr + 4 * (signed index),
   mod3.cpp:367-371 and 469-479 *)
Definition gather1 (tab : list N) (i : N) : outcome N :=
  if (0 <=? to_i32 i)%Z then get tab (Z.to_nat (to_i32 i)) else UB.
(* mod3.cpp:367-371 and 469-479 on all lanes *)
Definition s_gather (tab : list N) (a : s256) : outcome s256 :=
  lanes2 (fun x _ => gather1 tab x) a a.

(* testz_si256, mod3.cpp:373-376 and 481-488: no common bit *)
Definition s_testz (a b : s256) : bool := forallb (N.eqb 0) (s_and a b).

(* add_epi32: wraps around in the instruction (mod3.cpp:379-382); signed overflow in the
   portable version (mod3.cpp:491-501) is undefined *)
Definition add1 (sse : bool) (x y : N) : outcome N :=
  if sse then Ok ((x + y) mod 2 ^ 32)
  else let z := (to_i32 x + to_i32 y)%Z in
       if ((- 2 ^ 31 <=? z) && (z <? 2 ^ 31))%Z then Ok (of_i32 z) else UB.
(* mod3.cpp:379-382 and 491-501 on all lanes *)
Definition s_add (sse : bool) (a b : s256) : outcome s256 := lanes2 (add1 sse) a b.

(* assert(c), e.g. mod3.cpp:579-582; a failing assertion is undefined *)
Definition s_assert (c : bool) : outcome unit := if c then Ok tt else UB.

(* lsbSum, msbSum and size, four vectors each, mod3.cpp:527-529 *)
Record sums := Sums { bLsb : list s256; bMsb : list s256; bSize : list s256 }.

(* mod3.cpp:533-538 *)
Definition sums_zero : sums := Sums (repeat s_zero 4) (repeat s_zero 4) (repeat s_zero 4).

(* SampleBlock256 indexBase(randsPtr), mod3.cpp:549: two stream blocks as eight u32 *)
Definition unit_load (rnd : N -> N) (s : smp) : s256 :=
  map (fun k => N.land (N.shiftr (rnd (sBase1 s + 2 * sPos1 s + N.of_nat (k / 4)))
                                 (32 * N.of_nat (k mod 4))) (N.ones 32)) (seq 0 8).

(* v_, lsb_ and msb_ of one j, mod3.cpp:528 *)
Definition looked : Type := s256 * (s256 * s256).

(* the loop over j, mod3.cpp:550-569: index bytes, then three gathers; the result lists the
   vectors of j = 0..3 *)
Definition lookups (sse : bool) (base : s256) : outcome (s256 * list looked) :=
  forN 0 4 (fun _ st =>
    let indexes := s_and (fst st) (s_set32 255) in
    let base' := s_srli sse 8 (fst st) in
    do v <- s_gather mod3TableV indexes;
    do l <- s_gather mod3TableLsb indexes;
    do m <- s_gather mod3TableMsb indexes;
    Ok (base', snd st ++ [(v, (l, m))])) (base, []).

(* the statements for one j of mod3.cpp:573-613.  The code does each statement for the four
   j in turn; here all statements of one j come first, which only changes which of several
   failing assertions is reported. *)
Definition shift_in (sse : bool) (x : looked) (L M Z : s256)
  : outcome (s256 * (s256 * s256)) :=
  let v := fst x in let l := fst (snd x) in let m := snd (snd x) in
  do L1 <- s_sllv sse L v;
  do _ <- s_assert (s_testz L1 l);
  let L2 := s_or L1 l in
  do M1 <- s_sllv sse M v;
  let M2 := s_or M1 m in
  do _ <- s_assert (s_testz L2 m);
  do Z1 <- s_add sse Z v;
  Ok (L2, (M2, Z1)).

(* pass k of the loop, mod3.cpp:540-614, on the vectors *)
Definition simd_pass (sse : bool) (rnd : N -> N) (st : smp * sums) : outcome (smp * sums) :=
  let s := refill1 (fst st) in
  do r <- lookups sse (unit_load rnd s);
  do b <- forN 0 4 (fun j b =>
      do x <- get (snd r) j;
      do L <- get (bLsb b) j; do M <- get (bMsb b) j; do Z <- get (bSize b) j;
      do y <- shift_in sse x L M Z;
      do L' <- set (bLsb b) j (fst y);
      do M' <- set (bMsb b) j (fst (snd y));
      do Z' <- set (bSize b) j (snd (snd y));
      Ok (Sums L' M' Z')) (snd st);
  Ok (Smp (sIdx s) (sBase1 s) (sPos1 s + 1) (sBase2 s) (sPos2 s), b).

(* (u32 * )&lsbSum[j] and so on, mod3.cpp:621-627: lane k of vector j *)
Definition lane_at (b : list s256) (q : nat) : N := nth (q mod 8) (nth (q / 8) b []) 0.
(* the 32 lanes the fix-up loop mod3.cpp:616-650 works on *)
Definition sums_lanes (b : sums) : list lane :=
  map (fun q => Lane (lane_at (bLsb b) q) (lane_at (bMsb b) q) (lane_at (bSize b) q)) (seq 0 32).

(* the body of the loop over i, mod3.cpp:531-660, with the assertions 653-654 *)
Definition simd_group (sse : bool) (fuel : nat) (rnd : N -> N) (n n' g : nat)
  (st : smp * (list N * list N)) : outcome (smp * (list N * list N)) :=
  do r <- forN 0 8 (fun _ st => simd_pass sse rnd st) (fst st, sums_zero);
  do r <- sample_fix fuel rnd (fst r, sums_lanes (snd r));
  let cnt := Nat.min (n - 8 * g) 8 in
  do _ <- s_assert (length (snd (snd st)) + cnt <=? n')%nat;
  do _ <- s_assert (length (fst (snd st)) + cnt <=? n)%nat;
  let blk f q := block_of (map f (slice (snd r) (4 * q) 4)) in
  Ok (fst r, (fst (snd st) ++ map (blk lMsb) (seq 0 cnt),
              snd (snd st) ++ map (blk lLsb) (seq 0 cnt))).

(* sampleMod3Lookup, mod3.cpp:506-661, with one of the two versions of SampleBlock256 *)
Definition sampleMod3Simd (sse : bool) (fuel : nat) (rnd : N -> N) (idx : N) (n n' : nat)
  : outcome (N * (list N * list N)) :=
  do _ <- throw_if (negb (n =? n')%nat);
  do r <- forN 0 ((n + 7) / 8) (simd_group sse fuel rnd n n') (smp_init idx, ([], []));
  Ok (sIdx (fst r), snd r).

(* ---------------- the table printers, mod3.cpp:159-308 ---------------- *)

(* ++vals[0]; for (j < s) { if (vals[j] == 3 && j != s-1) vals[j+1]++; vals[j] %= 3; },
   mod3.cpp:184-190 and 279-285 *)
Definition vals_next (s : nat) (vals : list N) : outcome (list N) :=
  do v0 <- get vals 0;
  do vals <- set vals 0 (v0 + 1);
  forN 0 s (fun j vals =>
    do vj <- get vals j;
    do vals <- (if (vj =? 3) && negb (j =? s - 1)%nat
                then do w <- get vals (j + 1); set vals (j + 1) (w + 1) else Ok vals);
    do vj <- get vals j;
    set vals j (vj mod 3)) vals.

(* for (j < s) { lsb |= (vals[j] & 1) << j; msb |= ((vals[j] >> 1) & 1) << j; },
   mod3.cpp:173-181 and 247-254; the result is (lsb, msb) *)
Definition vals_bits (s : nat) (vals : list N) : outcome (N * N) :=
  forN 0 s (fun j r =>
    do v <- get vals j;
    Ok (N.lor (fst r) (N.shiftl (N.land v 1) (N.of_nat j)),
        N.lor (snd r) (N.shiftl (N.land (N.shiftr v 1) 1) (N.of_nat j)))) (0, 0).

(* one round of i of either printer: [entry] makes the entry from the digits
   (mod3.cpp:182, 256-272), [zero] is what is printed from 243 on (mod3.cpp:193-197, 288-298) *)
Definition table_step {A} (m s : nat) (entry : list N -> outcome A) (zero : A)
  (i : nat) (st : list N * list A) : outcome (list N * list A) :=
  if (i <? m)%nat then
    do e <- entry (fst st);
    do vals <- vals_next s (fst st);
    Ok (vals, snd st ++ [e])
  else Ok (fst st, snd st ++ [zero]).

(* buildMod3Table, mod3.cpp:159-204: the numbers it prints *)
Definition buildMod3Table : outcome (list N) :=
  do r <- forN 0 256 (table_step 243 5 (fun vals =>
            do b <- vals_bits 5 vals; Ok (N.shiftl 1 16 + N.shiftl (snd b) 8 + fst b)) 0)
          (repeat 0 5, []);
  Ok (snd r).

(* buildMod3Table2, mod3.cpp:207-308: mod3TableV (216-227), then for l = 0, 1, 2 the tables
   of lsb, msb and digits (230-307).  The digits carry on from one l to the next. *)
Definition buildMod3Table2 : outcome (list N * (list N * (list N * list (list N)))) :=
  let tv := map (fun i => if (i <? 243)%nat then 5 else 0) (seq 0 256) in
  do r0 <- forN 0 256 (table_step 243 5 (fun vals => do b <- vals_bits 5 vals; Ok (fst b)) 0)
             (repeat 0 5, []);
  do r1 <- forN 0 256 (table_step 243 5 (fun vals => do b <- vals_bits 5 vals; Ok (snd b)) 0)
             (fst r0, []);
  do r2 <- forN 0 256 (table_step 243 5 (fun vals => Ok vals) (repeat 0 5)) (fst r1, []);
  Ok (tv, (snd r0, (snd r1, snd r2))).
