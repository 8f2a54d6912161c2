(* Model of secure-join/AggTree/PerfectShuffle.h and of the TBinMatrix wrappers in
   AggTree.cpp:56-106.  Spans of bytes are lists of N below 256; words are little endian. *)
From Verif Require Import Base Words Mod3Model PrfModel SimdModel.

(* the default template argument v, PerfectShuffle.h:14-20 and 135-141, 162-168 *)
Definition sh_mask (s : N) : N :=
  if (s =? 1)%N then 0x22222222%N else
  if (s =? 2)%N then 0x0C0C0C0C%N else
  if (s =? 4)%N then 0x00F000F0%N else
  if (s =? 8)%N then 0x0000FF00%N else 0%N.

(* cPerfectShuffle_round<Shift>, PerfectShuffle.h:22-29 *)
Definition c_round (s x : N) : N :=
  let t := N.land (N.lxor x (N.shiftr x s)) (sh_mask s) in
  N.lxor (N.lxor x t) (N.land (N.shiftl t s) (N.ones 32)).

(* cPerfectShuffle(u16, u16), PerfectShuffle.h:38-46 *)
Definition c_shuffle (x0 x1 : N) : N :=
  let x := N.lor x0 (N.shiftl x1 16) in
  let x := c_round 8 x in
  let x := c_round 4 x in
  let x := c_round 2 x in
  c_round 1 x.

(* cPerfectUnshuffle(u32), PerfectShuffle.h:53-64 *)
Definition c_unshuffle (x : N) : N * N :=
  let x := c_round 1 x in
  let x := c_round 2 x in
  let x := c_round 4 x in
  let x := c_round 8 x in
  (N.land x (N.ones 16), N.land (N.shiftr x 16) (N.ones 16)).

(* reading a word from memory / storing its low n bytes (the memcpy and casts of PerfectShuffle.h:66-128) *)
Definition load (bytes : list N) : N := of_words 8 bytes.
(* the stores of PerfectShuffle.h:66-128 *)
Definition store (n : nat) (x : N) : list N := map (byteN x) (seq 0 n).

(* cPerfectShuffle on spans, PerfectShuffle.h:68-94; copyBytesMin copies as many bytes as
   both sides have, the word having been zeroed before *)
Definition c_shuffle_span (in0 in1 out : list N) : outcome (list N) :=
  do _ <- throw_if (negb (length in0 =? length in1));
  do _ <- throw_if (negb (length in0 =? (length out + 1) / 2));
  let n32 := length out / 4 in
  do out <- forN 0 n32 (fun i o =>
    do a <- readN in0 (2 * i) 2;
    do b <- readN in1 (2 * i) 2;
    writeN o (4 * i) (store 4 (c_shuffle (load a) (load b)))) out;
  let n8 := n32 * 4 in
  if length out =? n8 then Ok out else
  let x0 := load (firstn 2 (skipn (n8 / 2) in0)) in
  let x1 := load (firstn 2 (skipn (n8 / 2) in1)) in
  let t := c_shuffle x0 x1 in
  writeN out n8 (firstn (length out - n8) (store 4 t)).

(* cPerfectUnshuffle on spans, PerfectShuffle.h:98-128 *)
Definition c_unshuffle_span (inp out0 out1 : list N) : outcome (list N * list N) :=
  do _ <- throw_if (negb (length out0 =? length out1));
  do _ <- throw_if (negb (length out0 =? (length inp + 1) / 2));
  let n32 := length inp / 4 in
  do o <- forN 0 n32 (fun i (o : list N * list N) =>
    do a <- readN inp (4 * i) 4;
    let t := c_unshuffle (load a) in
    do o0 <- writeN (fst o) (2 * i) (store 2 (fst t));
    do o1 <- writeN (snd o) (2 * i) (store 2 (snd t));
    Ok (o0, o1)) (out0, out1);
  let n8 := n32 * 4 in
  if length inp =? n8 then Ok o else
  let r := c_unshuffle (load (firstn 4 (skipn n8 inp))) in
  do o0 <- writeN (fst o) (n8 / 2) (firstn (length (fst o) - n8 / 2) (store 2 (fst r)));
  do o1 <- writeN (snd o) (n8 / 2) (firstn (length (snd o) - n8 / 2) (store 2 (snd r)));
  Ok (o0, o1).

(* ---------------- SSE version ---------------- *)

(* the j-th 32-bit lane *)
Definition word32 (x : N) (j : nat) : N := N.land (N.shiftr x (32 * N.of_nat j)) (N.ones 32).

(* _mm_srli_epi32, _mm_slli_epi32 and _mm_set_epi32(v,v,v,v) *)
Definition srli_epi32 (s x : N) : N :=
  of_words 32 (map (fun j => N.shiftr (word32 x j) s) (seq 0 4)).
(* _mm_slli_epi32, used at PerfectShuffle.h:155 *)
Definition slli_epi32 (s x : N) : N :=
  of_words 32 (map (fun j => N.land (N.shiftl (word32 x j) s) (N.ones 32)) (seq 0 4)).
(* _mm_set1_epi32, used at PerfectShuffle.h:143-157 *)
Definition set1_epi32 (v : N) : N := of_words 32 [v; v; v; v].

(* ssePerfectShuffle_round<Shift>(block&), PerfectShuffle.h:143-157 *)
Definition sse_round (s x : N) : N :=
  let t := srli_epi32 s x in
  let t := N.lxor t x in
  let t := N.land t (set1_epi32 (sh_mask s)) in
  let x := N.lxor t x in
  let t := slli_epi32 s t in
  N.lxor t x.

(* the byte shuffles of lines 234 and 253 (_mm_set_epi8 lists the highest byte first) *)
Definition sh_bytes : N := of_words 8 [0; 8; 1; 9; 2; 10; 3; 11; 4; 12; 5; 13; 6; 14; 7; 15]%N.
(* the byte shuffle of PerfectShuffle.h:253 *)
Definition unsh_bytes : N := of_words 8 [0; 2; 4; 6; 8; 10; 12; 14; 1; 3; 5; 7; 9; 11; 13; 15]%N.

(* ssePerfectShuffle(u64, u64), PerfectShuffle.h:231-243; one lane of the eight-block version
   259-285 *)
Definition sse_shuffle (x0 x1 : N) : N :=
  let y := of_words 64 [x0; x1] in
  let y := shuffle_epi8 y sh_bytes in
  let y := sse_round 4 y in
  let y := sse_round 2 y in
  sse_round 1 y.

(* ssePerfectUnshuffle(block), PerfectShuffle.h:245-257; one lane of 288-331 *)
Definition sse_unshuffle (y : N) : N * N :=
  let y := sse_round 1 y in
  let y := sse_round 2 y in
  let y := sse_round 4 y in
  let y := shuffle_epi8 y unsh_bytes in
  (N.land y (N.ones 64), N.land (N.shiftr y 64) (N.ones 64)).

(* the tail loop, PerfectShuffle.h:350-369; n8 counts output bytes, rem input bytes *)
Fixpoint sse_shuffle_tail (fuel : nat) (in0 in1 : list N) (rem n8 : nat) (out : list N)
  : outcome (list N) :=
  if rem =? 0 then Ok out else
  match fuel with
  | 0 => Hang
  | S fuel =>
    let m := Nat.min rem 8 in
    do a <- readN in0 (n8 / 2) m;
    do b <- readN in1 (n8 / 2) m;
    let t := sse_shuffle (load a) (load b) in
    let m2 := Nat.min (length out - n8) 16 in
    do out <- writeN out n8 (firstn m2 (store 16 t));
    sse_shuffle_tail fuel in0 in1 (rem - m) (n8 + m2) out
  end.

(* ssePerfectShuffle on spans, PerfectShuffle.h:333-370.  The blocks of the eight-block
   kernel are written one after the other (input and output do not overlap). *)
Definition sse_shuffle_span (in0 in1 out : list N) : outcome (list N) :=
  if negb (length in0 =? length in1) then UB else
  if negb (length in0 =? (length out + 1) / 2) then UB else
  let n1024 := length out / 128 in
  do out <- forN 0 n1024 (fun i o =>
    forN (8 * i) 8 (fun q o =>
      do a <- readN in0 (8 * q) 8;
      do b <- readN in1 (8 * q) 8;
      writeN o (16 * q) (store 16 (sse_shuffle (load a) (load b)))) o) out;
  let n8 := n1024 * 16 * 8 in
  sse_shuffle_tail (length in0) in0 in1 (length in0 - n8 / 2) n8 out.

(* the tail loop, PerfectShuffle.h:396-416 *)
Fixpoint sse_unshuffle_tail (fuel : nat) (inp : list N) (n8 : nat) (o : list N * list N)
  : outcome (list N * list N) :=
  if length inp =? n8 then Ok o else
  match fuel with
  | 0 => Hang
  | S fuel =>
    let m := Nat.min (length inp - n8) 16 in
    do a <- readN inp n8 m;
    let r := sse_unshuffle (load a) in
    let m2 := Nat.min (length (fst o) - n8 / 2) 8 in
    do o0 <- writeN (fst o) (n8 / 2) (firstn m2 (store 8 (fst r)));
    do o1 <- writeN (snd o) (n8 / 2) (firstn m2 (store 8 (snd r)));
    sse_unshuffle_tail fuel inp (n8 + m) (o0, o1)
  end.

(* ssePerfectUnshuffle on spans, PerfectShuffle.h:373-417 *)
Definition sse_unshuffle_span (inp out0 out1 : list N) : outcome (list N * list N) :=
  if negb (length out0 =? length out1) then UB else
  if negb (length out0 =? (length inp + 1) / 2) then UB else
  let n1024 := length inp / 128 in
  do o <- forN 0 n1024 (fun i o =>
    forN (8 * i) 8 (fun q (o : list N * list N) =>
      do a <- readN inp (16 * q) 16;
      let t := sse_unshuffle (load a) in
      do o0 <- writeN (fst o) (8 * q) (store 8 (fst t));
      do o1 <- writeN (snd o) (8 * q) (store 8 (snd t));
      Ok (o0, o1)) o) (out0, out1);
  let n8 := n1024 * 16 * 8 in
  sse_unshuffle_tail (length inp) inp n8 o.

(* perfectShuffle / perfectUnshuffle, PerfectShuffle.h:420-436: ENABLE_SSE selects *)
Definition shuffle_span (sse : bool) := if sse then sse_shuffle_span else c_shuffle_span.
(* perfectUnshuffle, PerfectShuffle.h:430-436 *)
Definition unshuffle_span (sse : bool) := if sse then sse_unshuffle_span else c_unshuffle_span.

(* oc::divCeil, used throughout (same as Defines.h:34) *)
Definition div_ceil (a b : nat) : nat := (a + b - 1) / b.

(* perfectUnshuffle on one bit row of TBinMatrix'es, AggTree.cpp:62-75: n entries in, the
   rows r0, r1 keep the bytes behind the unshuffled prefix *)
Definition unshuffle_row (sse : bool) (n : nat) (r r0 r1 : list N) : outcome (list N * list N) :=
  if n =? 0 then Ok (r0, r1) else
  do i <- readN r 0 (div_ceil n 8);
  do o0 <- readN r0 0 (div_ceil (n / 2) 8);
  do o1 <- readN r1 0 (div_ceil (n / 2) 8);
  do o <- unshuffle_span sse i o0 o1;
  do r0 <- writeN r0 0 (fst o);
  do r1 <- writeN r1 0 (snd o);
  Ok (r0, r1).

(* perfectShuffle on one bit row, AggTree.cpp:92-105; n is the number of output entries *)
Definition shuffle_row (sse : bool) (n : nat) (r0 r1 r : list N) : outcome (list N) :=
  do i0 <- readN r0 0 (div_ceil (n / 2) 8);
  do i1 <- readN r1 0 (div_ceil (n / 2) 8);
  do o <- readN r 0 (div_ceil n 8);
  do o <- shuffle_span sse i0 i1 o;
  writeN r 0 o.
