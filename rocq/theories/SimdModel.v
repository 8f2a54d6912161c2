(* Model of secure-join/Util/Simd.h: the SSE versions (13-27, 91, 106; the instructions by
   their documentation, which lines 31-40 and 84-87 quote) and the portable fallbacks
   (29-78, 93-98, 108).  A block is an N below 2^128, byte 0 lowest. *)
From Verif Require Import Base Words Mod3Model PrfModel.
From Coq Require Import ZArith.

(* the word made of w-bit words, lowest first (the memory layout of a block)
   (as the fallbacks of Simd.h:28-79 access it) *)
Definition of_words (w : N) (l : list N) : N :=
  fold_right (fun b acc => N.lor b (N.shiftl acc w)) 0%N l.

(* block::get<u16>(j) *)
Definition word16 (x : N) (j : nat) : N := N.land (N.shiftr x (16 * N.of_nat j)) (N.ones 16).

(* block::get<u8>(j) *)
Definition byteN (x : N) (j : nat) : N := byte_of x (N.of_nat j).

(* shuffle_epi8, Simd.h:13-16 (semantics 31-40) *)
Definition shuffle_epi8 (a b : N) : N :=
  of_words 8 (map (fun j =>
    let bi := byteN b j in
    if N.testbit bi 7 then 0%N else byte_of a (N.land bi 15)) (seq 0 16)).

(* slli_epi16<s>, Simd.h:18-22 *)
Definition slli_epi16 (s : N) (v : N) : N :=
  of_words 16 (map (fun j => N.land (N.shiftl (word16 v j) s) (N.ones 16)) (seq 0 8)).

(* movemask_epi8, Simd.h:24-27 *)
Definition movemask_epi8 (v : N) : N := of_bits (map (fun j => N.testbit (byteN v j) 7) (seq 0 16)).

(* cmpeq_epi16, Simd.h:84-91 *)
Definition cmpeq_epi16 (a b : N) : N :=
  of_words 16 (map (fun j => if (word16 a j =? word16 b j)%N then N.ones 16 else 0%N) (seq 0 8)).

(* storeu_si32, Simd.h:106: the low four bytes *)
Definition storeu_si32 (a : N) : N := N.land a (N.ones 32).

(* ---------------- fallbacks ---------------- *)

(* a w-bit pattern read as a signed integer, and back (as the casts in Simd.h:28-79) *)
Definition sext (w : N) (x : N) : Z :=
  if N.testbit x (w - 1) then (Z.of_N x - 2 ^ Z.of_N w)%Z else Z.of_N x.
(* as the casts in Simd.h:28-79 *)
Definition trunc (w : N) (z : Z) : N := Z.to_N (z mod 2 ^ Z.of_N w)%Z.

(* shuffle_epi8, Simd.h:29-54.  Line 48: u8 mask = ~(-i8(bi >> 7)) *)
Definition shuffle_epi8_fb (a b : N) : N :=
  of_words 8 (map (fun j =>
    let bi := sext 8 (byteN b j) in
    let mask := trunc 8 (Z.lnot (- Z.shiftr bi 7)) in
    let idx := trunc 8 (Z.land bi 15) in
    trunc 8 (Z.land (sext 8 (byte_of a idx)) (Z.of_N mask))) (seq 0 16)).

(* slli_epi16<s>, Simd.h:56-65: i16 promoted to int, shifted (two's complement), truncated *)
Definition slli_epi16_fb (s : N) (v : N) : N :=
  of_words 16 (map (fun j => trunc 16 (Z.shiftl (sext 16 (word16 v j)) (Z.of_N s))) (seq 0 8)).

(* movemask_epi8, Simd.h:67-78: reads byte 0 in every iteration *)
Definition movemask_epi8_fb (v : N) : N :=
  fst (fold_left (fun (rm : N * N) i =>
    (N.lor (fst rm) (N.land (N.shiftr (byteN v 0) (N.of_nat i)) (snd rm)), N.shiftl (snd rm) 1))
    (seq 0 16) (0%N, 1%N)).

(* cmpeq_epi16, Simd.h:93-98: r.set(i, c ? 0xFFFF : 0) stores an int, i.e. 32-bit element i of
   the block, which exists for i < 4 only *)
Definition cmpeq_epi16_fb (a b : N) : outcome N :=
  do w <- forN 0 8 (fun i (w : list N) =>
    set w i (if (sext 16 (word16 a i) =? sext 16 (word16 b i))%Z then N.ones 16 else 0%N)) [0; 0; 0; 0]%N;
  Ok (of_words 32 w).

(* storeu_si32, Simd.h:108 *)
Definition storeu_si32_fb (a : N) : N := trunc 32 (sext 32 (N.land a (N.ones 32))).
