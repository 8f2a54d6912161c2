(* Model of the functions that turn correlated OTs / F4 VOLEs into packed correlations:
   secure-join/CorGenerator/BinOleBatch.cpp compressRecver (262-386), compressSender (389-542),
   TritOtBatch.cpp compressRecver (387-446), compressSender (449-514),
   F4BitOtBatch.cpp compressRecver (446-582), compressSender (585-723),
   and the mock correlations of BinOleBatch.cpp (79-155), OtBatch.cpp (30-67),
   TritOtBatch.cpp (104-177).
   The fixed-key hash oc::mAesFixedKey.hashBlocks<8> hashes each of the eight blocks
   separately: it is the parameter [H].  Outputs written through u8* / u16* are the lists of
   bytes / 16-bit words written, in order.  The source hashes m in place; A is not read again
   afterwards, so the model does not return it. *)
From Verif Require Import Base Words Mod3Model GF4Model SimdModel.

(* block(1) / block(0,1) / block(2), and the masks BinOleBatch.cpp:281-283, TritOtBatch.cpp:402,
   F4BitOtBatch.cpp:463 *)
Definition all_ones128 : N := N.ones 128.
(* the mask of BinOleBatch.cpp:281-283 *)
Definition mask1 : N := N.lxor 1 all_ones128.
(* the mask of F4BitOtBatch.cpp:585-723 that clears the two low bits *)
Definition mask3 : N := N.lor (N.shiftl (N.ones 64) 64) (N.ldiff (N.ones 64) 3).

(* shuffle[i]: 0x80 in every byte but byte i, which is 0; BinOleBatch.cpp:276-279, 405-408,
   F4BitOtBatch.cpp:456-459, 606-609 *)
Definition shuf (i : nat) : N := of_words 8 (upd (repeat 128%N 16) i 0%N).

(* from 16 hashes to 16 bits: BinOleBatch.cpp:342-380, 440-455 with 493-533,
   F4BitOtBatch.cpp:538-576, 679-717 *)
Definition compress16 (m : list N) : N :=
  let a i := shuffle_epi8 (nth i m 0%N) (shuf i) in
  let x := N.lxor in
  let b00 := x (a 0) (a 8) in let b01 := x (a 1) (a 9) in
  let b02 := x (a 2) (a 10) in let b03 := x (a 3) (a 11) in
  let b04 := x (a 4) (a 12) in let b05 := x (a 5) (a 13) in
  let b06 := x (a 6) (a 14) in let b07 := x (a 7) (a 15) in
  let c00 := x b00 b04 in let c01 := x b01 b05 in
  let c02 := x b02 b06 in let c03 := x b03 b07 in
  let d00 := x c00 c02 in let d01 := x c01 c03 in
  movemask_epi8 (slli_epi16 7 (x d00 d01)).

(* pack eight 0/1 words into a byte: BinOleBatch.cpp:302-310, TritOtBatch.cpp:423-431,
   F4BitOtBatch.cpp:485-493; stored through a u8* *)
Definition pack8 (b : list N) : N :=
  let s i := N.shiftl (nth i b 0%N) (N.of_nat i) in
  let x := N.lxor in
  N.land (x (x (x (x (x (x (x (s 0) (s 1)) (s 2)) (s 3)) (s 4)) (s 5)) (s 6)) (s 7)) 255.

(* the same for words holding bit 1: F4BitOtBatch.cpp:510-518 *)
Definition pack8_msb (b : list N) : N :=
  let v i := nth i b 0%N in
  let x := N.lxor in
  N.land (x (x (x (x (x (x (x (N.shiftr (v 0) 1) (v 1)) (N.shiftl (v 2) 1)) (N.shiftl (v 3) 2))
    (N.shiftl (v 4) 3)) (N.shiftl (v 5) 4)) (N.shiftl (v 6) 5)) (N.shiftl (v 7) 6)) 255.

(* block::testc(OneBlock): 1 iff (~m & 1) == 0 *)
Definition testc (m o : N) : N := if (N.ldiff o m =? 0)%N then 1%N else 0%N.

Section Hash.
Variable H : N -> N.

(* ---------------- OLE ---------------- *)

(* OleBatch::RecvBatch::compressRecver, BinOleBatch.cpp:262-386.  [nAdd], [nMult]: sizes of the
   output spans in blocks.  Result: words of add, bytes of mult. *)
Definition ole_compress_recver (A : list N) (nAdd nMult : nat) : outcome (list N * list N) :=
  do _ <- throw_if (negb (nAdd * 128 =? length A));
  do _ <- throw_if (negb (nMult * 128 =? length A));
  forN 0 (length A / 16) (fun i (st : list N * list N) =>
    let '(add, mult) := st in
    do m <- readN A (16 * i) 16;
    let bytes := [pack8 (map (fun v => testc v 1) (firstn 8 m));
                  pack8 (map (fun v => testc v 1) (skipn 8 m))] in
    let h := map (fun v => H (N.land v mask1)) m in
    Ok (add ++ [compress16 h], mult ++ bytes)) ([], []).

(* OleBatch::SendBatch::compressSender, BinOleBatch.cpp:389-542.  Result: words of add, words
   of mult. *)
Definition ole_compress_sender (delta : N) (B : list N) (nAdd nMult : nat) : outcome (list N * list N) :=
  do _ <- throw_if (negb (nAdd * 128 =? length B));
  do _ <- throw_if (negb (nMult * 128 =? length B));
  let delta := N.land delta mask1 in
  forN 0 (length B / 16) (fun i (st : list N * list N) =>
    let '(add, mult) := st in
    do m0 <- readN B (16 * i) 16;
    let m := map (fun v => N.land v mask1) m0 in
    let ap := compress16 (map H m) in
    let bp := compress16 (map (fun v => H (N.lxor v delta)) m) in
    Ok (add ++ [ap], mult ++ [N.lxor ap bp])) ([], []).

(* ---------------- trit OT ---------------- *)

(* TritOtBatch::RecvBatch::compressRecver, TritOtBatch.cpp:387-446.  Result: bytes of mChoice,
   mMsb, mLsb. *)
Definition trit_compress_recver (A : list N) : outcome (list N * list N * list N) :=
  do _ <- throw_if (negb (length A mod 128 =? 0));
  forN 0 (length A / 8) (fun i (st : list N * list N * list N) =>
    let '(ch, ms, ls) := st in
    do m <- readN A (8 * i) 8;
    let c := pack8 (map (fun v => storeu_si32 (N.land v 1)) m) in
    do p <- sample8Mod3 (map (fun v => H (N.land v mask1)) m);
    Ok (ch ++ [c], ms ++ [fst p], ls ++ [snd p])) ([], [], []).

(* TritOtBatch::SendBatch::compressSender, TritOtBatch.cpp:449-514.  Result: bytes of
   (mMsb[0], mLsb[0]) and (mMsb[1], mLsb[1]). *)
Definition trit_compress_sender (delta : N) (B : list N)
  : outcome ((list N * list N) * (list N * list N)) :=
  do _ <- throw_if (negb (length B mod 128 =? 0));
  let delta := N.land delta mask1 in
  forN 0 (length B / 8) (fun i (st : (list N * list N) * (list N * list N)) =>
    let '((m0, l0), (m1, l1)) := st in
    do m <- readN B (8 * i) 8;
    let aa := map (fun v => N.land v mask1) m in
    do p <- sample8Mod3 (map H aa);
    do q <- sample8Mod3 (map (fun v => H (N.lxor v delta)) aa);
    Ok ((m0 ++ [fst p], l0 ++ [snd p]), (m1 ++ [fst q], l1 ++ [snd q]))) (([], []), ([], [])).

(* ---------------- F4 bit OT ---------------- *)

(* F4BitOtBatch::RecvBatch::compressRecver, F4BitOtBatch.cpp:446-582.  The output vectors are
   resized to A.size() blocks (449-451) of which only the first A.size()/128 are written; the
   result is what is written: words of mOts, bytes of mChoiceLsb and mChoiceMsb.  The loop runs
   while i < A.size() in steps of 16. *)
Definition f4_compress_recver (A : list N) : outcome (list N * list N * list N) :=
  forN 0 ((length A + 15) / 16) (fun i (st : list N * list N * list N) =>
    let '(ots, ls, ms) := st in
    do m <- readN A (16 * i) 16;
    let lsb w := pack8 (map (fun v => storeu_si32 (N.land v 1)) w) in
    let msb w := pack8_msb (map (fun v => storeu_si32 (N.land v 2)) w) in
    let h := map (fun v => H (N.land v mask3)) m in
    Ok (ots ++ [compress16 h],
        ls ++ [lsb (firstn 8 m); lsb (skipn 8 m)],
        ms ++ [msb (firstn 8 m); msb (skipn 8 m)])) ([], [], []).

(* F4BitOtBatch::SendBatch::compressSender, F4BitOtBatch.cpp:585-723.  deltas: 615-619.
   Result: the words written to mOts[0..3]. *)
Definition f4_compress_sender (mDelta : N) (B : list N)
  : outcome (list N * list N * list N * list N) :=
  let d1 := N.land mDelta mask3 in
  do d2 <- f4_mul_block d1 2;
  do d3 <- f4_mul_block d1 3;
  forN 0 ((length B + 15) / 16) (fun i (st : list N * list N * list N * list N) =>
    let '(o0, o1, o2, o3) := st in
    do m0 <- readN B (16 * i) 16;
    let m := map (fun v => N.land v mask3) m0 in
    let word d := compress16 (map (fun v => H (N.lxor v d)) m) in
    Ok (o0 ++ [compress16 (map H m)], o1 ++ [word d1], o2 ++ [word d2], o3 ++ [word d3])) ([], [], [], []).

End Hash.

(* ---------------- mock correlations ---------------- *)

(* block >> s and block << s: both 64-bit halves separately; block + block: likewise
   (cryptoTools, library) *)
Definition shr64 (s x : N) : N := join64 (N.shiftr (lo64 x) s) (N.shiftr (hi64 x) s).
(* 64-bit lanes, used in F4BitOtBatch.cpp:585-723 *)
Definition shl64 (s x : N) : N :=
  join64 (N.land (N.shiftl (lo64 x) s) (N.ones 64)) (N.land (N.shiftl (hi64 x) s) (N.ones 64)).
(* 64-bit lanes, used in F4BitOtBatch.cpp:585-723 *)
Definition add64 (x y : N) : N :=
  join64 (N.land (lo64 x + lo64 y) (N.ones 64)) (N.land (hi64 x + hi64 y) (N.ones 64)).

(* the eight assignments BinOleBatch.cpp:91-98 (also 99-106, 130-137, 138-145) *)
Definition mock8 (x : N) : list N :=
  x :: map (fun s => N.lor (shr64 s x) (shl64 s x)) [1; 2; 3; 4; 5; 6; 7]%N.

(* OleBatch::SendBatch::mock, BinOleBatch.cpp:79-116; [aes] is ecbEncBlock(block(batchIdx,0)),
   [m] the size of add in blocks.  Result: (add, mult). *)
Definition ole_mock_sender (aes : N) (m : nat) : outcome (list N * list N) :=
  do st <- forN 0 (m / 8) (fun _ (st : (list N * list N) * (N * N)) =>
    let '((add, mult), (mm, aa)) := st in
    Ok ((add ++ mock8 aa, mult ++ mock8 mm),
        (add64 mm (join64 43254534 4532453452), add64 aa (join64 43254534 0))))
    (([], []), (aes, join64 (lo64 aes) 0));
  forN (m / 8 * 8) (m - m / 8 * 8) (fun i (am : list N * list N) =>
    Ok (fst am ++ [join64 (N.of_nat i) 0], snd am ++ [join64 (N.of_nat i) (N.of_nat i)])) (fst st).

(* OleBatch::RecvBatch::mock, BinOleBatch.cpp:118-155 *)
Definition ole_mock_recver (aes : N) (m : nat) : outcome (list N * list N) :=
  do st <- forN 0 (m / 8) (fun _ (st : (list N * list N) * (N * N)) =>
    let '((add, mult), (mm, aa)) := st in
    Ok ((add ++ mock8 aa, mult ++ mock8 mm),
        (add64 mm (join64 43254534 4532453452), add64 aa (join64 0 4532453452))))
    (([], []), (aes, join64 0 (hi64 aes)));
  forN (m / 8 * 8) (m - m / 8 * 8) (fun i (am : list N * list N) =>
    Ok (fst am ++ [join64 0 (N.of_nat i)], snd am ++ [join64 (N.of_nat i) (N.of_nat i)])) (fst st).

(* TritOtBatch::SendBatch::mock and RecvBatch::mock, TritOtBatch.cpp:104-139, 141-177 (the taken
   branches).  oc::CCBlock is the library constant 0xCC...CC. *)
Definition CCBlock : N := 0xCCCCCCCCCCCCCCCCCCCCCCCCCCCCCCCC.
(* constants of the mock, TritOtBatch.cpp:104-177 *)
Definition tm_lsb0 : N := N.land (join64 2342341234123421341 12342342342134231234) CCBlock.
(* constants of the mock, TritOtBatch.cpp:104-177 *)
Definition tm_lsb1 : N := N.land (join64 5734542341345236357 13563456435643564356) CCBlock.
(* constants of the mock, TritOtBatch.cpp:104-177 *)
Definition tm_msb0 : N := N.land (wnot 128 tm_lsb0) CCBlock.
(* constants of the mock, TritOtBatch.cpp:104-177 *)
Definition tm_msb1 : N := N.land (wnot 128 tm_lsb1) CCBlock.
(* constants of the mock, TritOtBatch.cpp:104-177 *)
Definition tm_choice (i : nat) : N :=
  let v := ((N.shiftl (N.of_nat i) 32 + N.of_nat i) mod 2 ^ 64)%N in
  N.lxor (join64 2453289232749293483 343524129893458929) (join64 v v).
(* TritOtBatch::SendBatch::mock, TritOtBatch.cpp:104-139 *)
Definition trit_mock_sender (m : nat) : (list N * list N) * (list N * list N) :=
  ((repeat tm_msb0 m, repeat tm_lsb0 m), (repeat tm_msb1 m, repeat tm_lsb1 m)).
(* TritOtBatch::RecvBatch::mock, TritOtBatch.cpp:141-177 *)
Definition trit_mock_recver (m : nat) : list N * list N * list N :=
  let ch := map tm_choice (seq 0 m) in
  (ch,
   map (fun c => N.lxor (N.land tm_msb0 (wnot 128 c)) (N.land tm_msb1 c)) ch,
   map (fun c => N.lxor (N.land tm_lsb0 (wnot 128 c)) (N.land tm_lsb1 c)) ch).

(* compress16 of a build without ENABLE_SSE: the same code over the fallbacks of Simd.h *)
Definition compress16_fb (m : list N) : N :=
  let a i := shuffle_epi8_fb (nth i m 0%N) (shuf i) in
  let x := N.lxor in
  let b00 := x (a 0) (a 8) in let b01 := x (a 1) (a 9) in
  let b02 := x (a 2) (a 10) in let b03 := x (a 3) (a 11) in
  let b04 := x (a 4) (a 12) in let b05 := x (a 5) (a 13) in
  let b06 := x (a 6) (a 14) in let b07 := x (a 7) (a 15) in
  let c00 := x b00 b04 in let c01 := x b01 b05 in
  let c02 := x b02 b06 in let c03 := x b03 b07 in
  let d00 := x c00 c02 in let d01 := x c01 c03 in
  movemask_epi8_fb (slli_epi16_fb 7 (x d00 d01)).
