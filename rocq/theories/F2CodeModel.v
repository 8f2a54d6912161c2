(* Model of secure-join/Prf/F2LinearCode.{h,cpp}.  The generator matrix mG is the list of
   its rows; a row of up to 16 bytes is one N (bit 8*l+b is bit b of byte l).  mSubcodes is
   the flat list of its blocks (its column count codeSize is 1, else init throws). *)
From Verif Require Import Base Words Mod3Model.

(* one table entry Ti(j), F2LinearCode.cpp:78-89: the loop over k with the row xor of the
   loop over l done as one xor of N *)
Definition subcode_entry (G : list N) (i j : nat) (t0 : N) : outcome N :=
  forN 0 8 (fun k t =>
    if N.testbit (N.of_nat j) (N.of_nat k)
    then do g <- get G (8 * i + k); Ok (N.lxor t g)
    else Ok t) t0.

(* F2LinearCode::generateSubcodes, F2LinearCode.cpp:52-91 *)
Definition generateSubcodes (G : list N) : outcome (list N) :=
  do _ <- throw_if (64 * 8 <? length G);
  let numsubcodes := ((length G + 7) / 8 + 7) / 8 * 8 in
  forN 0 numsubcodes (fun i T =>
    forN 1 255 (fun j T =>
      do t0 <- get T (i * 256 + j);
      do t <- subcode_entry G i j t0;
      set T (i * 256 + j) t) T) (repeat 0%N (256 * numsubcodes)).

(* F2LinearCode::init, F2LinearCode.cpp:16-35; [gcols] is g.cols() in bytes.  Returns
   (mInputByteSize, mSubcodes). *)
Definition f2_init (gcols : nat) (G : list N) : outcome (nat * list N) :=
  let inputBytes := (length G + 7) / 8 in
  do T <- generateSubcodes G;
  do _ <- throw_if (negb ((gcols + 15) / 16 =? 1));
  do _ <- throw_if (negb (inputBytes =? 16));
  Ok (inputBytes, T).

(* F2LinearCode::encode(block input, block& codeword), F2LinearCode.h:37-110 (the code
   after line 112 is commented out) *)
Definition f2_encode (T : list N) (x : N) : outcome N :=
  do c <- forN 0 2 (fun s c =>
     forN 0 8 (fun q c =>
       do cq <- get c q;
       do t <- get T ((8 * s + q) * 256 + N.to_nat (byte_of x (N.of_nat (8 * s + q))));
       set c q (N.lxor cq t)) c) (repeat 0%N 8);
  match c with
  | [c0; c1; c2; c3; c4; c5; c6; c7] =>
    let c0 := N.lxor c0 c4 in let c1 := N.lxor c1 c5 in
    let c2 := N.lxor c2 c6 in let c3 := N.lxor c3 c7 in
    let c0 := N.lxor c0 c2 in let c1 := N.lxor c1 c3 in
    Ok (N.lxor c0 c1)
  | _ => UB
  end.

(* F2LinearCode::encodeN<N>(in, out), F2LinearCode.h:318-372, with n = N a multiple of 8;
   the 8-fold unrolled loops over i are loops over 8*i+q.  out is written only after all
   of in was read, so in = out (h:312-316) is the same. *)
Definition f2_encodeN (n : nat) (inputBytes : nat) (T : list N) (xs : list N) : outcome (list N) :=
  do _ <- throw_if (negb (inputBytes =? 16));
  do c <- forN 0 (n / 8) (fun i c =>
     forN 0 8 (fun q c =>
       do x <- get xs (8 * i + q);
       do t <- get T (N.to_nat (byte_of x 0));
       set c (8 * i + q) t) c) (repeat 0%N n);
  forN 1 15 (fun j c =>
    forN 0 (n / 8) (fun i c =>
      forN 0 8 (fun q c =>
        do x <- get xs (8 * i + q);
        do t <- get T (j * 256 + N.to_nat (byte_of x (N.of_nat j)));
        do ci <- get c (8 * i + q);
        set c (8 * i + q) (N.lxor ci t)) c) c) c.
