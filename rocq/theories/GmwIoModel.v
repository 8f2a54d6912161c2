(* Model of the input/output side of secure-join/GMW/Gmw.h and Gmw.cpp: init, setInput,
   setZeroInput, mapInput, mapOutput, getOutput, getMemView, map and finalizeMapping, and of run
   between them.  A pointer into wire memory always is the start of a row of some matrix, so it is
   modelled as (region, row); a region is a matrix with its stride in blocks, either one of mMem
   or a TBinMatrix handed to mapInput/mapOutput.  Two regions are never adjacent in memory.
   Uninitialised memory holds whatever junk says.  The levels of the circuit, the triples and mRole
   are in GmwModel. *)
From Verif Require Import Base ConvModel ShuffleModel GmwModel PrfModel.

(* a matrix of blocks, oc::Matrix<block> in mMem (Gmw.h:70) or the data of a TBinMatrix
   (Matrix.h:209); all rows have rgStride blocks *)
Record region := Reg { rgStride : nat; rgRows : list (list N) }.

(* the members mN, mCir.mInputs, mCir.mOutputs, mWords, the memory they point to and
   mRemainingMappings, Gmw.h:55-76 *)
Record gmw := Gm { gN : nat; gIns : list (list nat); gOuts : list (list nat);
  gWords : list (option (nat * nat)); gHeap : list region; gRem : nat }.
(* mN128, Gmw.cpp:22 *)
Definition gW (g : gmw) : nat := div_ceil (gN g) 128.

(* init, Gmw.cpp:14-39, for a circuit of `wires` wires *)
Definition gmw_init (n wires : nat) (ins outs : list (list nat)) : gmw :=
  Gm n ins outs (repeat None wires) [] wires.

(* map, Gmw.h:281-293; data is aligned (287) as a row of an aligned matrix; the assert of 291
   failing is UB *)
Definition gmap (wire : nat) (p : nat * nat) (g : gmw) : outcome gmw :=
  do _ <- throw_if (length (gWords g) <=? wire);
  do q <- get (gWords g) wire;
  match q with
  | Some _ => Throw
  | None =>
    if gRem g =? 0 then UB else
    do w <- set (gWords g) wire (Some p);
    Ok (Gm (gN g) (gIns g) (gOuts g) w (gHeap g) (gRem g - 1))
  end.

(* the check that a bundle is contiguous, Gmw.cpp:117-121 *)
Fixpoint consec (l : list nat) : bool :=
  match l with
  | x :: ((y :: _) as r) => (x + 1 =? y) && consec r
  | _ => true
  end.

(* mWords[a] + mN128 == mWords[b], Gmw.cpp:128 *)
Definition next_to (g : gmw) (p : option (nat * nat)) (q : option (nat * nat)) : bool :=
  match p, q with
  | Some (r, i), Some (s, j) =>
    match nth_error (gHeap g) r with
    | Some rg => (r =? s) && (i + 1 =? j) && (rgStride rg =? gW g)
    | None => false
    end
  | _, _ => false
  end.

(* the matrix of k rows that is emplaced, Uninitialized: Gmw.cpp:138-143 and Gmw.h:305-306 *)
Definition fresh (junk : nat -> nat -> nat -> N) (k : nat) (g : gmw) : gmw :=
  let r := length (gHeap g) in
  Gm (gN g) (gIns g) (gOuts g) (gWords g)
    (gHeap g ++ [Reg (gW g) (map (fun j => map (junk r j) (seq 0 (gW g))) (seq 0 k))]) (gRem g).

(* getMemView, Gmw.cpp:114-153: the object afterwards and mWords[wires[0]].  That emplace_back
   moves no matrix data (135-141) is part of the memory model. *)
Definition mem_view (junk : nat -> nat -> nat -> N) (wires : list nat) (g : gmw) : outcome (gmw * (nat * nat)) :=
  do _ <- throw_if (negb (consec wires));
  do w0 <- get wires 0;
  do p0 <- get (gWords g) w0;
  match p0 with
  | Some p =>
    do _ <- forN 1 (length wires - 1) (fun j _ =>
      do a <- get wires (j - 1); do b <- get wires j;
      do p <- get (gWords g) a; do q <- get (gWords g) b;
      throw_if (negb (next_to g p q))) tt;
    Ok (g, p)
  | None =>
    let r := length (gHeap g) in
    do g <- forN 0 (length wires) (fun j g => do w <- get wires j; gmap w (r, j) g) (fresh junk (length wires) g);
    Ok (g, (r, 0))
  end.

(* getInputView and getOutputView, Gmw.cpp:87-112 *)
Definition bundle_view (junk : nat -> nat -> nat -> N) (bs : list (list nat)) (i : nat) (g : gmw)
  : outcome (gmw * (nat * nat) * list nat) :=
  do _ <- throw_if (length bs <=? i);
  do b <- get bs i;
  do v <- mem_view junk b g;
  Ok (v, b).

(* writing and reading the mN128 blocks of a wire at pointer p *)
(* wires are written through block pointers, e.g. Gmw.cpp:61, 67, 405-437 *)
Definition put_row (p : nat * nat) (x : list N) (g : gmw) : outcome gmw :=
  do rg <- get (gHeap g) (fst p);
  do row <- get (rgRows rg) (snd p);
  do row <- writeN row 0 x;
  do rows <- set (rgRows rg) (snd p) row;
  do h <- set (gHeap g) (fst p) (Reg (rgStride rg) rows);
  Ok (Gm (gN g) (gIns g) (gOuts g) (gWords g) h (gRem g)).
(* and read through them, e.g. Gmw.cpp:84, 352-360 *)
Definition get_row (p : nat * nat) (g : gmw) : outcome (list N) :=
  do rg <- get (gHeap g) (fst p);
  do row <- get (rgRows rg) (snd p);
  readN row 0 (gW g).

(* bit j of a row of bytes; oc::transpose (used at Gmw.cpp:61, 84) counts bits this way *)
Definition bit_of (row : list N) (j : nat) : bool := N.testbit (nth (j / 8) row 0%N) (N.of_nat (j mod 8)).
(* wire j of oc::transpose(input, memView), Gmw.cpp:61: lane i is bit j of row i; what it does to
   the lanes from the number of rows on is left open (pad) *)
Definition tr_in (pad : nat -> nat -> bool) (w : nat) (x : list (list N)) (j : nat) : list N :=
  map (fun c => of_bits (map (fun k => let i := 128 * c + k in
    if i <? length x then bit_of (nth i x []) j else pad j i) (seq 0 128))) (seq 0 w).
(* row i of oc::transpose(memView, out), Gmw.cpp:84; the bits from the number of wires on are left
   open *)
Definition tr_out (pad : nat -> nat -> bool) (cols : nat) (mem : list (list N)) (i : nat) : list N :=
  map (fun b => of_bits (map (fun k => let j := 8 * b + k in
    if j <? length mem then N.testbit (nth (i / 128) (nth j mem []) 0%N) (N.of_nat (i mod 128)) else pad i j) (seq 0 8))) (seq 0 cols).

(* implSetInput, Gmw.cpp:42-62: x has rows of cols bytes *)
Definition set_input junk pad (i align cols : nat) (x : list (list N)) (g : gmw) : outcome gmw :=
  do v <- bundle_view junk (gIns g) i g;
  let '(g, (r, o), wires) := v in
  let bits := align * 8 in
  if bits =? 0 then UB else
  do _ <- throw_if (negb ((length wires + bits - 1) / bits =? cols / align));
  do _ <- throw_if (negb (length x =? gN g));
  forN 0 (length wires) (fun j g => put_row (r, o + j) (tr_in pad (gW g) x j) g) g.

(* setInput(i, BinMatrix), Gmw.h:131-134 *)
Definition set_input_bm junk pad (i cols : nat) (x : list (list N)) (g : gmw) : outcome gmw :=
  set_input junk pad i 1 cols x g.

(* setZeroInput, Gmw.cpp:64-68 *)
Definition set_zero_input junk (i : nat) (g : gmw) : outcome gmw :=
  do v <- bundle_view junk (gIns g) i g;
  let '(g, (r, o), wires) := v in
  forN 0 (length wires) (fun j g => put_row (r, o + j) (repeat 0%N (gW g)) g) g.

(* implGetOutput, Gmw.cpp:70-85: the rows of out, which has rows x cols bytes *)
Definition get_output junk pad (i align rows cols : nat) (g : gmw) : outcome (gmw * list (list N)) :=
  do v <- bundle_view junk (gOuts g) i g;
  let '(g, (r, o), wires) := v in
  let bits := align * 8 in
  if bits =? 0 then UB else
  do _ <- throw_if (negb ((length wires + bits - 1) / bits =? cols / align));
  do _ <- throw_if (negb (rows =? gN g));
  do mem <- mapO (fun j => get_row (r, o + j) g) (seq 0 (length wires));
  Ok (g, map (tr_out pad cols mem) (seq 0 rows)).

(* getOutput(i, BinMatrix), Gmw.h:183-188: `i > size` lets i = size through to mOutputs[i] *)
Definition get_output_bm junk pad (i rows bits : nat) (g : gmw) : outcome (gmw * list (list N)) :=
  do _ <- throw_if (length (gOuts g) <? i);
  do b <- get (gOuts g) i;
  do _ <- throw_if (negb (bits =? length b));
  get_output junk pad i 1 rows (div_ceil bits 8) g.

(* a TBinMatrix as mapInput and mapOutput see it: bytesPerRow, numEntries and the rows as blocks,
   Matrix.h:196-276 *)
Record tmat := TMat { tmBytes : nat; tmEntries : nat; tmRows : list (list N) }.
(* mapInput and mapOutput, Gmw.h:141-172: the rows of d become wire memory.  A row has at least
   mN128 blocks because numEntries never exceeds 8 * bytesPerRow (Matrix.h:213-223). *)
Definition map_bundle (bs : list (list nat)) (i : nat) (d : tmat) (g : gmw) : outcome gmw :=
  do _ <- throw_if (length bs <=? i);
  do b <- get bs i;
  do _ <- throw_if (negb (length b =? length (tmRows d)));
  do _ <- throw_if (negb (gN g =? tmEntries d));
  do _ <- throw_if (negb (tmBytes d mod 16 =? 0));
  let r := length (gHeap g) in
  let g := Gm (gN g) (gIns g) (gOuts g) (gWords g) (gHeap g ++ [Reg (tmBytes d / 16) (tmRows d)]) (gRem g) in
  forN 0 (length b) (fun j g => do w <- get b j; gmap w (r, j) g) g.

(* finalizeMapping, Gmw.h:297-315; the assert of 313 failing is UB *)
Definition finalize junk (g : gmw) : outcome gmw :=
  do _ <- mapO (fun w => do p <- get (gWords g) w; throw_if (match p with None => true | _ => false end)) (concat (gIns g));
  if gRem g =? 0 then Ok g else
  let r := length (gHeap g) in
  do s <- forN 0 (length (gWords g)) (fun i (s : gmw * nat) =>
    do p <- get (gWords (fst s)) i;
    match p with
    | None => do g <- gmap i (r, snd s) (fst s); Ok (g, snd s + 1)
    | Some _ => Ok s
    end) (fresh junk (gRem g) g, 0);
  if gRem (fst s) =? 0 then Ok (fst s) else UB.

(* the wires as run reads them through mWords, Gmw.cpp:352-360; a null pointer is UB *)
Definition load_wires (g : gmw) : outcome (list (list N)) :=
  mapO (fun p => match p with Some p => get_row p g | None => UB end) (gWords g).
(* and what it leaves in them, Gmw.cpp:405-478 *)
Definition store_wires (m : list (list N)) (g : gmw) : outcome gmw :=
  forN 0 (length (gWords g)) (fun i g =>
    do p <- get (gWords g) i; do x <- get m i;
    match p with Some p => put_row p x g | None => UB end) g.

(* run of both parties, Gmw.cpp:207-613; junk and the memory are per party.  That gmw_run works
   on copies of the wires is right when no two wires share memory. *)
Definition gmw_exec (lvs : list level) junk0 junk1 (s0 s1 : list (list triple)) (g0 g1 : gmw) : outcome (gmw * gmw) :=
  do g0 <- finalize junk0 g0;
  do g1 <- finalize junk1 g1;
  do m0 <- load_wires g0;
  do m1 <- load_wires g1;
  do r <- gmw_run (gW g0) lvs m0 m1 s0 s1;
  let '((m0, _, _), (m1, _, _), _) := r in
  do g0 <- store_wires m0 g0;
  do g1 <- store_wires m1 g1;
  Ok (g0, g1).
