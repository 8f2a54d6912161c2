(* The Gmw runs of the aggregation tree on the lanes of AggTwoModel: the matrices of a level are
   mapped as inputs and outputs (AggTree.cpp:310-339, 555-592, 857-898). *)
From Verif Require Import Base PrfModel GmwModel GmwIoModel GmwIoSpec ShuffleModel ShuffleSpec AggModel AggCirModel AggTwoModel.

(* What a party finds in uninitialised memory (junk: fresh wires of mapping and of finalizeMapping,
   GMW/Gmw.cpp:138-143, Gmw.h:305-306; past: the lanes of its matrices after the last entry), what
   transposing leaves open (tpOutPad, Gmw.cpp:84) and its correlations (Gmw.cpp:255-268) *)
Record tape := Tape { tpJunk : nat -> nat -> nat -> N; tpJunk2 : nat -> nat -> nat -> N; tpPast : nat -> nat -> nat -> bool;
  tpOutPad : nat -> nat -> nat -> bool; tpCor : list (list triple) }.

(* the matrix of input i in transposed format, Util/Matrix.h:196-223.  Only the blocks are kept that
   Gmw reads and writes: some matrices of the tree have longer rows (aligned to two blocks at
   AggTree.cpp:316-317, or reshaped to fewer entries at 566-567), but Gmw only takes the pointers to their
   rows (GMW/Gmw.h:150-156) and uses mN128 blocks from there *)
Definition lane_mat (past : nat -> nat -> nat -> bool) (k i : nat) (xs : list lane_in) : tmat :=
  let n := length xs in
  TMat (16 * div_ceil n 128) n (map (fun j => map (fun c => of_bits (map (fun t => let r := 128 * c + t in
    if r <? n then nth j (nth i (nth r xs []) []) false else past i j r) (seq 0 128))) (seq 0 (div_ceil n 128))) (seq 0 k)).
(* an output matrix for n entries of k bits, AggTree.cpp:316-317, 538-539; Gmw does not read what it held *)
Definition out_mat (n k : nat) : tmat := TMat (16 * div_ceil n 128) n (repeat (repeat 0%N (div_ceil n 128)) k).

(* the inputs of one party, all mapped: AggTree.cpp:318-321, 561-575, 862-891 *)
Definition lane_inputs (tp : tape) (c : circuit) (xs : list lane_in) : list given :=
  map (fun p => GMap (lane_mat (tpPast tp) (length (snd p)) (fst p) xs)) (combine (seq 0 (length (cIns c))) (cIns c)).
(* the outputs: mapped on the way up and down (AggTree.cpp:322-323, 570-571), not at the leaves *)
Definition lane_outputs (mapped : bool) (n : nat) (c : circuit) : list (option tmat) :=
  map (fun b => if mapped then Some (out_mat n (length b)) else None) (cOuts c).

(* the rows of output i: what the mapped matrix holds, or getOutput into a BinMatrix
   (AggTree.cpp:896-898, Gmw.h:183-188) *)
Definition lane_output (mapped : bool) (tp : tape) (n : nat) (ids : list (option nat)) (h : gmw) (i : nat) (b : list nat) : outcome (list (list bool)) :=
  let k := length b in
  if mapped then
    do q <- get ids i;
    match q with
    | Some q => do rg <- get (gHeap h) q; Ok (map (fun r => map (lane (rgRows rg) r) (seq 0 k)) (seq 0 n))
    | None => UB
    end
  else
    do o <- get_output_bm (tpJunk tp) (tpOutPad tp i) i n k h;
    Ok (map (row_bits k) (snd o)).
(* all outputs, as lanes: AggTree.cpp:342-369, 611-733, 896-898 *)
Definition lanes_back (mapped : bool) (tp : tape) (n : nat) (c : circuit) (ids : list (option nat)) (h : gmw) : outcome (list lane_in) :=
  do os <- mapO (fun p => lane_output mapped tp n ids h (fst p) (snd p)) (combine (seq 0 (length (cOuts c))) (cOuts c));
  Ok (map (fun r => map (fun o => nth r o []) os) (seq 0 n)).

(* one run of both parties for n lanes of the circuit c, evaluated in the levels lvs:
   AggTree.cpp:339, 592, 893 *)
Definition gmw_lanes (mapped : bool) (n : nat) (c : circuit) (lvs : list level) (t0 t1 : tape) : grun := fun x0 x1 =>
  do p0 <- prepare (tpJunk t0) (tpPast t0) (lane_inputs t0 c x0) (lane_outputs mapped n c) (gmw_init n (cWires c) (cIns c) (cOuts c));
  do p1 <- prepare (tpJunk t1) (tpPast t1) (lane_inputs t1 c x1) (lane_outputs mapped n c) (gmw_init n (cWires c) (cIns c) (cOuts c));
  do h <- gmw_exec lvs (tpJunk2 t0) (tpJunk2 t1) (tpCor t0) (tpCor t1) (fst p0) (fst p1);
  do y0 <- lanes_back mapped t0 n c (snd p0) (fst h);
  do y1 <- lanes_back mapped t1 n c (snd p1) (snd h);
  Ok (y0, y1).

(* AggTree::apply with its Gmw runs: the circuits cu, cd, cl of the way up, the way down and the
   leaves, evaluated in the levels lu, ld, ll; AggTree.cpp:150-175, the sizes of the runs 132-143 *)
Definition agg_gmw (ty : agg_type) (zero : list bool) (cu cd cl : circuit) (lu ld ll : list level)
    (up0 up1 dn0 dn1 : nat -> tape) (lf0 lf1 : tape) (src0 src1 : list (list bool)) (ctrl0 ctrl1 : list bool) : outcome (list (list bool) * list (list bool)) :=
  do sh <- tree_sizes (length src0);
  let sz := fun lvl => nth lvl (sSizes sh) 0 / 2 in
  agg_two ty zero (fun lvl => gmw_lanes true (sz lvl) cu lu (up0 lvl) (up1 lvl)) (fun lvl => gmw_lanes true (sz lvl) cd ld (dn0 lvl) (dn1 lvl))
    (gmw_lanes false (sN16 sh / 2) cl ll lf0 lf1) src0 src1 ctrl0 ctrl1.
