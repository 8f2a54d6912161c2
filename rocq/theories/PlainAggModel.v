(* Model of the plaintext aggregation tree, secure-join/AggTree/PlainAggTree.h and .cpp, which
   the tests use as the reference for AggTree.  A BitVector value is an element of V, the
   BitVector of bitCount zeros is zero, and a value that no line has written yet is zero too
   (in the code the empty BitVector; the asserts of lines 188-189 exclude it and with it
   bitCount = 0).  The prefix and the suffix arrays of a PLevel (Level.h:426-451), which one
   loop fills in the code, are modelled by one run per array.  print and the formatter are left
   out. *)
From Verif Require Import Base GmwModel ShuffleModel ShuffleSpec AggModel TableModel.

Section PTree.
Context {V : Type}.
Variable op : V -> V -> V.
Variable zero : V.
Variable eqb : V -> V -> bool.   (* operator== of BitVector *)

(* the two expressions of upstream for the prefix arrays, PlainAggTree.cpp:134-140, and of
   downstream, 181-193; a is the left child and b the right child *)
Definition pt_pre : @chan V := Chan
  (fun a b => (if snd b then op (fst a) (fst b) else fst b, snd b && snd a))
  (fun a b v => (v, if snd a then op v (fst a) else fst a)).

(* the same for the suffix arrays, PlainAggTree.cpp:145-151 and 196-204 *)
Definition pt_suf : @chan V := Chan
  (fun a b => (if snd a then op (fst a) (fst b) else fst a, snd b && snd a))
  (fun a b v => (if snd b then op (fst b) v else fst b, v)).

(* the level q and the index w of leaf i, PlainAggTree.cpp:84-85, 108-109 and 224-225 *)
Definition pt_pos (sh : shape) (i : nat) : outcome (nat * nat) :=
  do s0 <- get (sSizes sh) 0;
  Ok (if i <? s0 then (0, i) else (1, i - sR sh)).

(* one leaf of loadLeaves: the two checks and the store, PlainAggTree.cpp:86-100, 111-119 *)
Definition pt_store (sh : shape) (levels : list (list (@ent V))) (i : nat) (e : @ent V) : outcome (list (list (@ent V))) :=
  do p <- pt_pos sh i;
  do _ <- throw_if (length levels <=? fst p);
  do lv <- get levels (fst p);
  do _ <- throw_if (length lv <=? snd p);
  do lv <- set lv (snd p) e;
  set levels (fst p) lv.

(* the bit stored with leaf i in the prefix array, PlainAggTree.cpp:93-96 *)
Definition pt_pre_bit (c : list bool) (i : nat) : outcome bool :=
  if i =? 0 then Ok false else get c i.

(* and in the suffix array, PlainAggTree.cpp:97-100 *)
Definition pt_suf_bit (n : nat) (c : list bool) (i : nat) : outcome bool :=
  if i =? n - 1 then Ok false else get c (i + 1).

(* loadLeaves for one of the two arrays, PlainAggTree.cpp:62-121, after computeTreeSizes *)
Definition pt_load (bit : nat -> outcome bool) (sh : shape) (s : list V) : outcome (list (list (@ent V))) :=
  let levels := map (repeat (@zent V zero)) (sSizes sh) in
  do levels <- forN 0 (sN sh) (fun i levels =>
    do v <- get s i; do b <- bit i; pt_store sh levels i (v, b)) levels;
  forN (sN sh) (sN16 sh - sN sh) (fun i levels => pt_store sh levels i (zero, false)) levels.

(* upstream, PlainAggTree.cpp:122-160 *)
Definition pt_up (ch : @chan V) (levels : list (list (@ent V))) : outcome (list (list (@ent V))) :=
  forN 1 (length levels - 1) (fun j levels =>
    do child <- get levels (j - 1);
    do parent <- get levels j;
    do parent <- forN 0 (length child / 2) (fun i parent =>
      do a <- get child (2 * i); do b <- get child (2 * i + 1);
      set parent i (cUp ch a b)) parent;
    set levels j parent) levels.

(* downstream, PlainAggTree.cpp:163-212: the values sent down; the bits of a lower level are
   those of the upstream level (175-176).  The k-th turn of the loop handles j = top - k. *)
Definition pt_down (ch : @chan V) (up : list (list (@ent V))) : outcome (list (list (@ent V))) :=
  do root <- get up (length up - 1);
  if negb (length root =? 1) then UB else
  do down <- set (map (fun l => repeat (@zent V zero) (length l)) up) (length up - 1) root;
  forN 0 (length up - 1) (fun k down =>
    let j := length up - 1 - k in
    do parent <- get down j;
    do childDn <- get down (j - 1);
    do childUp <- get up (j - 1);
    let dn := map2 (fun d u => (fst d, snd u)) childDn childUp in
    do dn <- forN 0 (length childDn / 2) (fun i dn =>
      do v <- get parent i;
      do a <- get childUp (i * 2); do b <- get childUp (i * 2 + 1);
      let d := cDown ch a b (fst v) in
      do dn <- set dn (i * 2 + 1) (snd d, snd b);
      set dn (i * 2) (fst d, snd a)) dn;
    set down (j - 1) dn) down.

(* the four arrays written by the loop of leaves: expPre, expSuf and the three results,
   PlainAggTree.cpp:217-220 *)
Record pt_res := PtRes { ptExpPre : list V; ptExpSuf : list V; ptPre : list V; ptSuf : list V; ptFull : list V }.

(* one turn of the loop of leaves, PlainAggTree.cpp:224-242.  For i = 0 the index i - 1 wraps
   around. *)
Definition pt_leaf (sh : shape) (s : list V) (c : list bool) (dpre dsuf : list (list (@ent V))) (i : nat) (r : pt_res)
  : outcome pt_res :=
  do p <- pt_pos sh i;
  do lp <- get dpre (fst p);
  do ls <- get dsuf (fst p);
  do ci <- get c i;
  do x <- get s i;
  do ep <- (if ci then if i =? 0 then UB else do y <- get (ptExpPre r) (i - 1); Ok (op y x) else Ok x);
  do expPre <- set (ptExpPre r) i ep;
  let ii := sN sh - 1 - i in
  do cc <- (if i =? 0 then Ok false else get c (ii + 1));
  do xi <- get s ii;
  do es <- (if cc then do y <- get (ptExpSuf r) (ii + 1); Ok (op xi y) else Ok xi);
  do expSuf <- set (ptExpSuf r) ii es;
  do ep <- get lp (snd p);
  do es <- get ls (snd p);
  let vp := if snd ep then op (fst ep) x else x in
  let vs := if snd es then op x (fst es) else x in
  let vf := if snd ep then vp else x in
  let vf := if snd es then op vf (fst es) else vf in
  do pre <- set (ptPre r) i vp;
  do suf <- set (ptSuf r) i vs;
  do full <- set (ptFull r) i vf;
  Ok (PtRes expPre expSuf pre suf full).

(* operator!= of the two vectors, PlainAggTree.cpp:256 and 258 *)
Fixpoint veqb (a b : list V) : bool :=
  match a, b with
  | [], [] => true
  | x :: a, y :: b => eqb x y && veqb a b
  | _, _ => false
  end.

(* leaves, PlainAggTree.cpp:214-260 *)
Definition pt_leaves (sh : shape) (s : list V) (c : list bool) (dpre dsuf : list (list (@ent V))) : outcome (list V * list V * list V) :=
  let z := repeat zero (sN sh) in
  do r <- forN 0 (sN sh) (pt_leaf sh s c dpre dsuf) (PtRes z z z z z);
  do _ <- throw_if (negb (veqb (ptPre r) (ptExpPre r)));
  do _ <- throw_if (negb (veqb (ptSuf r) (ptExpSuf r)));
  Ok (ptPre r, ptSuf r, ptFull r).

(* PTree::init, PlainAggTree.cpp:262-276, and the start of loadLeaves, 67-71: s[0] is read *)
Definition pt_init (s : list V) (c : list bool) : outcome (list V * list V * list V) :=
  do _ <- get s 0;
  do sh <- tree_sizes (length s);
  do upre <- pt_load (pt_pre_bit c) sh s;
  do usuf <- pt_load (pt_suf_bit (sN sh) c) sh s;
  do upre <- pt_up pt_pre upre;
  do usuf <- pt_up pt_suf usuf;
  do dpre <- pt_down pt_pre upre;
  do dsuf <- pt_down pt_suf usuf;
  pt_leaves sh s c dpre dsuf.

End PTree.

(* one row of the loop of share, PlainAggTree.h:23-26: x1(i,j) = d(i,j) ^ x0(i,j) *)
Definition pt_xor_row (bytes : nat) (d x0 : list N) : outcome (list N) :=
  forN 0 bytes (fun j x1 => do a <- get d j; do b <- get x0 j; set x1 j (N.lxor a b)) (repeat 0%N bytes).

(* share, PlainAggTree.h:15-28, called by shareVals and shareBits (PlainAggTree.cpp:41, 57): rnd
   are the bytes of prng, one row of x0 after the other *)
Definition pt_share (bits : nat) (d rnd : list (list N)) : outcome (bmat * bmat) :=
  let bytes := div_ceil bits 8 in
  do x0 <- bm_trim (BM bits bytes rnd);
  do x1 <- forN 0 (length d) (fun i x1 =>
    do a <- get d i; do b <- get (bRows x0) i; do r <- pt_xor_row bytes a b; set x1 i r)
    (repeat (repeat 0%N bytes) (length d));
  Ok (x0, BM bits bytes x1).
