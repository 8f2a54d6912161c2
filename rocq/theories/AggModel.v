(* Model of secure-join/AggTree/Level.h and AggTree.cpp.  Values are the reconstructed ones:
   a Gmw run is replaced by its circuit applied to every lane (what C19-C21 prove of it), an
   operator circuit by a function op, multiplex_build (BetaLibrary) by if-then-else, and the
   rows of a TBinMatrix by the list of its entries; the value and bit matrices of a level,
   which the code treats alike, are one list of pairs.  The bit rows themselves are shuffled
   as modelled in ShuffleModel.  init and apply are given the same number of rows.
   AggTreeSplitLevel::resize also allocates mPreBit for a Suffix tree (Level.h:133-134), so
   that the prefix arrays are loaded without being used afterwards: not modelled. *)
From Verif Require Import Base GmwModel ShuffleModel ShuffleSpec.

(* AggTreeParam, Level.h:18-36 *)
Record shape := Shape { sN : nat; sN16 : nat; sComplete : bool; sR : nat; sSizes : list nat }.

(* computeTreeSizes, Level.h:59-95.  log2ceil is undefined at 0.  The vector of sizes has
   log2ceil(mN16)+1 elements; element 1 is written unconditionally. *)
Definition tree_sizes (n : nat) : outcome shape :=
  if n =? 0 then UB else
  let n16 := Nat.min (2 ^ Nat.log2_up n) (round_up n 16) in
  let logfn := Nat.log2 n16 in
  let logn := Nat.log2_up n16 in
  let complete := logfn =? logn in
  let sz := repeat 0 (logn + 1) in
  let r := n16 - 2 ^ logfn in
  do sz <- set sz 0 (if r =? 0 then n16 else 2 * r);
  do sz <- set sz 1 (2 ^ logfn);
  do sz <- (if complete then do s0 <- get sz 0; set sz 1 (s0 / 2) else Ok sz);
  do sz <- forN 2 (length sz - 2) (fun i sz => do p <- get sz (i - 1); set sz i (p / 2)) sz;
  do b <- get sz (length sz - 1);
  if negb (b =? 1) then UB else
  if negb (r mod 8 =? 0) then UB else
  Ok (Shape n n16 complete r sz).

Section Tree.
Context {V : Type}.
Variable op : V -> V -> V.
Variable zero : V.

(* one entry of a level: its value and its product bit (AggTreeLevel, AggTree/Level.h:101-119) *)
Definition ent : Type := V * bool.
(* a padding entry of a level, AggTree/Level.h:105-117 (zeroed by resize) *)
Definition zent : ent := (zero, false).
(* AggTreeSplitLevel, Level.h:122-156: left and right children in separate arrays *)
Definition split : Type := list ent * list ent.

(* setLeafVals, prefix part, Level.h:179-224 (offset 0, as called at AggTree.cpp:298).
   n is the size of the level *)
Definition load_pre (n : nat) (src : list V) (ctrl : list bool) : outcome split :=
  let available := Nat.min (length src) n in
  let s := (repeat zent (div_ceil n 2), repeat zent (n / 2)) in
  do s <- forN 0 (available / 2) (fun d (s : split) =>
    do x0 <- get src (2 * d); do x1 <- get src (2 * d + 1);
    do c0 <- get ctrl (2 * d); do c1 <- get ctrl (2 * d + 1);
    do l <- set (fst s) d (x0, c0); do r <- set (snd s) d (x1, c1); Ok (l, r)) s;
  let d := available / 2 in
  do s <- (if Nat.odd available then
    do x <- get src (2 * d); do c <- get ctrl (2 * d);
    do l <- set (fst s) d (x, c); do r <- set (snd s) d zent; Ok (l, r) else Ok s);
  let d := if Nat.odd available then d + 1 else d in
  forN d (n / 2 - d) (fun d (s : split) =>
    do l <- set (fst s) d zent; do r <- set (snd s) d zent; Ok (l, r)) s.

(* setLeafVals, suffix part, Level.h:226-290.  With fewer than two rows the bound
   available2 - 2 wraps around and the loop runs out of the arrays.  The fill loop 280-286
   compares with n/2 for the inner n = available/2 and never runs: the arrays were zeroed by
   their allocation. *)
Definition load_suf (n : nat) (src : list V) (ctrl : list bool) : outcome split :=
  let available := Nat.min (length src) n in
  if available / 2 =? 0 then UB else
  let s := (repeat zent (div_ceil n 2), repeat zent (n / 2)) in
  do s <- forN 0 (available / 2 - 1) (fun d (s : split) =>
    do x0 <- get src (2 * d); do x1 <- get src (2 * d + 1);
    do c1 <- get ctrl (2 * d + 1); do c2 <- get ctrl (2 * d + 2);
    do l <- set (fst s) d (x0, c1); do r <- set (snd s) d (x1, c2); Ok (l, r)) s;
  let d := available / 2 - 1 in
  do x0 <- get src (2 * d); do x1 <- get src (2 * d + 1);
  do c1 <- get ctrl (2 * d + 1);
  do cl <- (if 2 * d + 2 <? length ctrl then get ctrl (2 * d + 2) else Ok false);
  do l <- set (fst s) d (x0, c1); do r <- set (snd s) d (x1, cl);
  if Nat.odd available then
    do x <- get src (2 * d + 2);
    do cl <- (if 2 * d + 3 <? length ctrl then get ctrl (2 * d + 3) else Ok false);
    do l <- set l (d + 1) (x, cl); do r <- set r (d + 1) zent; Ok (l, r)
  else Ok (l, r).

(* AggTreeSplitLevel::copy, Level.h:334-374; byte b of a row holds the entries 8b .. 8b+7 *)
Definition level_copy (src : split) (srcOff dstOff dstSize : nat) : outcome split :=
  do _ <- throw_if (negb (srcOff mod 16 =? 0));
  do _ <- throw_if (negb (dstOff mod 16 =? 0));
  let srcSize := length (fst src) + length (snd src) - srcOff in
  do _ <- throw_if (negb (srcSize mod 16 =? 0));
  do _ <- throw_if (dstSize <? srcSize + dstOff);
  let size := 8 * (srcSize / 16) in
  do a <- readN (fst src) (8 * (srcOff / 16)) size;
  do b <- readN (snd src) (8 * (srcOff / 16)) size;
  do l <- writeN (repeat zent (div_ceil dstSize 2)) (8 * (dstOff / 16)) a;
  do r <- writeN (repeat zent (dstSize - div_ceil dstSize 2)) (8 * (dstOff / 16)) b;
  Ok (l, r).

(* AggTreeSplitLevel::reshape, Level.h:376-389 *)
Definition level_reshape (s : split) (n : nat) : outcome split :=
  do _ <- throw_if ((length (fst s) <? n / 2) || (length (snd s) <? n / 2));
  Ok (firstn (n / 2) (fst s), firstn (n / 2) (snd s)).

(* TBinMatrix::resize, Matrix.h:211-215: a resize to the same size keeps the content *)
Definition resize (n : nat) (l : list ent) : list ent := firstn n l ++ repeat zent (n - length l).

(* one direction of the tree: the up and down circuits
   (upstreamCir, AggTree.cpp:178-281, and downstreamCir, 375-516) *)
Record chan := Chan { cUp : ent -> ent -> ent; cDown : ent -> ent -> V -> V * V }.

(* upstreamCir, prefix part AggTree.cpp:248-257; downstreamCir, prefix part 440-465 *)
Definition pre_chan : chan := Chan
  (fun l r => (if snd r then op (fst l) (fst r) else fst r, snd l && snd r))
  (fun l r v => (v, if snd l then op v (fst l) else fst l)).

(* upstreamCir, suffix part AggTree.cpp:265-275; downstreamCir, suffix part 481-506 *)
Definition suf_chan : chan := Chan
  (fun l r => (if snd l then op (fst l) (fst r) else fst l, snd l && snd r))
  (fun l r v => (if snd r then op (fst r) v else fst r, v)).

Variable ch : chan.

(* AggTree::upstream for one channel, AggTree.cpp:297-371, from the loaded leaves on *)
Definition upstream (sh : shape) (leaves : split) : outcome (list split * list ent) :=
  let nl := length (sSizes sh) in
  do levels <- (if sComplete sh then Ok (leaves :: repeat ([], []) (nl - 1)) else
    do s1 <- get (sSizes sh) 1;
    do s0 <- get (sSizes sh) 0;
    do l1 <- level_copy leaves (sR sh * 2) (sR sh) s1;
    do l0 <- level_reshape leaves s0;
    set (l0 :: repeat ([], []) (nl - 1)) 1 l1);
  forN 0 (nl - 1) (fun lvl (st : list split * list ent) =>
    do children <- get (fst st) lvl;
    do sz <- get (sSizes sh) lvl;
    do _ <- throw_if (negb (length (fst children) =? sz / 2));
    do _ <- throw_if (negb (length (snd children) =? sz / 2));
    let parent := map2 (cUp ch) (fst children) (snd children) in
    if lvl =? nl - 1 - 1 then Ok (fst st, parent) else
    do sz1 <- get (sSizes sh) (lvl + 1);
    do sp <- get (fst st) (lvl + 1);
    if sz1 / 2 =? 0 then UB else
    do l <- writeN (resize (sz1 / 2) (fst sp)) 0 (evens parent);
    do r <- writeN (resize (sz1 / 2) (snd sp)) 0 (odds parent);
    do levels <- set (fst st) (lvl + 1) (l, r);
    Ok (levels, parent)) (levels, []).

(* AggTree::downstream for one channel, AggTree.cpp:545-734 *)
Definition downstream (sh : shape) (levels : list split) (root : list V) : outcome (list V * list V) :=
  let top := length (sSizes sh) - 1 in
  do st <- forN 0 top (fun k (st : list V * (list V * list V)) =>
    let cLvl := top - k - 1 in
    do children <- get levels cLvl;
    do sz <- get (sSizes sh) cLvl;
    do _ <- throw_if (negb (length (fst children) =? sz / 2));
    do _ <- throw_if (negb (length (snd children) =? sz / 2));
    do _ <- throw_if (negb (length (fst st) =? sz / 2));
    let out := map2 (fun lr v => cDown ch (fst lr) (snd lr) v) (combine (fst children) (snd children)) (fst st) in
    let t0 := map fst out in
    let t1 := map snd out in
    do parent <- (if cLvl =? 0 then Ok (fst st) else
      do nc <- get levels (cLvl - 1);
      let np := length (fst nc) in
      if Nat.odd np then UB else
      do a <- readN t0 0 (np / 2);
      do b <- readN t1 0 (np / 2);
      Ok (interleave a b));
    do s0 <- get (sSizes sh) 0;
    do s1 <- get (sSizes sh) 1;
    do nv <- (if negb (sComplete sh) && (cLvl =? 1) then
        do _ <- (if sR sh * 2 =? s0 then Ok tt else UB);
        let size := 8 * ((s1 - sR sh) / 16) in
        do a <- readN t0 (8 * (sR sh / 16)) size;
        do b <- readN t1 (8 * (sR sh / 16)) size;
        do l <- writeN (repeat zero (sN16 sh / 2)) (8 * (s0 / 16)) a;
        do r <- writeN (repeat zero (sN16 sh / 2)) (8 * (s0 / 16)) b;
        Ok (l, r)
      else if negb (sComplete sh) && (cLvl =? 0) then
        do a <- readN t0 0 (8 * (s0 / 16));
        do b <- readN t1 0 (8 * (s0 / 16));
        do l <- writeN (fst (snd st)) 0 a;
        do r <- writeN (snd (snd st)) 0 b;
        Ok (l, r)
      else if sComplete sh && (cLvl =? 0) then Ok (t0, t1)
      else Ok (snd st));
    Ok (parent, nv)) (root, ([], []));
  Ok (snd st).

(* both passes of one channel (AggTree::upstream, AggTree.cpp:284-373, then downstream, 519-734) *)
Definition channel (sh : shape) (leaves : split) : outcome (list V * list V) :=
  do u <- upstream sh leaves;
  downstream sh (fst u) (map fst (snd u)).

(* leafCircuit, AggTree.cpp:795-836 *)
Definition leaf_pre (e : ent) (p : V) : V := if snd e then op p (fst e) else fst e.
(* the Suffix and Full cases of leafCircuit, AggTree.cpp:795-836 *)
Definition leaf_suf (e : ent) (s : V) : V := if snd e then op (fst e) s else fst e.
(* the Suffix and Full cases of leafCircuit, AggTree.cpp:795-836 *)
Definition leaf_full (e : ent) (p : V) (sufBit : bool) (s : V) : V :=
  let t3 := if snd e then op p (fst e) else fst e in
  if sufBit then op t3 s else t3.

(* the rows of the output, AggTree.cpp:895-931 *)
Definition leaf_rows (n : nat) (l r : list V) : outcome (list V) :=
  do _ <- throw_if (length l <? n / 2);
  do _ <- throw_if (length r <? n / 2 + n mod 2);
  do dst <- forN 0 (n / 2) (fun i dst =>
    do a <- get l i; do b <- get r i;
    do dst <- set dst (2 * i) a; set dst (2 * i + 1) b) (repeat zero n);
  if Nat.odd n then do a <- get l (n / 2); set dst (2 * (n / 2)) a else Ok dst.

End Tree.

(* AggTreeType, AggTree/Level.h:9-14 *)
Inductive agg_type := Prefix | Suffix | Full.

(* a circuit applied lane by lane; Gmw::mapInput throws when a matrix has another size (GMW/Gmw.h:141-149) *)
Definition lanes2 {A B C} (n : nat) (f : A -> B -> C) (l : list A) (m : list B) : outcome (list C) :=
  do _ <- throw_if (negb (length l =? n));
  do _ <- throw_if (negb (length m =? n));
  Ok (map2 f l m).

(* AggTree::apply, AggTree.cpp:150-175 with upstream 292-298 and computeLeaf 842-932 *)
Definition agg_apply {V} (ty : agg_type) (op : V -> V -> V) (zero : V) (src : list V) (ctrl : list bool)
  : outcome (list V) :=
  do sh <- tree_sizes (length src);
  do _ <- throw_if (negb (length src =? length ctrl));
  let h := sN16 sh / 2 in
  match ty with
  | Prefix =>
    do lv <- load_pre zero (sN16 sh) src ctrl;
    do nv <- channel zero (pre_chan op) sh lv;
    do l <- lanes2 h (leaf_pre op) (fst lv) (fst nv);
    do r <- lanes2 h (leaf_pre op) (snd lv) (snd nv);
    leaf_rows zero (sN sh) l r
  | Suffix =>
    do lv <- load_suf zero (sN16 sh) src ctrl;
    do nv <- channel zero (suf_chan op) sh lv;
    do l <- lanes2 h (leaf_suf op) (fst lv) (fst nv);
    do r <- lanes2 h (leaf_suf op) (snd lv) (snd nv);
    leaf_rows zero (sN sh) l r
  | Full =>
    do lp <- load_pre zero (sN16 sh) src ctrl;
    do ls <- load_suf zero (sN16 sh) src ctrl;
    do np <- channel zero (pre_chan op) sh lp;
    do ns <- channel zero (suf_chan op) sh ls;
    let leaf := fun (a : (V * bool) * V) (b : (V * bool) * V) =>
      leaf_full op (fst a) (snd a) (snd (fst b)) (snd b) in
    do _ <- throw_if (negb ((length (fst np) =? h) && (length (snd np) =? h) && (length (fst ns) =? h) && (length (snd ns) =? h)));
    do l <- lanes2 h leaf (combine (fst lp) (fst np)) (combine (fst ls) (fst ns));
    do r <- lanes2 h leaf (combine (snd lp) (snd np)) (combine (snd ls) (snd ns));
    leaf_rows zero (sN sh) l r
  end.
