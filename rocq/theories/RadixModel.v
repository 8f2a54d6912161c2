(* Model of secure-join/Sort/RadixSort.{h,cpp}.  A Gmw run is replaced by what C19-C21 prove of
   it: the two output shares are xor shares of the circuit's value on the reconstructed input,
   and the share of party 0 is an arbitrary value given as an argument.  The circuit of
   initArith2BinCircuit (BetaLibrary::uint_uint_add) is addition modulo 2^bitCount.
   The mDebug checks are left out, as are the spare bytes behind fBin (415-416, 534). *)
From Verif Require Import Base Words PermModel PermCorModel GmwModel ShuffleModel KeyMultModel PrfModel BitInjModel.

(* ---------------- hadamardSum ---------------- *)

(* *BitIterator(f.data(), k) (as in RadixSort.cpp:73-141) *)
Definition vec_bit (f : list N) (k : nat) : outcome bool := mat_bit 0 f 0 k.

(* RadixSort.cpp:73-205 *)
Definition sum32 (l : list N) : N := fold_left add32 l 0%N.

(* hadamardSumSend, first loop, RadixSort.cpp:95-119: the messages and the shares so far.
   x % 0 is undefined. *)
Fixpoint hs_send1 (rows cols : nat) (f : list N) (segs : list ot_recv) (i : nat)
  : outcome (list (list bool) * list N) :=
  if rows <=? i then Ok ([], []) else
  match segs with
  | [] => Throw
  | s :: segs =>
    if cols =? 0 then UB else
    do _ <- throw_if (negb (length (oMsg s) mod cols =? 0));
    let m := Nat.min (rows - i) (length (oMsg s) / cols) in
    if m =? 0 then Hang else
    do d <- mapM (fun t =>
      do fk <- vec_bit f (i * cols + t);
      do ch <- get (oChoice s) t; Ok (xorb ch fk)) (seq 0 (m * cols));
    do sh <- mapM (fun r => do x <- readN (oMsg s) (r * cols) cols; Ok (sum32 x)) (seq 0 m);
    do r <- hs_send1 rows cols f segs (i + m);
    Ok (d :: fst r, sh ++ snd r)
  end.

(* hadamardSumSend, second loop, RadixSort.cpp:121-137 *)
Fixpoint hs_send2 (rows cols : nat) (f : list N) (tts : list (list N)) (shares : list N) (i : nat)
  : outcome (list N) :=
  if rows <=? i then Ok shares else
  match tts with
  | [] => Hang
  | tm :: tts =>
    if cols =? 0 then UB else
    let m := Nat.min (rows - i) (length tm / cols) in
    if m =? 0 then hs_send2 rows cols f tts shares i else
    do shares <- forN 0 m (fun r sh =>
      do x <- get sh (i + r);
      do a <- mapM (fun j =>
        do fk <- vec_bit f ((i + r) * cols + j);
        do t <- get tm (r * cols + j);
        Ok (mul32 t (N.b2n fk))) (seq 0 cols);
      set sh (i + r) (fold_left add32 a x)) shares;
    hs_send2 rows cols f tts shares (i + m)
  end.

(* hadamardSumRecv, RadixSort.cpp:163-205: the messages tt and the shares *)
Fixpoint hs_recv (rows cols : nat) (s : list N) (f : list N) (segs : list ot_send) (diffs : list (list bool)) (i : nat)
  : outcome (list (list N) * list N) :=
  if rows <=? i then Ok ([], []) else
  match segs, diffs with
  | [], _ => Throw
  | _, [] => Hang
  | ot :: segs, diff :: diffs =>
    if cols =? 0 then UB else
    do _ <- throw_if (negb (length ot mod cols =? 0));
    let m := Nat.min (rows - i) (length ot / cols) in
    if m =? 0 then Hang else
    do _ <- throw_if (negb (length diff =? m * cols));
    do tr <- mapM (fun t =>
      let k := i * cols + t in
      do fk <- vec_bit f k;
      do sk <- get s k;
      do d <- get diff t;
      do p <- get ot t;
      let m0 := if d then snd p else fst p in
      let m1 := if d then fst p else snd p in
      let r := sub32 m0 (mul32 (N.b2n fk) sk) in
      let v1 := add32 (mul32 (N.b2n (negb fk)) sk) r in
      Ok (sub32 v1 m1, r)) (seq 0 (m * cols));
    do sh <- mapM (fun r =>
      do x <- readN (map snd tr) (r * cols) cols; Ok (fold_left sub32 x 0%N)) (seq 0 m);
    do r <- hs_recv rows cols s f segs diffs (i + m);
    Ok (map fst tr :: fst r, sh ++ snd r)
  end.

(* one direction: party A (OT receiver, hadamardSumSend) against party B (hadamardSumRecv) (RadixSort.cpp:73-205) *)
Definition hs_pair (rows cols : nat) (fA : list N) (segA : list ot_recv) (fB sB : list N) (segB : list ot_send)
  : outcome (list N * list N) :=
  do x <- hs_send1 rows cols fA segA 0;
  do y <- hs_recv rows cols sB fB segB (fst x) 0;
  do a <- hs_send2 rows cols fA (fst y) (snd x) 0;
  Ok (a, snd y).

(* oc::log2ceil as used at 262 and 1344 *)
Definition a2b_bits (n : nat) : nat := Nat.max 1 (Nat.log2_up n).

(* the OTs of the two directions of hadamardSum: seg0r/seg1s party 0 receives, seg1r/seg0s
   party 1 receives *)
Record hs_ots := HsOts { h0r : list ot_recv; h1s : list ot_send; h1r : list ot_recv; h0s : list ot_send }.

(* hadamardSum up to the conversion, RadixSort.cpp:230-258: additive shares of the row sums *)
Definition hadamard_arith (rows cols : nat) (f0 f1 s0 s1 : list N) (o : hs_ots) : outcome (list N * list N) :=
  do p <- hs_pair rows cols f0 (h0r o) f1 s1 (h1s o);
  do q <- hs_pair rows cols f1 (h1r o) f0 s0 (h0s o);
  Ok (map2 add32 (snd q) (fst p), map2 add32 (snd p) (fst q)).

(* hadamardSum, RadixSort.cpp:230-280.  cirBits is the input width of mArith2BinCir, gmwN the
   size mArithToBinGmw was initialised with; party p sets input 1-p to its own shares. *)
Definition hadamard_sum (cirBits gmwN rows cols : nat) (f0 f1 s0 s1 : list N) (o : hs_ots) (r : list N)
  : outcome (list N * list N) :=
  do a <- hadamard_arith rows cols f0 f1 s0 s1 o;
  let bc := a2b_bits rows in
  do _ <- throw_if (negb (cirBits =? bc));
  do _ <- throw_if (negb (gmwN =? rows));
  do _ <- throw_if (negb (length r =? rows));
  Ok (r, map2 N.lxor r (map2 (fun x y => ((x + y) mod 2 ^ N.of_nat bc)%N) (fst a) (snd a))).

(* ---------------- genValMasks2 ---------------- *)

(* initIndexToOneHotCircuit, RadixSort.cpp:1280-1340, evaluated on the index x: the array of
   node and leaf wires after the loop over the inner nodes; the result are the leaves *)
Definition one_hot (L : nat) (x : N) : outcome (list bool) :=
  let leaves := 2 ^ L in
  let inner := leaves - 1 in
  do nodes <- forN 0 inner (fun i nodes =>
    do prnt <- get nodes i;
    let cmp := N.testbit x (N.of_nat (L - 1 - Nat.log2 (i + 1))) in
    let c1 := prnt && cmp in
    do nodes <- set nodes ((i + 1) * 2) c1;
    set nodes ((i + 1) * 2 - 1) (xorb prnt c1)) (true :: repeat false (inner - 1 + leaves));
  readN nodes inner leaves.

(* bits to bytes, as the rows of fBin hold them (RadixSort.cpp:478-531) *)
Definition bits_bytes (l : list bool) : list N :=
  map (fun b => of_bits (firstn 8 (skipn (8 * b) l))) (seq 0 (div_ceil (length l) 8)).

(* the keys turned into rows of 2^L bits, RadixSort.cpp:420-456.  k0, k1 hold one byte per key
   (L <= 8, as extract makes them); r is party 0's share of the circuit's output, n rows of
   divCeil(2^L, 8) bytes.  Only the low L bits of a row enter the circuit. *)
Definition gen_fbin (L n : nat) (k0 k1 r : list N) : outcome (list N * list N) :=
  if L =? 1 then
    do a <- mapM (fun i => do k <- get k0 i;
      if (2 <=? k)%N then UB else Ok (N.lor (N.shiftl k 1) (N.land k 1))) (seq 0 n);
    do b <- mapM (fun i => do k <- get k1 i;
      if (2 <=? k)%N then UB else Ok (N.lor (N.shiftl k 1) (N.lxor (N.land k 1) 1))) (seq 0 n);
    Ok (a, b)
  else
    do _ <- throw_if (negb ((length k0 =? n) && (length k1 =? n)));
    do o <- mapM (fun i => do a <- get k0 i; do b <- get k1 i; one_hot L (N.lxor a b)) (seq 0 n);
    do _ <- throw_if (negb (length r =? n * div_ceil (2 ^ L) 8));
    Ok (r, map2 N.lxor r (concat (map bits_bytes o))).

(* the in place packing, RadixSort.cpp:478-531: 2^L <= 4 bits per row *)
Definition pack_rows (L n : nat) (d : list N) : outcome (list N) :=
  let w := 2 ^ L in          (* bits per row: 2 or 4 *)
  let q := 8 / w in          (* rows per byte *)
  let m := N.ones (N.of_nat w) in
  do d <- forN 0 (n / q) (fun i d =>
    do x <- readN d (q * i) q;
    set d i (fold_right (fun v acc => N.lor (N.land v m) (N.shiftl acc (N.of_nat w))) 0%N x)) d;
  forN 0 (n mod q) (fun j d =>
    do s <- get d (q * (n / q) + j);
    do o <- get d (n / q);
    set d (n / q) (N.lor (N.shiftl (N.land s m) (N.of_nat (w * j))) (if j =? 0 then 0%N else o))) d.

(* the in place packing, RadixSort.cpp:478-531 *)
Definition pack_fbin (L n : nat) (d : list N) : outcome (list N) :=
  if L <=? 2 then
    do d <- pack_rows L n d;
    readN d 0 (div_ceil (n * 2 ^ L) 8)
  else Ok d.

(* genValMasks2 of both parties, RadixSort.cpp:401-550: fBin and f of both.  mL, mSize are the
   object's, nk = k.rows(); the bit injection is initialised with one row of mSize * 2^mL bits
   (Round::init, RadixSort.h:148). *)
Definition gen_val_masks (mL mSize L nk : nat) (k0 k1 r : list N) (segs0 : list ot_send) (segs1 : list ot_recv)
  : outcome ((list N * list N) * (list N * list N)) :=
  do _ <- throw_if (negb (L =? mL));
  do _ <- throw_if (negb (nk =? mSize));
  do b <- gen_fbin L mSize k0 k1 r;
  do f0 <- pack_fbin L mSize (fst b);
  do f1 <- pack_fbin L mSize (snd b);
  let nb := mSize * 2 ^ mL in
  do f <- bit_inject true 1 nb nb 1 (length f0) f0 f1 32 segs0 segs1;
  Ok ((f0, f1), f).

(* ---------------- aggregateSum ---------------- *)

(* the running sums, RadixSort.cpp:568-600; a matrix is its list of rows *)
Fixpoint agg_run (p : list N) (f : list (list N)) : list (list N) * list N :=
  match f with
  | [] => ([], p)
  | x :: f =>
    let p := map2 add32 p x in
    let r := agg_run p f in
    (p :: fst r, snd r)
  end.

(* exclusive sums over the columns, RadixSort.cpp:602-608 *)
Fixpoint excl_sums (prev : N) (p : list N) : list N :=
  match p with [] => [] | s0 :: p => prev :: excl_sums (add32 prev s0) p end.

(* aggregateSum, RadixSort.cpp:554-625; partialSum[0] = -partyIdx *)
Definition aggregate_sum (party : nat) (cols : nat) (f : list (list N)) : outcome (list (list N)) :=
  do p <- set (repeat 0%N cols) 0 (w32 (- Z.of_nat party));
  let r := agg_run p f in
  let e := excl_sums 0 (snd r) in
  Ok (map (fun x => map2 add32 x e) (fst r)).

(* ---------------- genBitPerm ---------------- *)

(* the randomness of one round: OTs of the bit injection and of hadamardSum, the Gmw shares
   (Round, RadixSort.h, and the request members started at RadixSort.cpp:1430-1440) *)
Record radix_round := Round { rdInj0 : list ot_send; rdInj1 : list ot_recv; rdHot : list N;
  rdHs : hs_ots; rdA2b : list N }.

(* reshaping a flat matrix, RadixSort.cpp:543 *)
Definition rows_of (n c : nat) (d : list N) : list (list N) := map (fun i => slice d (i * c) c) (seq 0 n).

(* genBitPerm of both parties, RadixSort.cpp:725-785.  k0, k1: n rows of kc bytes; mArith2BinCir
   and mArithToBinGmw were made for mSize rows *)
Definition gen_bit_perm (mL mSize L n kc : nat) (k0 k1 : list N) (rd : radix_round) : outcome (list N * list N) :=
  do _ <- throw_if (kc * 8 <? L);
  let L2 := 2 ^ L in
  do x <- gen_val_masks mL mSize L n k0 k1 (rdHot rd) (rdInj0 rd) (rdInj1 rd);
  let '((b0, b1), (f0, f1)) := x in
  do s0 <- aggregate_sum 0 L2 (rows_of n L2 f0);
  do s1 <- aggregate_sum 1 L2 (rows_of n L2 f1);
  hadamard_sum (a2b_bits mSize) mSize n L2 b0 b1 (concat s0) (concat s1) (rdHs rd) (rdA2b rd).

(* ---------------- extract and genPerm ---------------- *)

(* extract, RadixSort.cpp:849-892: n rows of c bytes.  A begin behind the row is outside of
   the contract (the subtraction wraps around).  With no rows, n = rows - 1 wraps around
   and the loop runs out of the matrix; size = 0 makes 0-byte rows, which are then written. *)
Definition extract (begin size : nat) (n c : nat) (k : list N) : outcome (list N) :=
  do _ <- throw_if (8 <? size);
  if c * 8 <=? begin then UB else
  if size =? 0 then UB else
  if n =? 0 then UB else
  let size := Nat.min size (c * 8 - begin) in
  let byteIdx := begin / 8 in
  let sh := N.of_nat (begin mod 8) in
  let mask := N.ones (N.of_nat size) in
  do a <- mapM (fun i =>
    do x <- readN k (i * c + byteIdx) 2;
    Ok (N.land (N.shiftr (load x) sh) mask)) (seq 0 (n - 1));
  let s := Nat.min 2 (length k - (n - 1) * c - byteIdx) in
  do x <- readN k ((n - 1) * c + byteIdx) s;
  Ok (a ++ [N.land (N.shiftr (load x) sh) mask]).

(* the loop of genPerm, RadixSort.cpp:1156-1222, over the remaining rounds; each round has the
   pair of random composed permutations of the previous one (mRounds[i-1].mPerm) *)
Fixpoint gen_perm_loop (mL mSize n c : nat) (k0 k1 : list N) (kIdx : nat)
    (rds : list ((comp * comp) * radix_round)) (dst0 dst1 : list N) : outcome (list N * list N) :=
  match rds with
  | [] => Ok (dst0, dst1)
  | ((c0, c1), rd) :: rds =>
    do sk0 <- extract kIdx mL n c k0;
    do sk1 <- extract kIdx mL n c k1;
    do d <- comp_derand c0 c1 dst0 dst1;
    do a <- comp_apply (fst d) (snd d) Inverse (Mat n 1 sk0) (Mat n 1 sk1) (zmat n 1) (zmat n 1);
    let '((z0, e0), (z1, e1)) := a in
    do rho <- gen_bit_perm mL mSize mL n 1 (dat z0) (dat z1) rd;
    do q <- comp_compose e0 e1 (fst rho) (snd rho);
    let '((y0, _), (y1, _)) := q in
    gen_perm_loop mL mSize n c k0 k1 (kIdx + mL) rds y0 y1
  end.

(* genPerm of both parties, RadixSort.cpp:1095-1229, without mInsecureMock.  The object was
   initialised for mSize rows of mBitCount bits, so it has divCeil(mBitCount, mL) rounds: the
   first (rd) and rds; bits is k.bitsPerEntry() and c = k.cols().  Without rounds mRounds[0]
   does not exist. *)
Definition gen_perm (mL mSize mBitCount bits n c : nat) (k0 k1 : list N)
    (rd : radix_round) (rds : list ((comp * comp) * radix_round)) : outcome (list N * list N) :=
  do _ <- throw_if (negb (n =? mSize));
  do _ <- throw_if (negb (bits =? mBitCount));
  if mL =? 0 then UB else
  let ll := div_ceil bits mL in
  do sk0 <- extract 0 mL n c k0;
  do sk1 <- extract 0 mL n c k1;
  if ll =? 0 then UB else
  do d <- gen_bit_perm mL mSize mL n 1 sk0 sk1 rd;
  if negb (length rds =? ll - 1) then UB else
  gen_perm_loop mL mSize n c k0 k1 mL rds (fst d) (snd d).

(* lessThan(span<const u8>, span<const u8>), RadixSort.cpp:1395-1406: from the last byte down *)
Fixpoint less_rev (l r : list N) : bool :=
  match l, r with
  | a :: l, b :: r => if (a <? b)%N then true else if (b <? a)%N then false else less_rev l r
  | _, _ => false
  end.
(* lessThan, RadixSort.cpp:1395-1406 *)
Definition less_than (l r : list N) : bool := less_rev (rev l) (rev r).

(* std::stable_sort: insertion of the elements from the right, each before the first one that
   is not smaller than it (used at RadixSort.cpp:1412) *)
Fixpoint st_insert {A} (lt : A -> A -> bool) (x : A) (l : list A) : list A :=
  match l with
  | [] => [x]
  | y :: t => if lt y x then y :: st_insert lt x t else x :: l
  end.
(* std::stable_sort, used at RadixSort.cpp:1412 *)
Definition stable_sort {A} (lt : A -> A -> bool) (l : list A) : list A := fold_right (st_insert lt) [] l.

(* sort(BinMatrix), RadixSort.cpp:1408-1426 *)
Definition sort_rows (n c : nat) (x : list N) : list nat :=
  stable_sort (fun a b => less_than (slice x (a * c) c) (slice x (b * c) c)) (seq 0 n).

(* mockSort, RadixSort.cpp:1354-1379: the shares of party 0 and of party 1 *)
Definition mock_sort (n c : nat) (k0 k1 : list N) : outcome (list N * list N) :=
  do _ <- throw_if (negb ((length k0 =? n * c) && (length k1 =? n * c)));
  do p <- perm_inverse (sort_rows n c (map2 N.lxor k0 k1));
  Ok (repeat 0%N n, map N.of_nat p).
