(* Model of secure-join/Util/Trim.cpp, of BinMatrix (Util/Matrix.h), of the sharing functions in
   Util/Util.h and of the plain table operations share, reveal, extractActive, permute and sort
   (Join/Table.{h,cpp}).  A matrix is the list of its rows, each a list of bytes; the code's
   MatrixView has stride = cols throughout.  Loops over the flat array are written row by row. *)
From Verif Require Import Base Words PermModel KeyMultModel ShuffleModel RadixModel.

(* BinMatrix, Util/Matrix.h:13-25: mBitCount, mData.cols(), the rows *)
Record bmat := BM { bBits : nat; bCols : nat; bRows : list (list N) }.

(* the number of rows, Util/Matrix.h:62-67 *)
Definition bm_n (m : bmat) : nat := length (bRows m).

(* BinMatrix(rows, bits) / resize of a fresh matrix, Util/Matrix.h:33-42: zeroed *)
Definition bm_zero (n bits : nat) : bmat :=
  BM bits (div_ceil bits 8) (repeat (repeat 0%N (div_ceil bits 8)) n).

(* resize of an existing matrix, Util/Matrix.h:38-42.  oc::Matrix::resize (external) is taken to
   keep the flat prefix and to zero what is new. *)
Definition bm_resize (n bits : nat) (m : bmat) : bmat :=
  let c := div_ceil bits 8 in
  let flat := concat (bRows m) ++ repeat 0%N (n * c) in
  BM bits c (map (fun i => slice flat (i * c) c) (seq 0 n)).

(* memcmp(..) == 0, equality of byte strings *)
Fixpoint bytes_eq (a b : list N) : bool :=
  match a, b with
  | [], [] => true
  | x :: a, y :: b => (x =? y)%N && bytes_eq a b
  | _, _ => false
  end.

(* memcmp(a, b, k) == 0: reading past an end is undefined *)
Definition memcmp_eq (k : nat) (a b : list N) : outcome bool :=
  if (k <=? length a) && (k <=? length b) then Ok (bytes_eq (firstn k a) (firstn k b)) else UB.

(* (1 << mod8) - 1 *)
Definition mask8 (m : nat) : N := (2 ^ N.of_nat m - 1)%N.

(* the body of the row loop of areEqualImpl, Trim.cpp:39-51: true when the row gives no reason to
   return false *)
Definition row_equal (div8 mod8 : nat) (a b : list N) : outcome bool :=
  do e <- (if 0 <? div8 then memcmp_eq div8 a b else Ok true);
  if negb e then Ok false else
  if 0 <? mod8 then
    do x <- get a div8; do y <- get b div8;
    Ok (N.land (mask8 mod8) (N.lxor x y) =? 0)%N
  else Ok true.

(* the row loop, Trim.cpp:36-53 *)
Fixpoint rows_equal (div8 mod8 : nat) (a b : list (list N)) : outcome bool :=
  match a, b with
  | x :: a, y :: b => do e <- row_equal div8 mod8 x y; if e then rows_equal div8 mod8 a b else Ok false
  | _, _ => Ok true
  end.

(* areEqualImpl of two matrices, Trim.cpp:7-62; ac, bc: the columns *)
Definition are_equal (ac : nat) (a : list (list N)) (bc : nat) (b : list (list N)) (bits : nat)
  : outcome bool :=
  let mod8 := bits mod 8 in
  let div8 := bits / 8 in
  do _ <- throw_if (negb (length a =? length b));
  do _ <- throw_if (ac * 8 <? bits);
  do _ <- throw_if (bc * 8 <? bits);
  if (0 <? mod8) || negb (ac =? div8) || negb (bc =? div8) then
    do _ <- throw_if (ac <? div8);
    do _ <- throw_if (bc <? div8);
    do _ <- throw_if (ac <? (bits + 7) / 8);
    rows_equal div8 mod8 a b
  else
    do _ <- throw_if (ac <? div8);
    memcmp_eq (length (concat a)) (concat a) (concat b).

(* areEqualImpl of two spans, Trim.cpp:65-100 *)
Definition are_equal_span (a b : list N) (bits : nat) : outcome bool :=
  let mod8 := bits mod 8 in
  let div8 := bits / 8 in
  do _ <- throw_if (length a * 8 <? bits);
  do _ <- throw_if (length b * 8 <? bits);
  if 0 <? mod8 then row_equal div8 mod8 a b else memcmp_eq div8 a b.

(* one row of trimImpl, Trim.cpp:117-121 *)
Definition trim_row (div8 : nat) (mask : N) (r : list N) : outcome (list N) :=
  do x <- get r div8;
  do r <- set r div8 (N.land x mask);
  forN (div8 + 1) (length r - (div8 + 1)) (fun i r => set r i 0%N) r.

(* trimImpl, Trim.cpp:103-123; c: the stride *)
Definition trim (c : nat) (a : list (list N)) (bits : nat) : outcome (list (list N)) :=
  do _ <- throw_if (c * 8 <? bits);
  if bits =? c * 8 then Ok a else
  let mod8 := bits mod 8 in
  mapM (trim_row (bits / 8) (if 0 <? mod8 then mask8 mod8 else 0%N)) a.

(* BinMatrix::trim, Util/Matrix.h:143-146 *)
Definition bm_trim (m : bmat) : outcome bmat :=
  do r <- trim (bCols m) (bRows m) (bBits m); Ok (BM (bBits m) (bCols m) r).

(* BinMatrix::operator==, Util/Matrix.h:120-137 *)
Definition bm_eq (a b : bmat) : outcome bool :=
  if negb (bm_n a =? bm_n b) then Ok false else
  if negb (bBits a =? bBits b) then Ok false else
  if (bm_n a * bCols a =? bm_n b * bCols b) && (bBits a =? bCols a * 8)
  then memcmp_eq (length (concat (bRows a))) (concat (bRows a)) (concat (bRows b))
  else are_equal (bCols a) (bRows a) (bCols b) (bRows b) (bBits a).

(* BinMatrix::reshape, Util/Matrix.h:45-50 *)
Definition bm_reshape (bits : nat) (m : bmat) : outcome bmat :=
  do _ <- throw_if (bCols m * 8 <? bits); Ok (BM bits (bCols m) (bRows m)).

(* ---------------- sharing ---------------- *)

(* xor of two matrices, as in Util.h:63-105 *)
Definition xor_rows (a b : list (list N)) : list (list N) := map2 (map2 N.lxor) a b.

(* row.back() &= mask, Util.h:79-80, 100-101; back() of an empty span is undefined *)
Definition mask_back (m : N) (r : list N) : outcome (list N) :=
  do x <- get r (length r - 1); set r (length r - 1) (N.land x m).

(* share(BinMatrix), Util.h:86-104; [rnd] is what prng writes into x0.  When x has more columns
   than its bit count needs the loop 92-93 runs out of x0. *)
Definition share_bm (x : bmat) (rnd : list (list N)) : outcome (bmat * bmat) :=
  let bits := bBits x in
  let c := div_ceil bits 8 in
  if negb ((bCols x =? c) || (bm_n x =? 0)) then UB else
  let x1 := xor_rows (bRows x) rnd in
  if 0 <? bits mod 8 then
    do r0 <- mapM (mask_back (mask8 (bits mod 8))) rnd;
    do r1 <- mapM (mask_back (mask8 (bits mod 8))) x1;
    Ok (BM bits c r0, BM bits c r1)
  else Ok (BM bits c rnd, BM bits c x1).

(* share(Matrix<u8>, bitCount), Util.h:63-83; c: the columns of x *)
Definition share_mat (c : nat) (x : list (list N)) (bits : nat) (rnd : list (list N))
  : outcome (list (list N) * list (list N)) :=
  do _ <- throw_if (negb (c =? div_ceil bits 8));
  let x1 := xor_rows x rnd in
  if 0 <? bits mod 8 then
    do r0 <- mapM (mask_back (mask8 (bits mod 8))) rnd;
    do r1 <- mapM (mask_back (mask8 (bits mod 8))) x1;
    Ok (r0, r1)
  else Ok (rnd, x1).

(* reveal(BinMatrix), Util.h:188-205 *)
Definition reveal_bm (a b : bmat) : outcome bmat :=
  do _ <- throw_if (negb (bm_n a =? bm_n b));
  do _ <- throw_if (negb (bBits a =? bBits b));
  let c := div_ceil (bBits a) 8 in
  if negb ((bCols a =? c) && (bCols b =? c) || (bm_n a =? 0)) then UB else
  Ok (BM (bBits a) c (xor_rows (bRows a) (bRows b))).

(* reveal(MatrixView<u8>), Util.h:207-224; the stride of both is compared *)
Definition reveal_mat (ca : nat) (a : list (list N)) (cb : nat) (b : list (list N))
  : outcome (list (list N)) :=
  do _ <- throw_if (negb (length a =? length b));
  do _ <- throw_if (negb (ca =? cb));
  Ok (xor_rows a b).

(* share(Matrix<u32>) and share(span<u32>), Util.h:44-61, 152-167: additive modulo 2^32 *)
Definition share_u32 (x rnd : list N) : list N * list N :=
  (rnd, map2 (fun a r => ((a + 2 ^ 32 - r) mod 2 ^ 32)%N) x rnd).
(* reveal(Matrix<u32>), Util.h:118-124 *)
Definition reveal_u32 (a b : list N) : list N := map2 (fun x y => ((x + y) mod 2 ^ 32)%N) a b.
(* xorShare, Util.h:26-42, 169-185 *)
Definition xor_share (x rnd : list N) : list N * list N := (rnd, map2 N.lxor x rnd).
(* reveal(vector<u8>), Util.h:126-133: a sum, not an xor; different sizes fail the assert *)
Definition reveal_u8 (a b : list N) : outcome (list N) :=
  if length a =? length b then Ok (map2 (fun x y => ((x + y) mod 256)%N) a b) else UB.

(* ---------------- tables ---------------- *)

(* Column, Table.h:60-133: mName, mType (0 Int, 1 Boolean, 2 String, 3 Bin), mBitCount, mData *)
Record column := Col { cName : list N; cType : nat; cBits : nat; cDat : bmat }.
(* Table, Table.h:155-159: mIsActive, mColumns *)
Record table := Tab { tAct : list N; tCols : list column }.
(* ColumnInfo, Table.h:75-77 *)
Record cinfo := Info { iName : list N; iType : nat; iBits : nat }.

(* Table::rows, Table.h:213 *)
Definition t_rows (t : table) : nat := match tCols t with [] => 0 | c :: _ => bm_n (cDat c) end.

(* the ColumnInfo constructor, Table.h:63-70 *)
Definition mk_info (name : list N) (type bits : nat) : outcome cinfo :=
  do _ <- throw_if ((type =? 2) && (0 <? bits mod 8)); Ok (Info name type bits).
(* Column::getColumnInfo, Table.h:116-119 *)
Definition col_info (c : column) : outcome cinfo := mk_info (cName c) (cType c) (cBits c).
(* Table::getColumnInfo, Table.h:195-203 *)
Definition t_info (t : table) : outcome (list cinfo) := mapM col_info (tCols t).

(* ColumnInfo::operator==, Table.h:80-83 *)
Definition info_eq (a b : cinfo) : bool :=
  bytes_eq (iName a) (iName b) && (iType a =? iType b) && (iBits a =? iBits b).
(* comparison of two getColumnInfo vectors, Table.h:80-83 per element *)
Fixpoint infos_eq (a b : list cinfo) : bool :=
  match a, b with
  | [], [] => true
  | x :: a, y :: b => info_eq x y && infos_eq a b
  | _, _ => false
  end.

(* Table::init, Table.h:174-192; [seen]: the set of names *)
Fixpoint init_cols (n : nat) (seen : list (list N)) (l : list cinfo) : outcome (list column) :=
  match l with
  | [] => Ok []
  | i :: l =>
    do _ <- throw_if (existsb (bytes_eq (iName i)) seen);
    do c <- mk_info (iName i) (iType i) (iBits i);
    do r <- init_cols n (iName i :: seen) l;
    Ok (Col (iName i) (iType i) (iBits i) (bm_zero n (iBits i)) :: r)
  end.
(* Table::init, Table.h:174-192 *)
Definition t_init (n : nat) (l : list cinfo) : outcome (list column) := init_cols n [] l.

(* Column::operator==, Table.h:125-132: the type is not compared here *)
Definition col_eq (a b : column) : outcome bool :=
  if negb (cBits a =? cBits b) then Ok false else
  if negb (bytes_eq (cName a) (cName b)) then Ok false else bm_eq (cDat a) (cDat b).
(* comparison of two column vectors, Table.h:125-132 per element *)
Fixpoint cols_eq (a b : list column) : outcome bool :=
  match a, b with
  | x :: a, y :: b => do e <- col_eq x y; if e then cols_eq a b else Ok false
  | _, _ => Ok true
  end.
(* Table::operator==, Table.h:243-257: mIsActive is not compared *)
Definition t_eq (a b : table) : outcome bool :=
  do ia <- t_info a; do ib <- t_info b;
  if negb (infos_eq ia ib) then Ok false else
  if negb (t_rows a =? t_rows b) then Ok false else cols_eq (tCols a) (tCols b).

(* Table::share, Table.cpp:260-287; [rnds]: the random matrix of each column, [ra]: random flags *)
Definition t_share (t : table) (rnds : list (list (list N))) (ra : list N) : outcome (table * table) :=
  do l <- mapM (fun cr => do s <- share_bm (cDat (fst cr)) (snd cr);
                          let mk d := Col (cName (fst cr)) (cType (fst cr)) (cBits (fst cr)) d in
                          Ok (mk (fst s), mk (snd s))) (combine (tCols t) rnds);
  Ok (Tab ra (map fst l), Tab (map2 N.lxor ra (tAct t)) (map snd l)).

(* Table::extractActive, Table.cpp:290-318.  State: curPtr, the columns *)
Definition copy_row_col (cur i : nat) (c : column) : outcome column :=
  do r <- get (bRows (cDat c)) i;
  do l <- set (bRows (cDat c)) cur r;
  Ok (Col (cName c) (cType c) (cBits c) (BM (bBits (cDat c)) (bCols (cDat c)) l)).
(* the final resize, Table.cpp:310-318 *)
Definition shrink_col (n : nat) (c : column) : column :=
  Col (cName c) (cType c) (cBits c) (bm_resize n (bBits (cDat c)) (cDat c)).
(* Table::extractActive, Table.cpp:290-318 *)
Definition extract_active (t : table) : outcome table :=
  if length (tAct t) =? 0 then Ok t else
  do s <- forN 0 (t_rows t) (fun i s =>
    do f <- get (tAct t) i;
    if (f =? 1)%N then
      do l <- (if negb (fst s =? i) then mapM (copy_row_col (fst s) i) (snd s) else Ok (snd s));
      Ok (S (fst s), l)
    else Ok s) (0, tCols t);
  Ok (Tab [] (map (shrink_col (fst s)) (snd s))).

(* mData(i, l) for l < c of both shares xored, Util.h:279-282 *)
Definition xor_row (c : nat) (a b : list N) : outcome (list N) :=
  if (c <=? length a) && (c <=? length b) then Ok (map2 N.lxor (firstn c a) (firstn c b)) else UB.
(* the loop Util.h:273-284 for one column (the columns do not interfere); rc: the new column *)
Definition reveal_col (n : nat) (a b rc : column) : outcome column :=
  do r <- forN 0 n (fun i l =>
    do x <- get (bRows (cDat a)) i; do y <- get (bRows (cDat b)) i;
    do v <- xor_row (bCols (cDat rc)) x y;
    set l i v) (bRows (cDat rc));
  Ok (Col (cName rc) (cType rc) (cBits rc) (BM (bBits (cDat rc)) (bCols (cDat rc)) r)).
(* reveal(Table, Table, removeNulls), Util.h:251-290 *)
Definition t_reveal (t0 t1 : table) (removeNulls : bool) : outcome table :=
  do i0 <- t_info t0; do i1 <- t_info t1;
  do _ <- throw_if (negb (infos_eq i0 i1) || negb (t_rows t0 =? t_rows t1));
  let n := t_rows t0 in
  let flags := negb (length (tAct t0) =? 0) in
  do size <- (if flags && removeNulls then
      forN 0 n (fun i size =>
        do x <- get (tAct t0) i; do y <- get (tAct t1) i;
        if (N.lxor x y <? 2)%N then Ok (size + N.to_nat (N.lxor x y)) else UB) n
    else Ok n);
  do rc <- t_init size i0;
  do act <- forN 0 n (fun i act =>
      do f <- (if flags then do x <- get (tAct t0) i; do y <- get (tAct t1) i; Ok (N.lxor x y) else Ok 1%N);
      set act i f) (repeat 0%N size);
  do cols <- mapM (fun q => reveal_col n (fst (fst q)) (snd (fst q)) (snd q))
                  (combine (combine (tCols t0) (tCols t1)) rc);
  let ret := Tab act cols in
  if removeNulls then extract_active ret else Ok ret.

(* Table::permute, Table.cpp:238-258.  C01 is the reason why Perm::apply on a matrix is the
   application to the list of its rows; temp has the columns its bit count needs. *)
Definition permute_col (p : list nat) (op : PermOp) (c : column) : outcome column :=
  let d := cDat c in
  do _ <- throw_if (negb (bCols d =? div_ceil (bBits d) 8));
  do l <- match op with Regular => perm_apply_vec [] p (bRows d) | Inverse => perm_applyInv_vec [] p (bRows d) end;
  Ok (Col (cName c) (cType c) (cBits c) (BM (bBits d) (bCols d) l)).
(* Table::permute, Table.cpp:238-258 *)
Definition t_permute (p : list nat) (op : PermOp) (t : table) : outcome table :=
  do l <- mapM (permute_col p op) (tCols t);
  do a <- (if 0 <? length (tAct t)
           then match op with Regular => perm_apply_vec 0%N p (tAct t) | Inverse => perm_applyInv_vec 0%N p (tAct t) end
           else Ok (tAct t));
  Ok (Tab a l).

(* ColRef::sort, Table.cpp:10-13 *)
Definition col_sort (c : column) : list nat :=
  sort_rows (bm_n (cDat c)) (bCols (cDat c)) (concat (bRows (cDat c))).
(* Table::sort, Table.cpp:384-391 *)
Definition t_sort (t : table) : outcome table :=
  forN 0 (length (tCols t)) (fun i t =>
    do c <- get (tCols t) (length (tCols t) - 1 - i);
    t_permute (col_sort c) Regular t) t.
