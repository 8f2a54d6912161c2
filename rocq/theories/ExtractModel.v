(* Model of secure-join/TableOps/Extract.cpp.  The composed permutation is the model of
   Perm/ComposedPerm.cpp (PermCorModel.comp_apply) with the pair that mPermGen.generate left in
   mPermutation given; both parties run side by side. *)
From Verif Require Import Base Words PermModel PermCorModel KeyMultModel ShuffleModel TableModel OmJoinModel.

(* ColumnInfo::getByteCount, Join/Table.h:73 *)
Definition byte_count (c : column) : nat := div_ceil (cBits c) 8.
(* the bytes per entry asked for by init(rows, colInfos), Extract.cpp:16-26: the flag is not counted *)
Definition ex_asked (cols : list column) : nat := fold_right (fun c s => byte_count c + s) 0 cols.
(* the bytes per row the generator makes for them: whole blocks, AltModPerm.cpp:63 and :120 *)
Definition ex_capacity (bytesPerEntry : nat) : nat := 16 * ((bytesPerEntry + 15) / 16).

(* the columns of combined, Extract.cpp:58-65 *)
Definition ex_width (ins : list bmat) : nat := fold_right (fun m s => bCols m + s) 1 ins.
(* row by row the bytes of the matrices, Extract.cpp:68-76 *)
Fixpoint zip_rows (n : nat) (ins : list bmat) : list (list N) :=
  match ins with
  | [] => repeat [] n
  | m :: ins => map2 (@app N) (bRows m) (zip_rows n ins)
  end.
(* combine of the flags and the inputs, Extract.cpp:53-79 and 130-134 *)
Definition ex_combine (fl : list N) (ins : list bmat) : outcome (mat N) :=
  do _ <- throw_if (negb (forallb (fun m => bm_n m =? length fl) ins));
  Ok (Mat (length fl) (ex_width ins) (concat (map2 (fun f r => f :: r) fl (zip_rows (length fl) ins)))).

(* the rows of a matrix (used for the output of ComposedPerm::apply, Extract.cpp:137-143) *)
Definition mat_rows (m : mat N) : list (list N) := map (fun i => slice (dat m) (i * cols m) (cols m)) (seq 0 (rows m)).
(* the bits a party sends, Extract.cpp:140-142 *)
Definition ex_bits (d : list (list N)) : outcome (list bool) := mapM (fun r => do x <- get r 0; Ok (N.odd x)) d.
(* the rows with flag 1, Extract.cpp:171-174 *)
Definition ex_keep (fl : list bool) (d : list (list N)) : list (list N) := map snd (filter fst (combine fl d)).
(* the output matrices, Extract.cpp:167-182: widths from the inputs' bit counts; off: the position in the row *)
Fixpoint ex_split (off : nat) (ins : list bmat) (d : list (list N)) : outcome (list bmat) :=
  match ins with
  | [] => Ok []
  | m :: ins =>
    let w := div_ceil (bBits m) 8 in
    do r <- mapM (fun x => readN x off w) d;
    do l <- ex_split (off + w) ins d;
    Ok (BM (bBits m) w r :: l)
  end.

(* the throws before the protocol starts, Extract.cpp:118-124 *)
Definition ex_checks (mRows : nat) (fl : list N) (ins : list bmat) (outs : nat) : outcome unit :=
  do _ <- throw_if (negb (length fl =? mRows));
  do _ <- throw_if (negb (length ins =? outs));
  throw_if (negb (forallb (fun m => bm_n m =? mRows) ins)).

(* what a party has at the end: its output matrices and the flag bits it sent (Extract.cpp:111-183) *)
Definition ex_result := (list bmat * list bool)%type.

(* apply on matrices, Extract.cpp:111-183, both parties *)
Definition ex_apply (c0 c1 : comp) (mRows : nat) (fl0 fl1 : list N) (in0 in1 : list bmat) (outs0 outs1 : nat)
  : outcome (ex_result * ex_result) :=
  do _ <- ex_checks mRows fl0 in0 outs0;
  do _ <- ex_checks mRows fl1 in1 outs1;
  do x0 <- ex_combine fl0 in0;
  do x1 <- ex_combine fl1 in1;
  do r <- comp_apply c0 c1 Regular x0 x1 x0 x1;
  let d0 := mat_rows (fst (fst r)) in
  let d1 := mat_rows (fst (snd r)) in
  do f0 <- ex_bits d0;
  do f1 <- ex_bits d1;
  let fl := map2 xorb f0 f1 in
  do o0 <- ex_split 1 in0 (ex_keep fl d0);
  do o1 <- ex_split 1 in1 (ex_keep fl d1);
  Ok ((o0, f0), (o1, f1)).

(* the columns of the output table: those of the output when their number is right, those of the
   input otherwise, Extract.cpp:37-43 *)
Definition ex_cols (t out : table) : list column :=
  if length (tCols out) =? length (tCols t) then tCols out else tCols t.
(* one party's output table, Extract.cpp:41-48 *)
Definition ex_table (t out : table) (ms : list bmat) : table :=
  Tab [] (map2 (fun c m => Col (cName c) (cType c) (cBits c) m) (ex_cols t out) ms).
(* apply on tables, Extract.cpp:28-49; results: the tables and the bits sent *)
Definition ex_tables (c0 c1 : comp) (mRows : nat) (t0 t1 out0 out1 : table) : outcome ((table * list bool) * (table * list bool)) :=
  do _ <- throw_if (negb (length (tAct t0) =? mRows));
  do _ <- throw_if (negb (length (tAct t1) =? mRows));
  let ins t := map cDat (tCols t) in
  do r <- ex_apply c0 c1 mRows (tAct t0) (tAct t1) (ins t0) (ins t1) (length (tCols t0)) (length (tCols t1));
  Ok ((ex_table t0 out0 (fst (fst r)), snd (fst r)), (ex_table t1 out1 (fst (snd r)), snd (snd r))).

(* what the parties send each other while the permutation is applied, ComposedPerm.cpp:31-41 for
   PermOp::Regular: first party 1 to party 0, then party 0 to party 1 *)
Definition ex_msgs (c0 c1 : comp) (t0 t1 : table) : outcome (list N * list N) :=
  do x0 <- ex_combine (tAct t0) (map cDat (tCols t0));
  do x1 <- ex_combine (tAct t1) (map cDat (tCols t1));
  do r <- cor_recv_apply (cpR c1) Regular x1 (zmat (rows x1) (cols x1));
  do s <- cor_send_apply_in (cpS c0) Regular x0 (zmat (rows x0) (cols x0)) (fst r);
  do r2 <- cor_recv_apply (cpR c0) Regular (fst s) (zmat (rows x0) (cols x0));
  Ok (fst r, fst r2).
(* what party 0 receives in the protocol: the message and the flag bits of party 1; and party 1 *)
Definition ex_view0 (c0 c1 : comp) (n : nat) (t0 t1 : table) : outcome (list N * list bool) :=
  do m <- ex_msgs c0 c1 t0 t1; do r <- ex_tables c0 c1 n t0 t1 t0 t1; Ok (fst m, snd (snd r)).
(* the messages party 1 sees, Extract.cpp:111-183 and ComposedPerm.cpp:31-41 *)
Definition ex_view1 (c0 c1 : comp) (n : nat) (t0 t1 : table) : outcome (list N * list bool) :=
  do m <- ex_msgs c0 c1 t0 t1; do r <- ex_tables c0 c1 n t0 t1 t0 t1; Ok (snd m, snd (fst r)).
