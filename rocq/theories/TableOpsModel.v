(* Model of the plaintext table operations join, average and where (Join/Table.cpp).
   A ColRef is a column together with the identity of its table. *)
From Verif Require Import Base Words PermModel KeyMultModel ShuffleModel RadixModel TableModel.

(* eq, Table.cpp:503-510; the assert on the sizes *)
Definition eq_bytes (l r : list N) : outcome bool :=
  if length l =? length r then Ok (bytes_eq l r) else UB.

(* ---------------- join ---------------- *)

(* the while loop, Table.cpp:758-769; r: the right row.  [fuel] bounds the passes, one more than the
   rows of l always suffices. *)
Fixpoint join_skip (fuel : nat) (lrows : list (list N)) (lp : list nat) (r : list N) (lIdx : nat) : outcome nat :=
  match fuel with
  | 0 => Hang
  | S fuel =>
    if lIdx <? length lrows then
      do p <- get lp lIdx; do x <- get lrows p;
      if less_than x r then
        do _ <- (if lIdx =? 0 then Ok tt else
                 do q <- get lp (lIdx - 1); do y <- get lrows q;
                 do e <- eq_bytes y x; throw_if e);
        join_skip fuel lrows lp r (S lIdx)
      else Ok lIdx
    else Ok lIdx
  end.
(* one pass of the loop over the right rows, Table.cpp:756-778; the state is lIdx and I *)
Definition join_step (lrows rrows : list (list N)) (lp rp : list nat) (i : nat) (st : nat * list (nat * nat * nat)) :
  outcome (nat * list (nat * nat * nat)) :=
  do rpi <- get rp i; do r <- get rrows rpi;
  do lIdx <- join_skip (S (length lrows)) lrows lp r (fst st);
  if lIdx <? length lrows then
    do p <- get lp lIdx; do x <- get lrows p;
    do e <- eq_bytes x r;
    Ok (lIdx, if e then snd st ++ [(p, rpi, i)] else snd st)
  else Ok (lIdx, snd st).

(* copying the selected columns of one match, Table.cpp:795-805; the assert of copyBytes on the sizes *)
Definition join_copy (rt : nat) (m : nat * nat * nat) (s : nat * column) (dst : column) : outcome column :=
  let '(li, ri, d) := m in
  let src := if fst s =? rt then ri else li in
  do x <- get (bRows (cDat (snd s))) src;
  do y <- get (bRows (cDat dst)) d;
  if length x =? length y then
    do rows <- set (bRows (cDat dst)) d x;
    Ok (Col (cName dst) (cType dst) (cBits dst) (BM (bBits (cDat dst)) (bCols (cDat dst)) rows))
  else UB.
(* join, Table.cpp:742-812; lt and rt identify the tables of l and r, the select list carries the
   identity of each column's table *)
Definition t_join (lt : nat) (l : column) (rt : nat) (r : column) (select : list (nat * column)) : outcome table :=
  do _ <- throw_if (negb (cBits l =? cBits r));
  let lp := col_sort l in
  let rp := col_sort r in
  let n := bm_n (cDat r) in
  do st <- forN 0 n (join_step (bRows (cDat l)) (bRows (cDat r)) lp rp) (0, []);
  do info <- mapM (fun s => do _ <- throw_if (negb (fst s =? lt) && negb (fst s =? rt)); col_info (snd s)) select;
  do ret <- t_init n info;
  do res <- forN 0 (length (snd st)) (fun i ca =>
      do m <- get (snd st) i;
      do cs <- mapM (fun sd => join_copy rt m (fst sd) (snd sd)) (combine select (fst ca));
      do act <- set (snd ca) (snd m) 1%N;
      Ok (cs, act)) (ret, repeat 0%N n);
  Ok (Tab (snd res) (fst res)).

(* ---------------- average ---------------- *)

(* permuting the data of a column through temp, Table.cpp:618-621, 630-633, 713-716 *)
Definition avg_permute (p : list nat) (op : PermOp) (c : column) : outcome column :=
  let d := cDat c in
  do l <- match op with Regular => perm_apply_vec [] p (bRows d) | Inverse => perm_applyInv_vec [] p (bRows d) end;
  Ok (Col (cName c) (cType c) (cBits c) (BM (bCols d * 8) (bCols d) l)).

(* cirEval, Table.cpp:589-603, for the adder of bytes * 8 bits: rem zero bits in front of the data.
   int_int_add (cryptoTools) is addition modulo 2^size. *)
Definition cir_eval (acc : N) (data : list N) (bits bytes : nat) : N :=
  let size := N.of_nat (bytes * 8) in
  let rem := N.of_nat (bytes * 8 - bits) in
  ((acc + N.shiftl (load data mod 2 ^ N.of_nat bits) rem) mod 2 ^ size)%N.

(* out during the loop: the flags and, per row, the key, the sums and the count (Table.cpp:655-706) *)
Record avg_out := AO { aoAct : list N; aoKey : list (list N); aoSum : list (list N); aoCnt : list N }.
(* copyTableEntry, Table.cpp:514-549 *)
Definition copy_entry (keys : list (list N)) (sums : list N) (cnt : N) (flags : list N) (row : nat) (o : avg_out) : outcome avg_out :=
  do f <- (if 0 <? length flags then get flags row else Ok 1%N);
  do act <- set (aoAct o) row f;
  if (f =? 0)%N then Ok (AO act (aoKey o) (aoSum o) (aoCnt o)) else
  do k <- get keys row;
  do ks <- set (aoKey o) row k;
  do ss <- set (aoSum o) row sums;
  do cs <- set (aoCnt o) row cnt;
  Ok (AO act ks ss cs).

(* the loop over the rows from the last to the first, Table.cpp:662-706; i counts the passes *)
Definition avg_step (n : nat) (keys : list (list N)) (avgs : list column) (flags : list N) (i : nat)
    (st : list N * N * avg_out) : outcome (list N * N * avg_out) :=
  let row := n - 1 - i in
  let '(sums, cnt, o) := st in
  do st <- (if row <? n - 1 then
      do a <- get keys row; do b <- get keys (row + 1); do e <- eq_bytes a b;
      if e then Ok (sums, cnt, o) else
      do o' <- copy_entry keys sums cnt flags (row + 1) o; Ok (map (fun _ => 0%N) avgs, 0%N, o')
    else Ok (sums, cnt, o));
  let '(sums, cnt, o) := st in
  do sums <- mapM (fun ca => do d <- get (bRows (cDat (fst ca))) row; Ok (cir_eval (snd ca) d (cBits (fst ca)) (div_ceil (cBits (fst ca)) 8)))
                  (combine avgs sums);
  let cnt := cir_eval cnt [1; 0; 0; 0; 0; 0; 0; 0]%N 64 8 in
  if row =? 0 then do o <- copy_entry keys sums cnt flags row o; Ok (sums, cnt, o) else Ok (sums, cnt, o).

(* "Count" (Table.cpp:581) *)
Definition count_name : list N := [67; 111; 117; 110; 116]%N.
(* a column of the output, populateOutTable, Table.cpp:552-586: the width is rounded up to bytes *)
Definition avg_col (name : list N) (type bits : nat) (rows : list (list N)) : column :=
  let b := div_ceil bits 8 * 8 in Col name type b (BM b (div_ceil b 8) rows).
(* the columns avgCol of the source are permuted in place, one after the other (Table.cpp:626-632) *)
Definition permute_at (p : list nat) (t : table) (i : nat) : outcome table :=
  do c <- get (tCols t) i;
  do c' <- avg_permute p Regular c;
  do l <- set (tCols t) i c';
  Ok (Tab (tAct t) l).
(* the loop over avgCol, Table.cpp:626-632 *)
Fixpoint permute_all (p : list nat) (l : list nat) (t : table) : outcome table :=
  match l with [] => Ok t | i :: l => do t <- permute_at p t i; permute_all p l t end.
(* Table::average, Table.cpp:606-736.  src is the table of the columns, g the group by column and
   avg the summed ones.  Result: the new value of *this, and src as it is left behind. *)
Definition t_average (src : table) (g : nat) (avg : list nat) : outcome (table * table) :=
  do gc0 <- get (tCols src) g;
  let n := bm_n (cDat gc0) in
  let p := col_sort gc0 in
  do src1 <- permute_at p src g;
  do flags <- (if 0 <? length (tAct src) then perm_apply_vec 0%N p (tAct src) else Ok []);
  do src2 <- permute_all p avg src1;
  do gc <- get (tCols src2) g;
  do avgs <- mapM (get (tCols src2)) avg;
  let keys := bRows (cDat gc) in
  let zero := AO (repeat 0%N n) (repeat (repeat 0%N (div_ceil (cBits gc) 8)) n) (repeat (map (fun _ => 0%N) avgs) n) (repeat 0%N n) in
  do st <- forN 0 n (avg_step n keys avgs flags) (map (fun _ => 0%N) avgs, 0%N, zero);
  let o := snd st in
  let cols := avg_col (cName gc) (cType gc) (cBits gc) (aoKey o)
    :: map (fun ja => let c := snd ja in avg_col (cName c) (cType c) (cBits c)
              (map (fun s => store (div_ceil (cBits c) 8) (nth (fst ja) s 0%N)) (aoSum o))) (combine (seq 0 (length avgs)) avgs)
    ++ [avg_col count_name 0 64 (map (store 8) (aoCnt o))] in
  do cols <- mapM (avg_permute p Inverse) cols;
  do act <- perm_applyInv_vec 0%N p (aoAct o);
  Ok (Tab act cols, src2).

(* ---------------- where ---------------- *)

(* Table::where, Table.cpp:357-382.  ins and outs: the widths of the clause's inputs and its number of
   outputs; makeWhereClause (Where.cpp:8-37) appends the flag as the last input.  The loop over the
   inputs always ends before the rows are reached (C18_never), so they are left out. *)
Definition t_where (t : table) (cols : list nat) (ins : list nat) (outs : nat) : outcome table :=
  do _ <- throw_if (negb (outs =? 1));
  let cin := ins ++ [1] in
  do inputs <- forN 0 (1 + length cols) (fun i inputs =>
      do w <- get cin i;
      do inputs <- set inputs (1 + i) w;
      do c <- get (tCols t) i;
      do _ <- throw_if (negb (w =? cBits c));
      Ok inputs) (repeat 0 (1 + length cols));
  Ok t.
