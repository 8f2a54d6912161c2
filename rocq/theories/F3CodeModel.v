(* Model of F3AccPermCode, secure-join/Prf/F3LinearCode.h:12-183.  mPerms is a list of
   index lists.  Matrices are lists of rows. *)
From Verif Require Import Base Words Mod3Model.

(* an element of a matrix, F3LinearCode.h:12-183 *)
Definition get2 {A} (M : list (list A)) (r c : nat) : outcome A := do row <- get M r; get row c.
(* an element of a matrix, F3LinearCode.h:12-183 *)
Definition set2 {A} (M : list (list A)) (r c : nat) (x : A) : outcome (list (list A)) :=
  do row <- get M r; do row' <- set row c x; set M r row'.

(* mPerms.back(); mPerms.size()-1 wraps for an empty list and the loops then read
   mPerms[0] out of bounds *)
Definition perms_back (perms : list (list nat)) : outcome (list nat) :=
  match perms with [] => UB | _ => get perms (length perms - 1) end.

(* in[pi] = (in[pi] + in[pi1]) % 3, F3LinearCode.h:55 and 66; T is at least u8 and the sum
   is computed in int, so it does not wrap for trits *)
Definition f3_acc (pi pi1 : nat) (x : list nat) : outcome (list nat) :=
  do a <- get x pi; do b <- get x pi1; set x pi ((a + b) mod 3).

(* encode(span<T> in, span<T> out), F3LinearCode.h:46-72.  Returns (in, out); [outLen] is
   out.size() and the content of out on entry is not read. *)
Definition f3_encode (k n : nat) (perms : list (list nat)) (x : list nat) (outLen : nat)
  : outcome (list nat * list nat) :=
  do _ <- throw_if (negb (length x =? k));
  do _ <- throw_if (negb (outLen =? n));
  do x <- forN 1 (k - 1) (fun i x => f3_acc i (i - 1) x) x;
  do last <- perms_back perms;
  do x <- forN 0 (length perms - 1) (fun j x =>
    do P <- get perms j;
    forN 1 (k - 1) (fun i x =>
      do pi <- get P i; do pi1 <- get P (i - 1);
      f3_acc pi pi1 x) x) x;
  do out <- forN 0 n (fun i out =>
    do p <- get last i; do v <- get x p; set out i v) (repeat 0 outLen);
  Ok (x, out).

(* mod3Add(msb[pi].subspan(begin,s), lsb[pi]..., msb[pi1]..., lsb[pi1]...),
   F3LinearCode.h:107-111 and 121-126 *)
Definition f3_acc_span (begin s pi pi1 : nat) (st : list (list N) * list (list N))
  : outcome (list (list N) * list (list N)) :=
  let (msb, lsb) := st in
  do zm <- get msb pi; do zl <- get lsb pi; do ym <- get msb pi1; do yl <- get lsb pi1;
  do zms <- readN zm begin s; do zls <- readN zl begin s;
  do yms <- readN ym begin s; do yls <- readN yl begin s;
  do r <- mod3AddIn_span zms zls yms yls;
  do zm' <- writeN zm begin (fst r); do zl' <- writeN zl begin (snd r);
  do msb' <- set msb pi zm'; do lsb' <- set lsb pi zl';
  Ok (msb', lsb').

(* copyBytes(out[i].subspan(begin,s), in[pi].subspan(begin,s)), F3LinearCode.h:133-140 *)
Definition f3_copy (begin s i pi : nat) (out inp : list (list N)) : outcome (list (list N)) :=
  do src <- get inp pi; do seg <- readN src begin s;
  do dst <- get out i; do dst' <- writeN dst begin seg;
  set out i dst'.

(* encode(msb, lsb, outMsb, outLsb, batchSize), F3LinearCode.h:75-143.  All four matrices
   have [len] columns (checked by the code; here rows are lists and the column counts
   lenM.. are passed along).  Returns (msb, lsb, outMsb, outLsb). *)
Definition f3_encode_span (k n : nat) (perms : list (list nat)) (batch : nat)
  (len lenM lenOL lenOM : nat) (msb lsb outMsb outLsb : list (list N))
  : outcome ((list (list N) * list (list N)) * (list (list N) * list (list N))) :=
  do _ <- throw_if (negb (length lsb =? k));
  do _ <- throw_if (negb (length msb =? k));
  do _ <- throw_if (negb (length outLsb =? n));
  do _ <- throw_if (negb (length outMsb =? n));
  do _ <- throw_if (negb (lenM =? len));
  do _ <- throw_if (negb (lenOL =? len));
  do _ <- throw_if (negb (lenOM =? len));
  if batch =? 0 then UB else
  let bb := (len + batch - 1) / batch in
  forN 0 bb (fun b (st : (list (list N) * list (list N)) * (list (list N) * list (list N))) =>
    let begin := b * batch in
    let s := Nat.min batch (len - begin) in
    let (io, out) := st in
    do io <- forN 1 (k - 1) (fun i io => f3_acc_span begin s i (i - 1) io) io;
    do last <- perms_back perms;
    do io <- forN 0 (length perms - 1) (fun j io =>
      do P <- get perms j;
      forN 1 (k - 1) (fun i io =>
        do pi <- get P i; do pi1 <- get P (i - 1);
        f3_acc_span begin s pi pi1 io) io) io;
    do out <- forN 0 n (fun i (out : list (list N) * list (list N)) =>
      do pi <- get last i;
      do ol <- f3_copy begin s i pi (snd out) (snd io);
      do om <- f3_copy begin s i pi (fst out) (fst io);
      Ok (om, ol)) out;
    Ok (io, out)) ((msb, lsb), (outMsb, outLsb)).

(* the lambda addRow, F3LinearCode.h:151-157 *)
Definition f3_addRow (k d s : nat) (M : list (list nat)) : outcome (list (list nat)) :=
  forN 0 k (fun i M =>
    do a <- get2 M d i; do b <- get2 M s i; set2 M d i ((a + b) mod 3)) M.

(* getMatrix, F3LinearCode.h:145-182; oc::Matrix is zero-initialised *)
Definition f3_getMatrix (k n : nat) (perms : list (list nat)) : outcome (list (list nat)) :=
  do M <- forN 0 k (fun i M => set2 M i i 1) (repeat (repeat 0 k) k);
  do M <- forN 1 (k - 1) (fun i M => f3_addRow k i (i - 1) M) M;
  do last <- perms_back perms;
  do M <- forN 0 (length perms - 1) (fun j M =>
    do P <- get perms j;
    forN 1 (k - 1) (fun i M =>
      do pi <- get P i; do pi1 <- get P (i - 1);
      f3_addRow k pi pi1 M) M) M;
  forN 0 n (fun i R =>
    forN 0 k (fun j R =>
      do p <- get last i; do v <- get2 M p j; set2 R i j v) R) (repeat (repeat 0 k) n).

(* init, F3LinearCode.h:29-44: the checks and the number of permutations (the permutations
   themselves are sampled as in Permutation.cpp) *)
Definition f3_init (k n p : nat) : outcome nat :=
  do _ <- throw_if (k <=? n);
  Ok (if p =? 0 then Nat.max 7 (Nat.log2_up n) else p).
