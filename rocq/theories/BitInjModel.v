(* Model of secure-join/Sort/BitInjection.cpp.  u32 values are N below 2^32.  An OT message is
   the first u32 of its block (get<u32>(0)); nothing else of it is used. *)
From Verif Require Import Base Words GmwModel ShuffleModel KeyMultModel.

(* u32 arithmetic: the value of z modulo 2^32 *)
Definition w32 (z : Z) : N := Z.to_N (z mod 2 ^ 32).
(* u32 arithmetic as in BitInjection.cpp:97-170 *)
Definition add32 (a b : N) : N := w32 (Z.of_N a + Z.of_N b).
(* u32 arithmetic as in BitInjection.cpp:97-170 *)
Definition sub32 (a b : N) : N := w32 (Z.of_N a - Z.of_N b).
(* u32 arithmetic as in BitInjection.cpp:97-170 *)
Definition mul32 (a b : N) : N := w32 (Z.of_N a * Z.of_N b).

(* a segment of a random OT request: OtRecv (mChoice, mMsg) and OtSend (pairs of messages),
   CorGenerator/Correlations.h (OtRecv and OtSend, Correlations.h:64-110) *)
Record ot_recv := OtR { oChoice : list bool; oMsg : list N }.
(* OtSend, CorGenerator/Correlations.h:91-110 *)
Definition ot_send := list (N * N).

(* *BitIterator(&in(row, 0), off) of a matrix with c byte columns *)
Definition mat_bit (c : nat) (d : list N) (row off : nat) : outcome bool :=
  do b <- get d (row * c + off / 8); Ok (N.testbit b (N.of_nat (off mod 8))).

(* the mask, BitInjection.cpp:97.  (1 << 31) - 1 overflows an int, larger shifts are undefined *)
Definition bi_mask (w : nat) : outcome N :=
  if w =? 32 then Ok (N.ones 32) else if w <? 31 then Ok (N.ones (N.of_nat w)) else UB.

(* pack, BitInjection.cpp:23-43: the low divCeil(w,8) bytes of every value *)
Definition bi_pack (w : nat) (l : list N) : list N :=
  concat (map (store (if w =? 32 then 4 else div_ceil w 8)) l).

(* unpack, BitInjection.cpp:7-22: a u32 is read at every n-th byte.  m is the size of out *)
Definition bi_unpack (w : nat) (m : nat) (buf : list N) : outcome (list N) :=
  let n := if w =? 32 then 4 else div_ceil w 8 in
  do _ <- throw_if (negb (m * n =? length buf));
  mapM (fun j => do x <- readN buf (j * n) 4; Ok (load x)) (seq 0 m).

(* the loop collecting the next m input bits, BitInjection.cpp:118-131 *)
Fixpoint bi_bits (fuel nb c : nat) (d : list N) (i j m : nat) (acc : list bool) : outcome (list bool) :=
  if m <=? j then Ok acc else
  match fuel with
  | 0 => Hang
  | S fuel =>
    if nb =? 0 then UB else
    let row := i / nb in
    let off := i mod nb in
    let rem := Nat.min (m - j) (nb - off) in
    do bits <- mapM (fun t => mat_bit c d row (off + t)) (seq 0 rem);
    bi_bits fuel nb c d (i + rem) (j + rem) m (acc ++ bits)
  end.

(* receiver, first loop, BitInjection.cpp:107-136: per segment the message diff, the corrected
   choice bits and the OT messages.  An exhausted request throws; an empty segment makes no
   progress. *)
Fixpoint bi_recv1 (total nb c : nat) (d : list N) (segs : list ot_recv) (i : nat)
  : outcome (list (list bool * ot_recv)) :=
  if total <=? i then Ok [] else
  match segs with
  | [] => Throw
  | s :: segs =>
    let m := Nat.min (length (oMsg s)) (total - i) in
    if m =? 0 then Hang else
    do bits <- bi_bits m nb c d i 0 m [];
    let choice := firstn m (oChoice s) in
    let diff := map2 xorb bits choice in
    let choice := map2 xorb choice diff in
    do r <- bi_recv1 total nb c d segs (i + m);
    Ok ((diff, OtR choice (oMsg s)) :: r)
  end.

(* receiver, second loop, BitInjection.cpp:138-160; a message of another size is a coproto
   error *)
Fixpoint bi_recv2 (w : nat) (mask : N) (recvs : list ot_recv) (msgs : list (list N)) : outcome (list N) :=
  match recvs with
  | [] => Ok []
  | s :: recvs =>
    match msgs with
    | [] => Hang
    | buf :: msgs =>
      let m := length (oChoice s) in
      do _ <- throw_if (negb (length buf =? m * div_ceil w 8));
      do up <- bi_unpack w m buf;
      do out <- mapM (fun j =>
        do ch <- get (oChoice s) j;
        do x <- get (oMsg s) j;
        do u <- get up j;
        Ok (N.land (if ch then add32 x u else x) mask)) (seq 0 m);
      do r <- bi_recv2 w mask recvs msgs;
      Ok (out ++ r)
    end
  end.

(* sender, BitInjection.cpp:170-202; result: the own output and the messages *)
Fixpoint bi_send (total nb c : nat) (d : list N) (w : nat) (mask : N) (segs : list ot_send)
    (diffs : list (list bool)) (i : nat) : outcome (list N * list (list N)) :=
  if total <=? i then Ok ([], []) else
  match segs, diffs with
  | [], _ => Throw
  | _, [] => Hang
  | s :: segs, diff :: diffs =>
    let m := Nat.min (length s) (total - i) in
    if m =? 0 then Hang else
    do _ <- throw_if (negb (length diff =? m));
    do ou <- mapM (fun j =>
      let row := (i + j) / nb in
      let off := (i + j) mod nb in
      do y <- mat_bit c d row off;
      do b <- get diff j;
      do p <- get s j;
      let m0 := if b then snd p else fst p in
      let m1 := if b then fst p else snd p in
      let v1 := add32 m0 (w32 (1 - 2 * Z.b2z y)) in
      Ok (N.land (w32 (Z.b2z y - Z.of_N m0)) mask, N.land (sub32 v1 m1) mask)) (seq 0 m);
    do r <- bi_send total nb c d w mask segs diffs (i + m);
    Ok (map fst ou ++ fst r, bi_pack w (map snd ou) :: snd r)
  end.

(* BitInject::bitInjection of both parties, BitInjection.cpp:64-205: role 0 sends with the
   messages segs0, role 1 receives.  (nr, nb) are mRowCount and mInBitCount of init, rq tells
   whether init was called, req is the size of the OT requests, (r, c, d0), (r, c, d1) the two input matrices. *)
Definition bit_inject (rq : bool) (nr nb req : nat) (r c : nat) (d0 d1 : list N) (w : nat)
    (segs0 : list ot_send) (segs1 : list ot_recv) : outcome (list N * list N) :=
  do _ <- throw_if (c * 8 <? nb);
  do _ <- throw_if (negb (r =? nr));
  do _ <- throw_if (negb rq);
  do mask <- bi_mask w;
  do _ <- throw_if (req <? r * nb);
  let total := r * nb in
  do x <- bi_recv1 total nb c d1 segs1 0;
  do y <- bi_send total nb c d0 w mask segs0 (map fst x) 0;
  do o1 <- bi_recv2 w mask (map snd x) (snd y);
  Ok (fst y, o1).
