(* Model of secure-join/Join/OmJoin.cpp.  The functions working on a party's own data are
   modelled for one party.  The interactive sub-protocols are represented by what was proved
   about their own models: on shares of x they return fresh shares of f(x).  The share of
   party 0 is an arbitrary mask (a parameter), that of party 1 the mask xor f(x):
   - genPerm: the stable sorting permutation of the keys (C28_genPerm_partial, C28_unique);
   - ComposedPerm::derandomize/apply: the permuted rows (C07, C08);
   - Gmw: the circuit, row by row (C19_correct, C20);
   - AggTree::apply: agg_apply on the rows (C24).
   Printing (mInsecurePrint) and timers are left out. *)
From Verif Require Import Base Words PermModel KeyMultModel ShuffleModel ShuffleSpec RadixModel GmwModel GmwSpec AggModel TableModel.

(* ---------------- the control bit circuit ---------------- *)

(* one pass of the loop, OmJoin.cpp:90-110, from level i on; temp: the wires of the current
   bundle, next: the next free wire.  Result: the gates and the next free wire. *)
Fixpoint and_levels (levels i bits out next : nat) (temp : list nat) : outcome (list gate * nat) :=
  match levels with
  | 0 => Ok ([], next)
  | S k =>
    let size := bits / 2 / 2 ^ i in
    let temp2 := if size =? 1 then [out] else seq next size in
    let next' := if size =? 1 then next else next + size in
    do gs <- mapM (fun j => do a <- get temp (2 * j); do b <- get temp (2 * j + 1); do o <- get temp2 j;
                            Ok (Gate a b GAnd o)) (seq 0 size);
    do r <- and_levels k (i + 1) bits out next' temp2;
    Ok (gs ++ fst r, snd r)
  end.

(* getControlBitsCircuit, OmJoin.cpp:63-111.  Wires are numbered in the order of the addInput...,
   addOutput... and addTemp... calls. *)
Definition control_circuit (bits : nat) : outcome circuit :=
  let out := 2 * bits in
  let temp := if bits =? 1 then [out] else seq (2 * bits + 1) bits in
  let next := if bits =? 1 then 2 * bits + 1 else 3 * bits + 1 in
  do g0 <- mapM (fun i => do t <- get temp i; Ok (Gate i (bits + i) GNxor t)) (seq 0 bits);
  do r <- and_levels (Nat.log2_up bits) 0 bits out next temp;
  Ok (Circuit (snd r) [seq 0 bits; seq bits bits] [[out]] (g0 ++ fst r)).

(* Gmw on rows a, b of the two inputs of a circuit whose first inputs have n bits; the output is
   wire o.  setInput transposes the low bits of the rows (Gmw.cpp:42-62). *)
Definition row_env (n : nat) (a b : list N) : env := fun w => if w <? n then sbit a w else sbit b (w - n).

(* ---------------- layout ---------------- *)

(* an element of mSelect: is it a column of the left table (&mTable == &leftKey.mTable) (JoinQuery.h:10-20) *)
Record osel := OSel { oLeft : bool; oCol : column }.

(* mStatSecParam + log2(rows0) + log2(rows1), OmJoin.cpp:18 and 419, rounded down; a double in the
   code, taken to be exact *)
Definition comp_size (n0 n1 : nat) : nat := 40 + Nat.log2 (n0 * n1).

(* mOffsets for the left columns and the sum of their widths, OmJoin.cpp:430-446 *)
Fixpoint left_offs (d : nat) (sel : list osel) : list (nat * nat) :=
  match sel with
  | [] => []
  | s :: sel =>
    if oLeft s then (d, cBits (oCol s)) :: left_offs (d + div_ceil (cBits (oCol s)) 8 * 8) sel
    else left_offs d sel
  end.
(* the sum of the widths of the left columns, OmJoin.cpp:430-446 *)
Fixpoint left_bits (sel : list osel) : nat :=
  match sel with
  | [] => 0
  | s :: sel => (if oLeft s then div_ceil (cBits (oCol s)) 8 * 8 else 0) + left_bits sel
  end.
(* mOffsets and mDataBitsPerEntry, OmJoin.cpp:418-452 *)
Definition om_offsets (sel : list osel) (keySize : nat) : list (nat * nat) :=
  left_offs 0 sel ++ [(left_bits sel, 8); (left_bits sel + 8, keySize)].
(* mDataBitsPerEntry, OmJoin.cpp:447-452 *)
Definition om_data_bits (sel : list osel) (keyBits : nat) : nat := left_bits sel + 8 + div_ceil keyBits 8 * 8.

(* loadKeys, OmJoin.cpp:12-59.  enc: LinearCode::encode of the fixed random code (external).  With
   no rows log2 is minus infinity, and its conversion to an integer is undefined. *)
Definition load_keys (enc : list N -> list N) (l r : column) : outcome bmat :=
  let n0 := bm_n (cDat l) in
  let n1 := bm_n (cDat r) in
  let bits := cBits l in
  do _ <- throw_if (negb (cBits l =? cBits r));
  if (n0 =? 0) || (n1 =? 0) then UB else
  if bits <=? comp_size n0 n1 then
    if (bCols (cDat l) =? div_ceil bits 8) && (bCols (cDat r) =? div_ceil bits 8)
    then Ok (BM bits (div_ceil bits 8) (bRows (cDat l) ++ bRows (cDat r))) else UB
  else Ok (BM (comp_size n0 n1) (div_ceil (comp_size n0 n1) 8) (map enc (bRows (cDat l) ++ bRows (cDat r)))).

(* concatColumns of one column, OmJoin.cpp:150-171.  Copying past the end of a row is taken to be
   undefined (the code would write into the next row); the copy after the loop is made even when
   there are no rows. *)
Definition write_col (off size : nat) (src : bmat) (dst : list (list N)) : outcome (list (list N)) :=
  if (bm_n src =? 0) || (length dst <? bm_n src) || negb (off mod 8 =? 0) || negb (div_ceil size 8 =? bCols src) then UB else
  do h <- mapM (fun q => writeN (snd q) (off / 8) (fst q)) (combine (bRows src) dst);
  Ok (h ++ skipn (bm_n src) dst).
(* concatColumns, OmJoin.cpp:145-173; None is nullptr *)
Fixpoint concat_cols (cols : list (option bmat)) (offs : list (nat * nat)) (dst : list (list N)) : outcome (list (list N)) :=
  match cols with
  | [] => Ok dst
  | c :: cols =>
    match offs with
    | [] => match c with None => concat_cols cols [] dst | Some _ => UB end
    | o :: offs =>
      do dst <- match c with None => Ok dst | Some m => write_col (fst o) (snd o) m dst end;
      concat_cols cols offs dst
    end
  end.
(* the left columns of the select list (OmJoin.cpp:145-173) *)
Definition left_cols (sel : list osel) : list bmat := map (fun s => cDat (oCol s)) (filter oLeft sel).
(* concatColumns, OmJoin.cpp:177-216; n0: the rows of the left key *)
Definition om_concat (role : bool) (n0 : nat) (sel : list osel) (keys : bmat) (offs : list (nat * nat)) (bits : nat)
  : outcome (list (list N)) :=
  if negb (forallb (fun m => bm_n m =? n0) (left_cols sel)) then UB else
  let dst := repeat (repeat 0%N (div_ceil bits 8)) (bm_n keys) in
  do r <- concat_cols (map Some (left_cols sel) ++ [None; Some keys]) offs dst;
  if role then
    do o <- get offs (length offs - 2);
    do h <- mapM (fun i => do x <- get r i; set x (fst o / 8) 1%N) (seq 0 n0);
    Ok (h ++ skipn n0 r)
  else Ok r.

(* ---------------- the protocol ---------------- *)

(* fresh shares of v (the output of a sub-protocol, OmJoin.cpp:517-600) *)
Definition reshare (mask v : list (list N)) : list (list N) * list (list N) := (mask, xor_rows mask v).

(* perm.apply(op, data, temp), OmJoin.cpp:540, 592; p: the permutation shared by sPerm *)
Definition om_perm (op : PermOp) (p : list nat) (mask : list (list N)) (d : list (list N) * list (list N))
  : outcome (list (list N) * list (list N)) :=
  let v := xor_rows (fst d) (snd d) in
  do w <- match op with Regular => perm_apply_vec [] p v | Inverse => perm_applyInv_vec [] p v end;
  Ok (reshare mask w).

(* sKeys of one party, OmJoin.cpp:127-132 *)
Definition skeys (off size : nat) (d : list (list N)) : outcome (list (list N)) :=
  do l <- mapM (fun r => readN r off size) d;
  Ok (repeat 0%N size :: l).
(* getControlBits, OmJoin.cpp:113-143.  The result are the bytes of both parties; mask: the bits of
   party 0's shares. *)
Definition om_control (bits off : nat) (mask : list bool) (d : list (list N) * list (list N))
  : outcome (list N * list N) :=
  let size := div_ceil bits 8 in
  let n := length (fst d) in
  do c <- control_circuit bits;
  do s0 <- skeys off size (fst d);
  do s1 <- skeys off size (snd d);
  let k := xor_rows s0 s1 in
  let out := map2 (fun a b => eval (cGates c) (row_env bits a b) (2 * bits)) (firstn n k) (skipn 1 k) in
  do o0 <- set (map N.b2n mask) 0 0%N;
  do o1 <- set (map N.b2n (map2 xorb mask out)) 0 0%N;
  Ok (o0, o1).

(* the low bit of the shares of a byte (OmJoin.cpp:360-395) *)
Definition xbit (a b : N) : bool := N.odd (N.lxor a b).

(* mAggTree.apply(data, controlBits, .., temp) with getDupCircuit, OmJoin.cpp:290-301, 565.  The tree
   was initialized with mDataBitsPerEntry, that is, with whole rows (458, and Level.h:166-187 copies
   that many bytes); the bit count changed by reshape is not looked at. *)
Definition om_dup (cols : nat) (mask : list (list N)) (ctrl : list N * list N) (d : list (list N) * list (list N))
  : outcome (list (list N) * list (list N)) :=
  do w <- agg_apply Prefix (fun a _ => a) (repeat 0%N cols) (xor_rows (fst d) (snd d)) (map2 xbit (fst ctrl) (snd ctrl));
  Ok (reshare mask w).

(* updateActiveFlag, OmJoin.cpp:360-395: one party's rows with the new flag shares *)
Definition put_flags (off : nat) (d : list (list N)) (fl : list bool) : outcome (list (list N)) :=
  mapM (fun q => do x <- readN (fst q) 0 off; Ok (x ++ [N.b2n (snd q)])) (combine d fl).
(* updateActiveFlag of both parties, OmJoin.cpp:360-395 *)
Definition om_flags (off : nat) (mask : list bool) (ctrl : list N * list N) (d : list (list N) * list (list N))
  : outcome (list (list N) * list (list N)) :=
  do f0 <- mapM (fun r => get r off) (fst d);
  do f1 <- mapM (fun r => get r off) (snd d);
  let v := map2 andb (map2 xbit (fst ctrl) (snd ctrl)) (map2 xbit f0 f1) in
  do r0 <- put_flags off (fst d) mask;
  do r1 <- put_flags off (snd d) (map2 xorb mask v);
  Ok (r0, r1).

(* getOutput, OmJoin.cpp:224-287, of one party.  off: rightOffset *)
Fixpoint out_cols (nL : nat) (d : list (list N)) (off : nat) (sel : list osel) : outcome (list column * nat) :=
  match sel with
  | [] => Ok ([], off)
  | s :: sel =>
    let c := oCol s in
    if oLeft s then
      let w := div_ceil (cBits c) 8 in
      do rows <- mapM (fun r => readN r off w) (skipn nL d);
      do r <- out_cols nL d (off + w) sel;
      Ok (Col (cName c) (cType c) (cBits c) (BM (cBits c) w rows) :: fst r, snd r)
    else
      do r <- out_cols nL d off sel;
      Ok (Col (cName c) (cType c) (cBits c) (cDat c) :: fst r, snd r)
  end.
(* the table getOutput writes, OmJoin.cpp:224-287 *)
Definition om_output (nL cols : nat) (d : list (list N)) (sel : list osel) : outcome table :=
  do r <- out_cols nL d 0 sel;
  if negb (snd r =? cols - 1) then UB else
  do act <- mapM (fun x => get x (snd r)) (skipn nL d);
  Ok (Tab act (fst r)).

(* the randomness: party 0's shares of the results of the sub-protocols, in order *)
Record om_rand := OmR { rSort : list (list N); rCtrl : list bool; rDup : list (list N); rFlag : list bool;
  rUnsort : list (list N) }.

(* the permutation genPerm finds for the shared keys (OmJoin.cpp:517) *)
Definition om_sort (k0 k1 : bmat) : outcome (list nat) :=
  do p <- mock_sort (bm_n k0) (bCols k0) (concat (bRows k0)) (concat (bRows k1));
  Ok (map N.to_nat (map2 N.lxor (fst p) (snd p))).

(* one party's query: mLeftKey, mRightKey, mSelect (Join/JoinQuery.h:23-45) *)
Record om_query := OmQ { qLeft : column; qRight : column; qSel : list osel }.

(* join, OmJoin.cpp:485-606, of both parties, without the removal of inactive rows *)
Definition om_join (enc : list N -> list N) (q0 q1 : om_query) (rd : om_rand) : outcome (table * table) :=
  do k0 <- load_keys enc (qLeft q0) (qRight q0);
  do k1 <- load_keys enc (qLeft q1) (qRight q1);
  let keyBits := bBits k0 in
  let nL := bm_n (cDat (qLeft q0)) in
  let dataBits := om_data_bits (qSel q0) (cBits (qLeft q0)) in
  let cols := div_ceil dataBits 8 in
  let offs := om_offsets (qSel q0) keyBits in
  let flag := left_bits (qSel q0) / 8 in
  do p <- om_sort k0 k1;
  do d0 <- om_concat false nL (qSel q0) k0 offs dataBits;
  do d1 <- om_concat true nL (qSel q1) k1 offs dataBits;
  do d <- om_perm Inverse p (rSort rd) (d0, d1);
  do c <- om_control keyBits (flag + 1) (rCtrl rd) d;
  do d <- om_dup cols (rDup rd) c d;
  do d <- om_flags flag (rFlag rd) c d;
  do d <- om_perm Regular p (rUnsort rd) d;
  do t0 <- om_output nL (flag + 1) (fst d) (qSel q0);
  do t1 <- om_output nL (flag + 1) (snd d) (qSel q1);
  Ok (t0, t1).
