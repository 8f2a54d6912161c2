(* Model of secure-join/TableOps/GroupBy.cpp.  As in OmJoinModel the functions working on a
   party's own data are modelled for one party, and the interactive sub-protocols are represented
   by what was proved about their own models: genPerm (C28), ComposedPerm (C07, C08), Gmw (C19)
   and AggTree (C24) turn shares of x into fresh shares of f(x), party 0's share being an
   arbitrary mask.  BetaLibrary::add_build (external) is taken to be the addition modulo 2^size.
   Printing (mInsecurePrint) is left out. *)
From Verif Require Import Base Words PermModel KeyMultModel ShuffleModel ShuffleSpec RadixModel RadixSpec GmwModel GmwSpec AggModel TableModel TableOpsSpec OmJoinModel.

(* one party's arguments: groupByCol, avgCol (does the column belong to the table of groupByCol:
   &groupByCol.mTable == &avgCol[i].mTable) and groupByCol.mTable.mIsActive (GroupBy.cpp:332-337) *)
Record gb_query := GbQ { gKey : column; gAvg : list (bool * column); gAct : list N }.

(* the columns of the aggregation, as select entries so that the offsets of OmJoinModel apply;
   init does not look at their table (GroupBy.cpp:267-278) *)
Definition gb_sel (q : gb_query) : list osel := map (fun s => OSel true (snd s)) (gAvg q).
(* rows, GroupBy.cpp:49, 252 *)
Definition gb_rows (q : gb_query) : nat := bm_n (cDat (gKey q)).

(* mStatSecParam + log2ceil(rows), GroupBy.cpp:52 and 257 *)
Definition gb_comp (n : nat) : nat := 40 + Nat.log2_up n.
(* compressKeySize, GroupBy.cpp:253-257 *)
Definition gb_key_size (q : gb_query) : nat := Nat.min (cBits (gKey q) + 1) (gb_comp (gb_rows q)).
(* the bytes of the aggregated part of a row, the start of "GroupBy" / 8, GroupBy.cpp:267-281 *)
Definition gb_width (q : gb_query) : nat := left_bits (gb_sel q) / 8 + 8.
(* mOffsets, GroupBy.cpp:267-296 *)
Definition gb_offsets (q : gb_query) : list (nat * nat) :=
  let w := left_bits (gb_sel q) in
  let g := div_ceil (cBits (gKey q)) 8 * 8 in
  let k := div_ceil (gb_key_size q) 8 * 8 in
  left_offs 0 (gb_sel q) ++ [(w, 64); (w + 64, cBits (gKey q)); (w + 64 + g, gb_key_size q); (w + 64 + g + k, 1)].

(* *BitIterator(r, k) = b (used in GroupBy.cpp:30-33) *)
Definition set_bit (r : list N) (k : nat) (b : bool) : outcome (list N) :=
  do x <- get r (k / 8);
  set r (k / 8) (if b then N.setbit x (N.of_nat (k mod 8)) else N.clearbit x (N.of_nat (k mod 8))).
(* a row of keys, GroupBy.cpp:55-62; a subspan longer than the row is out of bounds *)
Definition gb_key (bits cols : nat) (r : list N) (f : N) : outcome (list N) :=
  let w := div_ceil (bits + 1) 8 in
  if w <? cols then UB else set_bit (r ++ repeat 0%N (w - cols)) bits (N.odd f).
(* loadKeys, GroupBy.cpp:43-83.  enc: LinearCode::encode of the fixed random code (external). *)
Definition gb_load (enc : list N -> list N) (q : gb_query) : outcome bmat :=
  let m := cDat (gKey q) in
  let bits := bBits m in
  let n := bm_n m in
  if negb (n =? length (gAct q)) then UB else
  do ks <- mapM (fun x => gb_key bits (bCols m) (fst x) (snd x)) (combine (bRows m) (gAct q));
  if bits + 1 <=? gb_comp n then Ok (BM (bits + 1) (div_ceil (bits + 1) 8) ks)
  else Ok (BM (gb_comp n) (div_ceil (gb_comp n) 8) (map enc ks)).

(* the loop over avgCol, GroupBy.cpp:106-124 *)
Definition gb_check (n0 : nat) (s : bool * column) : outcome unit :=
  if fst s then (if (bm_n (cDat (snd s)) =? n0) && (cBits (snd s) =? bBits (cDat (snd s))) then Ok tt else UB) else Throw.
(* concatColumns, GroupBy.cpp:93-163; role: mPartyIdx *)
Definition gb_concat (role : bool) (q : gb_query) (keys : bmat) (offs : list (nat * nat)) : outcome (list (list N)) :=
  let n0 := gb_rows q in
  do _ <- mapM (gb_check n0) (gAvg q);
  let ones := BM 64 8 (repeat (N.b2n role :: repeat 0%N 7) n0) in
  let row := gb_width q + bCols (cDat (gKey q)) + bCols keys in
  do r <- concat_cols (map Some (left_cols (gb_sel q)) ++ [Some ones; Some (cDat (gKey q)); Some keys]) offs
            (repeat (repeat 0%N (row + 1)) n0);
  mapM (fun i => do x <- get r i; do f <- get (gAct q) i; set x row f) (seq 0 n0).

(* the bytes [off, off + size) of every row, extractKeyInfo, GroupBy.cpp:28-29 *)
Definition gb_cut (off size : nat) (d : list (list N)) : outcome (list (list N)) := mapM (fun r => readN r off size) d.
(* the bit at byte off of every row, GroupBy.cpp:31-32 *)
Definition gb_bits (off : nat) (d : list (list N)) : outcome (list bool) := mapM (fun r => do x <- get r off; Ok (N.odd x)) d.

(* getAddCircuit, GroupBy.cpp:489-526: the fields of the given sizes, one right after the other, are
   added *)
Fixpoint padd (ws : list nat) (x y : N) : N :=
  match ws with
  | [] => 0
  | w :: ws => (x + y) mod 2 ^ N.of_nat w + 2 ^ N.of_nat w * padd ws (x / 2 ^ N.of_nat w) (y / 2 ^ N.of_nat w)
  end%N.
(* the sizes of the fields; their sum is aggTreeBitCount, GroupBy.cpp:277, 282-287 *)
Definition gb_sizes (q : gb_query) : list nat := map (fun s => cBits (snd s)) (gAvg q) ++ [64].
(* dst of AggTree::apply, AggTree.cpp:169-172: temp holds the rows before sorting (GroupBy.cpp:386-387)
   and is resized to n rows of w bytes (the values keep their place in memory).  computeLeaf overwrites
   the first ls bytes of every row. *)
Definition gb_leaf (w ls : nat) (old : list N) (rows : list (list N)) : list (list N) :=
  map (fun i => nth i rows [] ++ slice old (i * w + ls) (w - ls)) (seq 0 (length rows)).
(* mAggTree.apply(data, controlBits, .., temp), GroupBy.cpp:413.  The tree was initialized with
   aggTreeBitCount bits (313) and reads that many bits of every row (Level.h:166-187).  old0, old1:
   the bytes of temp. *)
Definition gb_agg (ws : list nat) (w : nat) (mask : list (list N)) (old0 old1 : list N) (ctrl : list N * list N)
  (d : list (list N) * list (list N)) : outcome (list (list N) * list (list N)) :=
  let bits := fold_right Nat.add 0 ws in
  let ls := div_ceil bits 8 in
  do v <- mapM (fun r => readN r 0 ls) (xor_rows (fst d) (snd d));
  do a <- agg_apply Suffix (padd ws) 0%N (map (fun r => le_num r mod 2 ^ N.of_nat bits)%N v) (map2 xbit (fst ctrl) (snd ctrl));
  let s := reshare mask (map (le_bytes ls) a) in
  Ok (gb_leaf w ls old0 (fst s), gb_leaf w ls old1 (snd s)).

(* updateActiveFlagCir(1, 1, 1), GroupBy.cpp:219-244 *)
Definition flag_circuit : circuit := Circuit 3 [[0]; [1]] [[2]] [Gate 0 1 GnaAnd 2].
(* updateActiveFlag, GroupBy.cpp:201-216: the flag bytes of both parties *)
Definition gb_flags (mask : list bool) (ctrl : list N * list N) (f0 f1 : list bool) : list N * list N :=
  let v := map2 (fun c f => eval (cGates flag_circuit) (fun w => if w =? 0 then c else f) 2)
             (map2 xbit (fst ctrl) (snd ctrl)) (map2 xorb f0 f1) in
  (map N.b2n mask, map N.b2n (map2 xorb mask v)).

(* concatColumns, GroupBy.cpp:169-195; the rows of data have w bytes, those of the group column g
   (kb bits) *)
Definition gb_concat2 (w kb : nat) (d grp : list (list N)) (fl : list N) : outcome (list (list N)) :=
  let g := div_ceil kb 8 in
  if negb (length grp =? length d) || negb (length fl =? length d) then UB else
  concat_cols [Some (BM (w * 8) w d); Some (BM kb g grp); Some (BM 1 1 (map (fun x => [x]) fl))]
    [(0, w * 8); (w * 8, kb); ((w + g) * 8, 1)] (repeat (repeat 0%N (w + g + 1)) (length d)).

(* a column of the output: populateOutTable, Join/Table.cpp:554-586, and the copies of getOutput,
   GroupBy.cpp:467-480 *)
Definition gb_out_col (d : list (list N)) (off w : nat) (name : list N) (type : nat) : outcome column :=
  do rows <- mapM (fun r => readN r off w) d;
  Ok (Col name type (w * 8) (BM (w * 8) w rows)).
(* the aggregated columns, GroupBy.cpp:467-474, from byte off on *)
Fixpoint gb_out_avg (d : list (list N)) (off : nat) (sel : list osel) : outcome (list column) :=
  match sel with
  | [] => do c <- gb_out_col d off 8 [67; 111; 117; 110; 116]%N 0; Ok [c]
  | s :: sel =>
    let w := div_ceil (cBits (oCol s)) 8 in
    do c <- gb_out_col d off w (cName (oCol s)) (cType (oCol s));
    do r <- gb_out_avg d (off + w) sel;
    Ok (c :: r)
  end.
(* getOutput, GroupBy.cpp:450-487 *)
Definition gb_output (q : gb_query) (d : list (list N)) : outcome table :=
  let w := gb_width q in
  let g := div_ceil (cBits (gKey q)) 8 in
  do avg <- gb_out_avg d 0 (gb_sel q);
  do grp <- gb_out_col d w g (cName (gKey q)) (cType (gKey q));
  do act <- mapM (fun r => get r (w + g)) d;
  Ok (Tab act (grp :: avg)).

(* the randomness: party 0's shares of the results of the sub-protocols, in order *)
Record gb_rand := GbR { bSort : list (list N); bCtrl : list bool; bAgg : list (list N); bFlag : list bool;
  bUnsort : list (list N) }.

(* groupBy, GroupBy.cpp:332-441, of both parties, without the removal of the inactive rows *)
Definition gb_run (enc : list N -> list N) (q0 q1 : gb_query) (rd : gb_rand) : outcome (table * table) :=
  do k0 <- gb_load enc q0;
  do k1 <- gb_load enc q1;
  let w := gb_width q0 in
  let kb := cBits (gKey q0) in
  let g := div_ceil kb 8 in
  let kc := div_ceil (gb_key_size q0) 8 in
  let offs := gb_offsets q0 in
  do p <- om_sort k0 k1;
  do d0 <- gb_concat false q0 k0 offs;
  do d1 <- gb_concat true q1 k1 offs;
  do d <- om_perm Inverse p (bSort rd) (d0, d1);
  do g0 <- gb_cut w g (fst d);
  do g1 <- gb_cut w g (snd d);
  do c0 <- gb_cut (w + g) kc (fst d);
  do c1 <- gb_cut (w + g) kc (snd d);
  do f0 <- gb_bits (w + g + kc) (fst d);
  do f1 <- gb_bits (w + g + kc) (snd d);
  do c <- om_control (gb_key_size q0) 0 (bCtrl rd) (c0, c1);
  do a <- gb_agg (gb_sizes q0) w (bAgg rd) (concat d0) (concat d1) c d;
  let fl := gb_flags (bFlag rd) c f0 f1 in
  do e0 <- gb_concat2 w kb (fst a) g0 (fst fl);
  do e1 <- gb_concat2 w kb (snd a) g1 (snd fl);
  do e <- om_perm Regular p (bUnsort rd) (e0, e1);
  do t0 <- gb_output q0 (fst e);
  do t1 <- gb_output q1 (snd e);
  Ok (t0, t1).

(* ---- the size of the permutation correlation ---- *)

(* dataBitsPerEntry / 8 at the end of the layout, GroupBy.cpp:261-296 *)
Definition gb_data_bytes (q : gb_query) : nat := gb_width q + div_ceil (cBits (gKey q)) 8 + div_ceil (gb_key_size q) 8 + 1.
(* permForward + permBackward, GroupBy.cpp:304-308; rem: remDummiesFlag *)
Definition gb_asked (rem : bool) (q : gb_query) : nat :=
  gb_data_bytes q + 4 + (if rem then 0 else div_ceil (gb_data_bytes q * 8 - gb_key_size q) 8).
(* the bytes the two perm.apply and the derandomization (a u32 per row, ComposedPerm.cpp) take, GroupBy.cpp:384-440 *)
Definition gb_taken (q : gb_query) : nat :=
  4 + gb_data_bytes q + (gb_width q + div_ceil (cBits (gKey q)) 8 + 1).
