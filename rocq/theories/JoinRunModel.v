(* The one to many join with the runs of its circuits: after the sort and the permutation (JoinViewModel) the control
   bits, the duplicated rows and the flags are computed here by Gmw and by the aggregation tree, with all their
   messages; OmJoin.cpp:113-143, 290-301, 360-395, 485-606. *)
From Verif Require Import Base Words PrfModel PermModel PermCorModel PermViewModel KeyMultModel ShuffleModel ShuffleSpec BitInjModel RadixModel SortViewModel GenPermViewModel GmwModel GmwSpec GmwIoModel GmwIoSpec
  AggModel AggCirModel AggTwoModel AggRunModel AggViewModel TableModel TableIOModel OmJoinModel JoinViewModel.

(* One run of Gmw by both parties: setInput for every input of the circuit with n rows of cols bytes each, run, and
   getOutput of the first output, of one bit, into a BinMatrix; GMW/Gmw.h:131-134, 183-188, Gmw.cpp:42-85, 207-613.
   tpPast: what transposing does with rows that do not exist; tpOutPad: what it leaves in the bits of an output byte
   that are not bits of the output. *)
Definition gmw_rows (n : nat) (c : circuit) (lvs : list level) (cols : nat) (t0 t1 : tape) (x0 x1 : list (list (list N)))
  : outcome ((list (list N) * list (list N)) * messages) :=
  do p0 <- prepare (tpJunk t0) (tpPast t0) (map (GRows 1 cols) x0) [None] (gmw_init n (cWires c) (cIns c) (cOuts c));
  do p1 <- prepare (tpJunk t1) (tpPast t1) (map (GRows 1 cols) x1) [None] (gmw_init n (cWires c) (cIns c) (cOuts c));
  do h <- gmw_exec_msg lvs (tpJunk2 t0) (tpJunk2 t1) (tpCor t0) (tpCor t1) (fst p0) (fst p1);
  do y0 <- get_output_bm (tpJunk t0) (tpOutPad t0 0) 0 n 1 (fst (fst h));
  do y1 <- get_output_bm (tpJunk t1) (tpOutPad t1 0) 0 n 1 (snd (fst h));
  Ok ((snd y0, snd y1), snd h).

(* getControlBits, OmJoin.cpp:113-143, up to the run: the bytes of the output *)
Definition control_run (bits off : nat) (lvs : list level) (t : tape * tape) (d : list (list N) * list (list N))
  : outcome ((list N * list N) * messages) :=
  let size := div_ceil bits 8 in
  let n := length (fst d) in
  do c <- control_circuit bits;
  do s0 <- skeys off size (fst d);
  do s1 <- skeys off size (snd d);
  do r <- gmw_rows n c lvs size (fst t) (snd t) [firstn n s0; skipn 1 s0] [firstn n s1; skipn 1 s1];
  Ok ((map (hd 0%N) (fst (fst r)), map (hd 0%N) (snd (fst r))), snd r).

(* the bytes of a row given by its bits; the rows of the tree's output are BinMatrix rows (AggTree.cpp:896-932) *)
Definition bits_row (w : nat) (l : list bool) : list N := map (fun b => of_bits (map (fun k => nth (8 * b + k) l false) (seq 0 8))) (seq 0 w).

(* the levels in which the circuits of a join are evaluated: of the control bits, of the tree's way up, way down and
   leaves, of the flags (OmJoin.cpp:462-467; Gmw.cpp:271-330) *)
Record join_levels := JL { jlCtrl : list level; jlUp : list level; jlDown : list level; jlLeaf : list level; jlFlag : list level }.
(* memory and correlations of both parties in all runs, OmJoin.cpp:462-467 *)
Record join_tapes := JT { jtpCtrl : tape * tape; jtpUp : list tape * list tape; jtpDown : list tape * list tape; jtpLeaf : tape * tape; jtpFlag : tape * tape }.

(* what the circuits take from the library: the multiplexer of the tree (AggTree.cpp:256, see AggCirModel) and
   int_int_bitwiseAnd(1, 1, 1) (OmJoin.cpp:466) *)
Record join_lib := JLib { lbMux : multiplexer; lbAnd : circuit }.

(* mAggTree.apply with getDupCircuit, OmJoin.cpp:290-301, 575, on whole rows of w bytes (see om_dup).  A control bit is
   the byte of the row (AggTree/Level.h:195-206); the bytes are 0 or 1 *)
Definition dup_run (mux : multiplexer) (w : nat) (jl : join_levels) (jt : join_tapes) (ctrl : list N * list N) (d : list (list N) * list (list N))
  : outcome ((list (list N) * list (list N)) * (list messages * list messages * messages)) :=
  let k := 8 * w in
  do cu <- upstream_cir dup_circuit mux k Prefix;
  do cd <- downstream_cir dup_circuit k Prefix;
  do cl <- leaf_cir dup_circuit mux k Prefix;
  do r <- agg_msg Prefix (repeat false k) cu cd cl (jlUp jl) (jlDown jl) (jlLeaf jl) (fst (jtpUp jt)) (snd (jtpUp jt)) (fst (jtpDown jt)) (snd (jtpDown jt))
    (fst (jtpLeaf jt)) (snd (jtpLeaf jt)) (map (row_bits k) (fst d)) (map (row_bits k) (snd d)) (map N.odd (fst ctrl)) (map N.odd (snd ctrl));
  Ok ((map (bits_row w) (fst (fst r)), map (bits_row w) (snd (fst r))), snd r).

(* the byte of the flag is replaced, what comes after it is not copied, OmJoin.cpp:388-394 *)
Definition put_bytes (off : nat) (d : list (list N)) (fl : list N) : outcome (list (list N)) :=
  mapM (fun q => do x <- readN (fst q) 0 off; Ok (x ++ [snd q])) (combine d fl).
(* updateActiveFlag, OmJoin.cpp:360-395 *)
Definition flags_run (ca : circuit) (off : nat) (lvs : list level) (t : tape * tape) (ctrl : list N * list N) (d : list (list N) * list (list N))
  : outcome ((list (list N) * list (list N)) * messages) :=
  do f0 <- mapM (fun r => get r off) (fst d);
  do f1 <- mapM (fun r => get r off) (snd d);
  let one := map (fun x : N => [x]) in
  do r <- gmw_rows (length (fst d)) ca lvs 1 (fst t) (snd t) [one (fst ctrl); one f0] [one (snd ctrl); one f1];
  do r0 <- put_bytes off (fst d) (map (hd 0%N) (fst (fst r)));
  do r1 <- put_bytes off (snd d) (map (hd 0%N) (snd (fst r)));
  Ok ((r0, r1), snd r).

(* the messages of the circuits of a join: control bits, tree, flags (OmJoin.cpp:562, 575, 583) *)
Notation cir_msgs := (messages * (list messages * list messages * messages) * messages)%type.

(* as join_chain, OmJoin.cpp:549-592 *)
Definition join_chain_run (lb : join_lib) (n w bits flag : nat) (y0 y1 : list N) (d0 d1 : list (list N)) (c : comp * comp) (jl : join_levels) (jt : join_tapes)
  : outcome (chain_tr * cir_msgs) :=
  do m1 <- comp_derand_msgs (fst c) (snd c) y0 y1;
  do e <- comp_derand (fst c) (snd c) y0 y1;
  do m2 <- comp_apply_msgs (fst e) (snd e) Inverse (Mat n w (concat d0)) (Mat n w (concat d1));
  do a <- comp_apply (fst e) (snd e) Inverse (Mat n w (concat d0)) (Mat n w (concat d1)) (zmat n w) (zmat n w);
  let '((z0, g0), (z1, g1)) := a in
  let z := (chunks w n (dat z0), chunks w n (dat z1)) in
  do o <- control_run bits (flag + 1) (jlCtrl jl) (jtpCtrl jt) z;
  do o0 <- set (fst (fst o)) 0 0%N;
  do o1 <- set (snd (fst o)) 0 0%N;
  do u <- dup_run (lbMux lb) w jl jt (o0, o1) z;
  do f <- flags_run (lbAnd lb) flag (jlFlag jl) (jtpFlag jt) (o0, o1) (fst u);
  do m3 <- comp_apply_msgs g0 g1 Regular (Mat n (flag + 1) (concat (fst (fst f)))) (Mat n (flag + 1) (concat (snd (fst f))));
  do b <- comp_apply g0 g1 Regular (Mat n (flag + 1) (concat (fst (fst f)))) (Mat n (flag + 1) (concat (snd (fst f)))) (zmat n (flag + 1)) (zmat n (flag + 1));
  let '((x0, _), (x1, _)) := b in
  Ok (CTr m1 m2 z (map N.odd (fst (fst o)), map N.odd (snd (fst o))) (fst u) (fst f) m3 (chunks (flag + 1) n (dat x0), chunks (flag + 1) n (dat x1)),
    (snd o, snd u, snd f)).

(* join, OmJoin.cpp:485-606; as om_join_v.  Of rd only the randomness of the sort and the permutation is used *)
Definition om_join_run (lb : join_lib) (L : nat) (enc : list N -> list N) (q0 q1 : om_query) (rd : (radix_round * list ((comp * comp) * radix_round)) * (comp * comp)) (jl : join_levels) (jt : join_tapes)
  : outcome (join_tr * cir_msgs) :=
  do k0 <- load_keys enc (qLeft q0) (qRight q0);
  do k1 <- load_keys enc (qLeft q1) (qRight q1);
  let keyBits := bBits k0 in
  let n := bm_n k0 in
  let nL := bm_n (cDat (qLeft q0)) in
  let dataBits := om_data_bits (qSel q0) (cBits (qLeft q0)) in
  let offs := om_offsets (qSel q0) keyBits in
  let flag := left_bits (qSel q0) / 8 in
  do t <- gen_perm_v L n keyBits keyBits n (bCols k0) (concat (bRows k0)) (concat (bRows k1)) (fst (fst rd)) (snd (fst rd));
  do d0 <- om_concat false nL (qSel q0) k0 offs dataBits;
  do d1 <- om_concat true nL (qSel q1) k1 offs dataBits;
  do _ <- comp_validate (fst (snd rd)) (snd (snd rd));
  do r <- join_chain_run lb n (div_ceil dataBits 8) keyBits flag (fst (snd (snd t))) (snd (snd (snd t))) d0 d1 (snd rd) jl jt;
  do t0 <- om_output nL (flag + 1) (fst (ctW (fst r))) (qSel q0);
  do t1 <- om_output nL (flag + 1) (snd (ctW (fst r))) (qSel q1);
  Ok (JTr t (comp_validate_msgs (fst (snd rd)) (snd (snd rd))) (fst r) (t0, t1), snd r).
