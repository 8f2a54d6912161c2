(* Where with the run of its circuit: the flags of the selected rows are computed by Gmw on the parties' shares, with
   all the messages; TableOps/Where.cpp:75-105. *)
From Verif Require Import Base Words KeyMultModel GmwModel GmwIoModel GmwIoSpec AggModel AggCirModel AggRunModel AggViewModel TableModel WhereModel.

(* What a party hands to Gmw after the checks, Where.cpp:81-93: its columns and its flags as rows of bytes.  The input of
   the flags is the last one of the circuit; the code sets it before the others, which only changes the order in which
   memory is allocated.  Whether the rows fit the circuit is checked by setInput (GmwIoModel). *)
Definition where_given (w : where_st) (t : table) : outcome (list given) :=
  do _ <- throw_if (negb (length (tCols t) =? length (wCols w)));
  do _ <- throw_if (negb (t_rows t =? wRows w));
  do is <- t_info t;
  do _ <- throw_if (negb (infos_eq is (wCols w)));
  do xs <- mapM (fun i => do c <- get (tCols t) i; Ok (GRows 1 (bCols (cDat c)) (bRows (cDat c)))) (wIns w);
  Ok (xs ++ [GRows 1 1 (map (fun x : N => [x]) (tAct t))]).

(* setInput for all inputs, run and getOutput into the bytes of the flags, Where.cpp:88-105; GMW/Gmw.h:121-134, 192-198 *)
Definition gmw_flags (n : nat) (c : circuit) (lvs : list level) (t0 t1 : tape) (x0 x1 : list given)
  : outcome ((list N * list N) * messages) :=
  do p0 <- prepare (tpJunk t0) (tpPast t0) x0 [None] (gmw_init n (cWires c) (cIns c) (cOuts c));
  do p1 <- prepare (tpJunk t1) (tpPast t1) x1 [None] (gmw_init n (cWires c) (cIns c) (cOuts c));
  do h <- gmw_exec_msg lvs (tpJunk2 t0) (tpJunk2 t1) (tpCor t0) (tpCor t1) (fst p0) (fst p1);
  do y0 <- get_output (tpJunk t0) (tpOutPad t0 0) 0 1 n 1 (fst (fst h));
  do y1 <- get_output (tpJunk t1) (tpOutPad t1 0) 0 1 n 1 (snd (fst h));
  Ok ((map (hd 0%N) (snd y0), map (hd 0%N) (snd y1)), snd h).

(* where, Where.cpp:75-105, without the removal of inactive rows *)
Definition where_msg (w : where_st) (lvs : list level) (t0 t1 : tape) (i0 i1 : table) : outcome ((table * table) * messages) :=
  do x0 <- where_given w i0;
  do x1 <- where_given w i1;
  do r <- gmw_flags (wRows w) (wCir w) lvs t0 t1 x0 x1;
  Ok ((Tab (fst (fst r)) (tCols i0), Tab (snd (fst r)) (tCols i1)), snd r).
