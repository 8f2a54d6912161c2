(* Model of secure-join/TableOps/Where.cpp.  Gmw is represented by what is proved of it (C19, C20):
   the parties end with shares of the circuit's output on every row, party 0's share being an
   arbitrary mask.  levelByAndDepth (external) is taken to keep the function of the circuit. *)
From Verif Require Import Base Words PermCorModel KeyMultModel ShuffleModel ShuffleSpec GmwModel GmwSpec TableModel OmJoinModel ExtractModel.

(* oc::BetaWireFlag (external, named in Gmw.cpp:97-104): a wire can be marked as inverted or constant;
   the value of an output wire is that of the gates corrected by its mark *)
Inductive wflag := FWire | FInv | FZero | FOne.
(* the value a marked wire stands for, GMW/Gmw.cpp:97-104 *)
Definition flag_val (f : wflag) (b : bool) : bool :=
  match f with FWire => b | FInv => negb b | FZero => false | FOne => true end.
(* a clause: the circuit and the mark of its first output wire (the argument of Where.cpp:39-45) *)
Record clause := Clause { clCir : circuit; clFlag : wflag }.

(* addInputBundle for bundles of these sizes: consecutive wires (Where.cpp:14-24) *)
Fixpoint bundles (next : nat) (ws : list nat) : list (list nat) :=
  match ws with
  | [] => []
  | w :: ws => seq next w :: bundles (next + w) ws
  end.
(* the number of input wires, Where.cpp:14-24 *)
Definition total_wires (ws : list nat) : nat := fold_right Nat.add 0 ws.

(* makeWhereClause, Where.cpp:8-37.  evaluate copies the gates of the clause and not its wire flags
   (Circuit.cpp:127-138). *)
Definition make_where (cl : clause) : outcome circuit :=
  let cir := clCir cl in
  do _ <- throw_if (negb (length (cOuts cir) =? 1));
  let ws := map (@length nat) (cIns cir) in
  let act := total_wires ws in
  let out := act + 1 in
  let temp := act + 2 in
  do c <- evaluate (Circuit (act + 3) (bundles 0 ws ++ [[act]]) [[out]] []) cir (bundles 0 ws) [[temp]];
  Ok (Circuit (cWires c) (cIns c) (cOuts c) (cGates c ++ [Gate temp act GAnd out])).

(* mRows, mColumns, mWhereInputs, mWhereClauseCir and the bytes per row asked of Extract (Where.cpp:57-72) *)
Record where_st := WhereSt { wRows : nat; wCols : list cinfo; wIns : list nat; wCir : circuit; wBytes : nat }.

(* the check of one selected column, Where.cpp:53-56 *)
Definition check_input (cols : list cinfo) (q : nat * list nat) : outcome unit :=
  do _ <- throw_if (length cols <=? fst q);
  do c <- get cols (fst q);
  throw_if (negb (iBits c =? length (snd q))).
(* init, Where.cpp:39-73 of a fresh object.  The byte count adds up the first columns, not the
   selected ones (69-70); columns[i] past the end is undefined, and only read with the removal of
   inactive rows asked for, which [rem] says. *)
Definition where_init (rows : nat) (cols : list cinfo) (ins : list nat) (cl : clause) (rem : bool) : outcome where_st :=
  do _ <- throw_if (negb (length (cIns (clCir cl)) =? length ins));
  do _ <- throw_if (negb (length (cOuts (clCir cl)) =? 1));
  do _ <- mapM (check_input cols) (combine ins (cIns (clCir cl)));
  do c <- make_where cl;
  do mc <- mapM (get cols) ins;
  do b <- (if rem then mapM (get cols) (seq 0 (length ins)) else Ok []);
  Ok (WhereSt rows mc ins c (fold_right (fun i s => div_ceil (iBits i) 8 + s) 1 b)).

(* implSetInput, Gmw.cpp:42-62, for bytes: the throws; wires: the size of the input bundle *)
Definition set_input_ok (n wires cols rows : nat) : outcome unit :=
  if wires =? 0 then UB else
  do _ <- throw_if (negb (div_ceil wires 8 =? cols));
  throw_if (negb (rows =? n)).

(* a party's inputs, Where.cpp:81-93: its rows of every input and its flags *)
Definition where_inputs (w : where_st) (t : table) : outcome (list (list (list N))) :=
  do _ <- throw_if (negb (length (tCols t) =? length (wCols w)));
  do _ <- throw_if (negb (t_rows t =? wRows w));
  do is <- t_info t;
  do _ <- throw_if (negb (infos_eq is (wCols w)));
  do _ <- set_input_ok (wRows w) 1 1 (length (tAct t));
  mapM (fun q => do c <- get (tCols t) (fst q);
                 do _ <- set_input_ok (wRows w) (length (snd q)) (bCols (cDat c)) (bm_n (cDat c));
                 Ok (bRows (cDat c))) (combine (wIns w) (cIns (wCir w))).

(* the bits of the input wires for one row: x: the row of every input, ws: their sizes; the flag comes last
   (Where.cpp:88-90) *)
Definition wire_bits (ws : list nat) (xs : list (list N)) (f : N) : list bool :=
  concat (map2 row_bits ws xs) ++ [N.odd f].
(* the circuit on row r of the inputs (mGmw.run, Where.cpp:94) *)
Definition where_row (c : circuit) (ins : list (list (list N))) (fl : list N) (r : nat) : bool :=
  let ws := map (@length nat) (cIns c) in
  let bits := wire_bits ws (map (fun m => nth r m []) ins) (nth r fl 0%N) in
  eval (cGates c) (fun i => nth i bits false) (nth 0 (concat (cOuts c)) 0).

(* Gmw::run throws for a gate of another type (Gmw.cpp:437), and without rows divides by zero
   (C22 notes; the circuit has the AND gate) *)
Definition gmw_runs (n : nat) (c : circuit) : outcome unit :=
  if n =? 0 then UB else throw_if (existsb (fun g => match gType g with GOther => true | _ => false end) (cGates c)).

(* where, Where.cpp:75-105, both parties; mask: party 0's share of the new flags *)
Definition where_run (w : where_st) (mask : list bool) (t0 t1 : table) : outcome (table * table) :=
  do x0 <- where_inputs w t0;
  do x1 <- where_inputs w t1;
  do _ <- gmw_runs (wRows w) (wCir w);
  let xs := map2 xor_rows x0 x1 in
  let fl := map2 N.lxor (tAct t0) (tAct t1) in
  let v := map (where_row (wCir w) xs fl) (seq 0 (wRows w)) in
  Ok (Tab (map N.b2n mask) (tCols t0), Tab (map N.b2n (map2 xorb mask v)) (tCols t1)).
(* with the removal of inactive rows, Where.cpp:107-110 *)
Definition where_extract (w : where_st) (mask : list bool) (c0 c1 : comp) (t0 t1 : table)
  : outcome ((table * list bool) * (table * list bool)) :=
  do o <- where_run w mask t0 t1;
  ex_tables c0 c1 (wRows w) (fst o) (snd o) (fst o) (snd o).
