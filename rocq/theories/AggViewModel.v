(* The aggregation tree of two parties with everything they send each other: the only messages of
   AggTree::apply are those of its Gmw runs (AggTree.cpp:150-175; the runs are at 339, 592, 893). *)
From Verif Require Import Base GmwModel GmwIoModel GmwIoSpec AggModel AggCirModel AggTwoModel AggRunModel.

(* what is exchanged in one Gmw run: per round of layers of the circuit what party 0 sends and what
   party 1 sends, GMW/Gmw.cpp:419, 460 (with mDebug off) *)
Notation messages := (list (list (list N) * list (list N))).

(* run of both parties as GmwIoModel has it, Gmw.cpp:207-613, with the messages *)
Definition gmw_exec_msg (lvs : list level) junk0 junk1 (s0 s1 : list (list triple)) (g0 g1 : gmw) : outcome ((gmw * gmw) * messages) :=
  do g0 <- finalize junk0 g0;
  do g1 <- finalize junk1 g1;
  do m0 <- load_wires g0;
  do m1 <- load_wires g1;
  do r <- gmw_run (gW g0) lvs m0 m1 s0 s1;
  do g0 <- store_wires (fst (fst (fst (fst r)))) g0;
  do g1 <- store_wires (fst (fst (snd (fst r)))) g1;
  Ok ((g0, g1), snd r).

(* a run on lanes with its messages; AggTree.cpp:339, 592, 893 *)
Notation mrun := (list lane_in -> list lane_in -> outcome ((list lane_in * list lane_in) * messages)).
(* one run of both parties on lanes, as gmw_lanes of AggRunModel; AggTree.cpp:310-339, 555-592, 857-898 *)
Definition gmw_lanes_msg (mapped : bool) (n : nat) (c : circuit) (lvs : list level) (t0 t1 : tape) : mrun := fun x0 x1 =>
  do p0 <- prepare (tpJunk t0) (tpPast t0) (lane_inputs t0 c x0) (lane_outputs mapped n c) (gmw_init n (cWires c) (cIns c) (cOuts c));
  do p1 <- prepare (tpJunk t1) (tpPast t1) (lane_inputs t1 c x1) (lane_outputs mapped n c) (gmw_init n (cWires c) (cIns c) (cOuts c));
  do h <- gmw_exec_msg lvs (tpJunk2 t0) (tpJunk2 t1) (tpCor t0) (tpCor t1) (fst p0) (fst p1);
  do y0 <- lanes_back mapped t0 n c (snd p0) (fst (fst h));
  do y1 <- lanes_back mapped t1 n c (snd p1) (snd (fst h));
  Ok ((y0, y1), snd h).

(* A step of both parties around a run: each puts something into it from what it holds (send) and
   goes on with what comes out of it (recv); the bodies of the loops at AggTree.cpp:310-371 and
   545-734, and 842-932 *)
Definition exchange {P Q : Type} (send : P -> outcome (list lane_in)) (recv : P -> list lane_in -> outcome Q) (run : mrun) (s : P * P) : outcome ((Q * Q) * messages) :=
  do x0 <- send (fst s); do x1 <- send (snd s);
  do y <- run x0 x1;
  do p0 <- recv (fst s) (fst (fst y)); do p1 <- recv (snd s) (snd (fst y));
  Ok ((p0, p1), snd y).
(* a loop of such steps, one run for each, AggTree.cpp:310, 545 *)
Fixpoint steps {P R : Type} (body : nat -> R -> P -> outcome (P * messages)) (i : nat) (rs : list R) (s : P) : outcome (P * list messages) :=
  match rs with
  | [] => Ok (s, [])
  | r :: rs => do y <- body i r s; do z <- steps body (i + 1) rs (fst y); Ok (fst z, snd y :: snd z)
  end.

Section View.
Context (zero : list bool) (ty : agg_type) (sh : shape).
(* what a party holds: its loaded leaves and, on the way up, the levels it has built, AggTree.cpp:297-305 *)
Notation leaves := (@split (list bool) * @split (list bool))%type.
Notation pup := (leaves * (side * side))%type.
(* on the way down also the levels, AggTree.cpp:519-539 *)
Notation pdown := (leaves * ((list (@split (list bool)) * list (@split (list bool))) * (dside * dside)))%type.

(* one level up for both parties, AggTree.cpp:310-371 *)
Definition up_msg (lvl : nat) (run : mrun) (s : pup * pup) : outcome ((pup * pup) * messages) :=
  exchange (fun p : pup => up_send ty sh lvl (snd p)) (fun p y => do q <- up_recv zero ty sh lvl (snd p) y; Ok (fst p, q)) run s.
(* one level down, the i-th from the top, AggTree.cpp:545-734 *)
Definition down_msg (i : nat) (run : mrun) (s : pdown * pdown) : outcome ((pdown * pdown) * messages) :=
  let cLvl := length (sSizes sh) - 1 - i - 1 in
  exchange (fun p : pdown => down_send ty sh (fst (snd p)) cLvl (snd (snd p)))
    (fun p y => do q <- down_recv zero ty sh (fst (snd p)) cLvl (snd (snd p)) y; Ok (fst p, (fst (snd p), q))) run s.
(* the leaves, AggTree.cpp:842-932 *)
Definition leaf_msg (run : mrun) (s : pdown * pdown) : outcome ((list (list bool) * list (list bool)) * messages) :=
  exchange (fun p : pdown => leaf_send ty sh (fst p) (snd (snd p)))
    (fun p y => leaf_rows zero (sN sh) (lane_out 0 y) (lane_out 1 y)) run s.
(* the top of the tree, AggTree.cpp:165-166 *)
Definition turn (p : pup) : pdown := (fst p, ((fst (fst (snd p)), fst (snd (snd p))), down_start (snd p))).

(* upstream, downstream and computeLeaf after loading, with a run for every level in the order
   in which they are used, AggTree.cpp:150-175 *)
Definition tree_msg (ups downs : list mrun) (leaf : mrun) (s : pup * pup)
    : outcome ((list (list bool) * list (list bool)) * (list messages * list messages * messages)) :=
  do u <- steps up_msg 0 ups s;
  do d <- steps down_msg 0 downs (turn (fst (fst u)), turn (snd (fst u)));
  do l <- leaf_msg leaf (fst d);
  Ok (fst l, (snd u, snd d, snd l)).
End View.

(* AggTree::apply with its Gmw runs and its messages, AggTree.cpp:150-175; up, down: for every level,
   in the order of use, what the party brings into its run *)
Definition agg_msg (ty : agg_type) (zero : list bool) (cu cd cl : circuit) (lu ld ll : list level)
    (up0 up1 dn0 dn1 : list tape) (lf0 lf1 : tape) (src0 src1 : list (list bool)) (ctrl0 ctrl1 : list bool)
    : outcome ((list (list bool) * list (list bool)) * (list messages * list messages * messages)) :=
  do sh <- tree_sizes (length src0);
  let top := length (sSizes sh) - 1 in
  let sz := fun lvl => nth lvl (sSizes sh) 0 / 2 in
  do _ <- throw_if (negb (length src0 =? length ctrl0));
  do _ <- throw_if (negb (length src1 =? length ctrl1));
  do l0 <- two_load zero ty sh src0 ctrl0;
  do l1 <- two_load zero ty sh src1 ctrl1;
  tree_msg zero ty sh
    (map (fun p => gmw_lanes_msg true (sz (fst p)) cu lu (fst (snd p)) (snd (snd p))) (combine (seq 0 top) (combine up0 up1)))
    (map (fun p => gmw_lanes_msg true (sz (top - fst p - 1)) cd ld (fst (snd p)) (snd (snd p))) (combine (seq 0 top) (combine dn0 dn1)))
    (gmw_lanes_msg false (sN16 sh / 2) cl ll lf0 lf1) (l0, l1).
