(* Model of the circuits of the aggregation tree, gate by gate: upstreamCir, downstreamCir and
   leafCircuit of secure-join/AggTree/AggTree.cpp, and of the operators OmJoin::getDupCircuit and
   GroupBy::getAddCircuit.
   A circuit under construction is a `circuit` of GmwModel; the methods of oc::BetaCircuit used
   here (addInputBundle, addOutputBundle, addTempWireBundle, addGate, addCopy) take the next free
   wires and append gates.  The operator and multiplex_build (BetaLibrary) are parameters.  The
   printing (cir << ...) and the test of the wire flags (AggTree.cpp:231-242, never true for input
   wires) are left out. *)
From Verif Require Import Base GmwModel AggModel.

(* a circuit without wires (the declarations oc::BetaCircuit cir; AggTree.cpp:183, 377, 744) *)
Definition cir_new : circuit := Circuit 0 [] [] [].
(* addInputBundle (BetaCircuit, outside /repo; called at AggTree.cpp:203-206): the next k wires *)
Definition cir_input (k : nat) (c : circuit) : list nat * circuit :=
  (seq (cWires c) k, Circuit (cWires c + k) (cIns c ++ [seq (cWires c) k]) (cOuts c) (cGates c)).
(* addOutputBundle (BetaCircuit, outside /repo; called at AggTree.cpp:217-218) *)
Definition cir_output (k : nat) (c : circuit) : list nat * circuit :=
  (seq (cWires c) k, Circuit (cWires c + k) (cIns c) (cOuts c ++ [seq (cWires c) k]) (cGates c)).
(* addTempWireBundle (BetaCircuit, outside /repo; called at AggTree.cpp:226-227) *)
Definition cir_temp (k : nat) (c : circuit) : list nat * circuit :=
  (seq (cWires c) k, Circuit (cWires c + k) (cIns c) (cOuts c) (cGates c)).
(* addGate (BetaCircuit, outside /repo; called at AggTree.cpp:255) *)
Definition cir_gate (a b : nat) (t : gate_type) (out : nat) (c : circuit) : circuit :=
  Circuit (cWires c) (cIns c) (cOuts c) (cGates c ++ [Gate a b t out]).
(* addCopy of one wire (BetaCircuit, outside /repo; called at OmJoin.cpp:299) *)
Definition cir_copy (a out : nat) (c : circuit) : circuit := cir_gate a a GCopy out c.

(* AggTree::Operator, AggTree.h:47-52: circuit, left, right, out *)
Definition operator : Type := circuit -> list nat -> list nat -> list nat -> outcome circuit.
(* the type of multiplex_build (BetaLibrary, called at AggTree.cpp:254): circuit, ifTrue, ifFalse, choice, out, temp *)
Definition multiplexer : Type := circuit -> list nat -> list nat -> list nat -> list nat -> list nat -> outcome circuit.

(* the loop of a gate per position of the bundle out (AggTree.cpp:450-451) *)
Definition each (n : nat) (f : nat -> circuit -> outcome circuit) (c : circuit) : outcome circuit := forN 0 n f c.

(* OmJoin::getDupCircuit, OmJoin.cpp:290-301 *)
Definition dup_circuit : operator := fun c left right out =>
  each (length left) (fun i c => do a <- get left i; do o <- get out i; Ok (cir_copy a o c)) c.

(* the type of add_build (BetaLibrary, called at GroupBy.cpp:519): circuit, a, b, out, temp *)
Definition adder : Type := circuit -> list nat -> list nat -> list nat -> list nat -> outcome circuit.
(* GroupBy::getAddCircuit, GroupBy.cpp:489-526, for Optimized::Depth (as called at 312); sizes are the
   mSize of the offsets *)
Definition add_circuit (add : adder) (sizes : list nat) : operator := fun c left right out =>
  do s <- forN 0 (length sizes) (fun i (s : nat * circuit) =>
    let '(cur, c) := s in
    do size <- get sizes i;
    do a <- readN left cur size; do b <- readN right cur size; do o <- readN out cur size;
    let '(t, c) := cir_temp (size * 2) c in
    do c <- add c a b o t;
    Ok (cur + size, c)) (0, c);
  Ok (snd s).

(* addCopy of a bundle (BetaCircuit, outside /repo; called at AggTree.cpp:469) *)
Definition cir_copies (src dst : list nat) (c : circuit) : outcome circuit :=
  each (length src) (fun i c => do a <- get src i; do o <- get dst i; Ok (cir_copy a o c)) c.

(* type & Type::Prefix and type & Type::Suffix, Level.h:9-14 *)
Definition has_pre (ty : agg_type) : bool := match ty with Suffix => false | _ => true end.
(* the second of the two tests, Level.h:9-14 *)
Definition has_suf (ty : agg_type) : bool := match ty with Prefix => false | _ => true end.

(* a bundle that is only declared if the flag is set (the if (type & ...) around the declarations,
   AggTree.cpp:201-224, 400-426, 772-785); without the flag the bundle's wires stay undeclared and
   are not used *)
Definition when (b : bool) (add : circuit -> list nat * circuit) (c : circuit) : list nat * circuit :=
  if b then add c else ([], c).

Section Circuits.
Variable op : operator.
Variable mux : multiplexer.

(* upstreamCir, AggTree.cpp:178-281 *)
Definition upstream_cir (bits : nat) (ty : agg_type) : outcome circuit :=
  let c := cir_new in
  let '(leftPreVal, c) := when (has_pre ty) (cir_input bits) c in
  let '(rghtPreVal, c) := when (has_pre ty) (cir_input bits) c in
  let '(leftPreBit, c) := when (has_pre ty) (cir_input 1) c in
  let '(rghtPreBit, c) := when (has_pre ty) (cir_input 1) c in
  let '(leftSufVal, c) := when (has_suf ty) (cir_input bits) c in
  let '(rghtSufVal, c) := when (has_suf ty) (cir_input bits) c in
  let '(leftSufBit, c) := when (has_suf ty) (cir_input 1) c in
  let '(rghtSufBit, c) := when (has_suf ty) (cir_input 1) c in
  let '(prntPreVal, c) := when (has_pre ty) (cir_output bits) c in
  let '(prntPreBit, c) := when (has_pre ty) (cir_output 1) c in
  let '(prntSufVal, c) := when (has_suf ty) (cir_output bits) c in
  let '(prntSufBit, c) := when (has_suf ty) (cir_output 1) c in
  let '(temp1, c) := cir_temp bits c in
  let '(temp2, c) := cir_temp bits c in
  do c <- (if has_pre ty then
    do c <- op c leftPreVal rghtPreVal temp1;
    do c <- mux c temp1 rghtPreVal rghtPreBit prntPreVal temp2;
    do a <- get leftPreBit 0; do b <- get rghtPreBit 0; do o <- get prntPreBit 0;
    Ok (cir_gate a b GAnd o c) else Ok c);
  if has_suf ty then
    do c <- op c leftSufVal rghtSufVal temp1;
    do c <- mux c temp1 leftSufVal leftSufBit prntSufVal temp2;
    do a <- get leftSufBit 0; do b <- get rghtSufBit 0; do o <- get prntSufBit 0;
    Ok (cir_gate a b GAnd o c) else Ok c.

(* the multiplexer written out in downstreamCir, AggTree.cpp:442-465 and 483-506: temp1 holds the
   value for choice = 1 and is overwritten *)
Definition down_mux (c : circuit) (temp1 ifFalse choice out temp2 : list nat) : outcome circuit :=
  do c <- each (length out) (fun i c =>
    do a <- get ifFalse i; do b <- get temp1 i; do o <- get temp2 i; Ok (cir_gate a b GXor o c)) c;
  do c <- each (length out) (fun i c =>
    do a <- get temp2 i; do b <- get choice 0; do o <- get temp1 i; Ok (cir_gate a b GAnd o c)) c;
  each (length out) (fun i c =>
    do a <- get ifFalse i; do b <- get temp1 i; do o <- get out i; Ok (cir_gate a b GXor o c)) c.

(* downstreamCir, AggTree.cpp:375-516 *)
Definition downstream_cir (bits : nat) (ty : agg_type) : outcome circuit :=
  let c := cir_new in
  let '(preLeftVal, c) := when (has_pre ty) (cir_input bits) c in
  let '(preLeftBit, c) := when (has_pre ty) (cir_input 1) c in
  let '(prePrntVal, c) := when (has_pre ty) (cir_input bits) c in
  let '(sufRghtVal, c) := when (has_suf ty) (cir_input bits) c in
  let '(sufRghtBit, c) := when (has_suf ty) (cir_input 1) c in
  let '(sufPrntVal, c) := when (has_suf ty) (cir_input bits) c in
  let '(preLeftOut, c) := when (has_pre ty) (cir_output bits) c in
  let '(preRghtOut, c) := when (has_pre ty) (cir_output bits) c in
  let '(sufLeftOut, c) := when (has_suf ty) (cir_output bits) c in
  let '(sufRghtOut, c) := when (has_suf ty) (cir_output bits) c in
  let '(temp1, c) := cir_temp bits c in
  let '(temp2, c) := cir_temp bits c in
  do c <- (if has_pre ty then
    do c <- op c prePrntVal preLeftVal temp1;
    do c <- down_mux c temp1 preLeftVal preLeftBit preRghtOut temp2;
    cir_copies prePrntVal preLeftOut c else Ok c);
  if has_suf ty then
    do c <- op c sufRghtVal sufPrntVal temp1;
    do c <- down_mux c temp1 sufRghtVal sufRghtBit sufLeftOut temp2;
    cir_copies sufPrntVal sufRghtOut c else Ok c.

(* leafCircuit, AggTree.cpp:740-836 *)
Definition leaf_cir (bits : nat) (ty : agg_type) : outcome circuit :=
  let c := cir_new in
  let '(leftVal, c) := cir_input bits c in
  let '(rghtVal, c) := cir_input bits c in
  let '(leftPreVal, c) := when (has_pre ty) (cir_input bits) c in
  let '(rghtPreVal, c) := when (has_pre ty) (cir_input bits) c in
  let '(leftPreBit, c) := when (has_pre ty) (cir_input 1) c in
  let '(rghtPreBit, c) := when (has_pre ty) (cir_input 1) c in
  let '(leftSufVal, c) := when (has_suf ty) (cir_input bits) c in
  let '(rghtSufVal, c) := when (has_suf ty) (cir_input bits) c in
  let '(leftSufBit, c) := when (has_suf ty) (cir_input 1) c in
  let '(rghtSufBit, c) := when (has_suf ty) (cir_input 1) c in
  let '(leftOut, c) := cir_output bits c in
  let '(rghtOut, c) := cir_output bits c in
  let '(lt1, c) := cir_temp bits c in
  let '(lt2, c) := cir_temp bits c in
  let '(lt3, c) := cir_temp bits c in
  let '(rt1, c) := cir_temp bits c in
  let '(rt2, c) := cir_temp bits c in
  let '(rt3, c) := cir_temp bits c in
  match ty with
  | Prefix =>
    do c <- op c leftPreVal leftVal lt1;
    do c <- op c rghtPreVal rghtVal rt1;
    do c <- mux c lt1 leftVal leftPreBit leftOut lt2;
    mux c rt1 rghtVal rghtPreBit rghtOut rt2
  | Suffix =>
    do c <- op c leftVal leftSufVal lt1;
    do c <- op c rghtVal rghtSufVal rt1;
    do c <- mux c lt1 leftVal leftSufBit leftOut lt2;
    mux c rt1 rghtVal rghtSufBit rghtOut rt2
  | Full =>
    do c <- op c leftPreVal leftVal lt1;
    do c <- op c rghtPreVal rghtVal rt1;
    do c <- mux c lt1 leftVal leftPreBit lt3 lt2;
    do c <- mux c rt1 rghtVal rghtPreBit rt3 rt2;
    do c <- op c lt3 leftSufVal lt1;
    do c <- op c rt3 rghtSufVal rt1;
    do c <- mux c lt1 lt3 leftSufBit leftOut lt2;
    mux c rt1 rt3 rghtSufBit rghtOut rt2
  end.

End Circuits.
