(* Model of Gmw::run, secure-join/GMW/Gmw.cpp:207-613, and of the circuit helpers of
   secure-join/GMW/Circuit.cpp.  A wire holds a row of N128 blocks (mWords[wire]); blocks are
   N.  The debug mode (mO.mDebug), the memory mapping of the inputs (distinct wires are
   distinct rows here) and the socket scheduling are not modelled: a party is a function of
   its wires, its triples and the messages it receives. *)
From Verif Require Import Base ConvModel.

(* oc::GateType as far as Gmw::run distinguishes it, Gmw.cpp:385-438; GOther stands for the
   remaining types, which throw (437) *)
Inductive gate_type :=
  GCopy | GAnd | GNand | GOr | GnbOr | GNor | GnbAnd | GnaAnd | GXor | GNxor | GOther.

(* oc::BetaGate: mInput[0], mInput[1], mType, mOutput *)
Record gate := Gate { gIn0 : nat; gIn1 : nat; gType : gate_type; gOut : nat }.

(* the gate types sent to multSend/multRecv, Gmw.cpp:391-397 and 447-453 *)
Definition nonlinear (t : gate_type) : bool :=
  match t with
  | GnaAnd | GnbAnd | GAnd | GNand | GNor | GnbOr | GOr => true
  | _ => false
  end.

(* oc::AllOneBlock (used by multSend and multRecv, Gmw.cpp:705-856) *)
Definition all_one : N := N.ones 128.

(* invertA, Gmw.cpp:621-642 (default: throw; only called for nonlinear types) *)
Definition invertA (t : gate_type) : bool :=
  match t with GnaAnd | GOr | GNor | GnbOr => true | _ => false end.
(* invertB, Gmw.cpp:643-664 *)
Definition invertB (t : gate_type) : bool :=
  match t with GnbAnd | GNor | GOr => true | _ => false end.
(* invertC, Gmw.cpp:665-686 *)
Definition invertC (t : gate_type) : bool :=
  match t with GOr | GNand | GnbOr => true | _ => false end.

(* the constant mask of an inversion flag, Gmw.cpp:818-820 *)
Definition imask (b : bool) : N := if b then all_one else 0%N.

(* multSendP1(x, gt, a, u), Gmw.cpp:705-721 *)
Definition send_u (t : gate_type) (a x : list N) : list N :=
  map2 (fun a x => if invertA t then N.lxor (N.lxor a x) all_one else N.lxor a x) a x.
(* multSendP2(y, gt, c, w), Gmw.cpp:723-743 *)
Definition send_w (t : gate_type) (c y : list N) : list N :=
  map2 (fun c y => if invertB t then N.lxor c (N.lxor y all_one) else N.lxor c y) c y.

(* multSend by role, Gmw.cpp:785-803 (role 0 = multSendP1, role 1 = multSendP2) *)
Definition mult_send (role : bool) (t : gate_type) (a c x y : list N) : list N :=
  if role then send_w GAnd c y ++ send_u GAnd a x
  else send_u t a x ++ send_w t c y.

(* multRecvP1(x, z, gt, b, w), Gmw.cpp:745-765 *)
Definition recv_w (t : gate_type) (x b w : list N) : list N :=
  map2 N.lxor (map2 (fun x w => N.land (if invertA t then N.lxor all_one x else x) w) x w) b.
(* multRecvP2(y, z, c, d, u), Gmw.cpp:767-783 *)
Definition recv_u (c d u : list N) : list N := map2 N.lxor (map2 N.land c u) d.

(* multRecv by role, Gmw.cpp:806-856; m is the 2*width blocks read from buffIter *)
Definition mult_recv (role : bool) (w : nat) (t : gate_type) (b c d x y m : list N) : list N :=
  if role then
    let zz := recv_u c d (firstn w m) in
    let zz2 := recv_w GAnd x b (skipn w m) in
    map2 N.lxor (map2 N.lxor zz2 zz) (map2 N.land x y)
  else
    let zz := recv_w t x b (firstn w m) in
    let zz2 := recv_u c d (skipn w m) in
    let z := map2 (fun x y => N.land (N.lxor x (imask (invertA t))) (N.lxor y (imask (invertB t)))) x y in
    map (fun z => N.lxor z (imask (invertC t))) (map2 N.lxor (map2 N.lxor z zz) zz2).

(* ---------------- triples ---------------- *)

(* One position of a BinOle segment: (mMult block, mAdd block). (BinOle, CorGenerator/Correlations.h:153-170) *)
Definition triple := (N * N)%type.

(* a, b, c, d of the current round (Gmw.cpp:284-335) *)
Record quad := Quad { qA : list N; qB : list N; qC : list N; qD : list N }.

(* One pass of the loop body, Gmw.cpp:299-334: `cur` are the spans mult/add, `need` is
   a.size() - j.  Result: the blocks to copy and the advanced spans. *)
Definition load_min (need : nat) (cur : list triple) : nat := Nat.min need (length cur / 2).
(* the copies of one pass, Gmw.cpp:299-334 *)
Definition load_part (role : bool) (m : nat) (cur : list triple) : quad :=
  let h0 := firstn m cur in
  let h1 := firstn m (skipn m cur) in
  if role then Quad (map fst h0) (map snd h0) (map fst h1) (map snd h1)
  else Quad (map fst h1) (map snd h1) (map fst h0) (map snd h0).
(* the parts loaded by consecutive passes, Gmw.cpp:299-334 *)
Definition qapp (p q : quad) : quad :=
  Quad (qA p ++ qA q) (qB p ++ qB q) (qC p ++ qC q) (qD p ++ qD q).

(* The loading loop, Gmw.cpp:284-335.  mult/add persist over the rounds (`cur`), `segs` are
   the segments not yet fetched (get throws when none is left, Request.h:70-71).  With one
   block left over and need > 0 the pass copies nothing and changes nothing: Hang.  Every
   other pass fetches a segment or makes progress; the recursion is on the segments, and
   within a segment at most one pass is needed (min = need, or less than two blocks stay). *)
Fixpoint load (role : bool) (need : nat) (cur : list triple) (segs : list (list triple))
  : outcome (quad * list triple * list (list triple)) :=
  let m := load_min need cur in
  let part := load_part role m cur in
  let cur' := skipn (2 * m) cur in
  if need =? m then Ok (part, cur', segs)
  else if length cur' =? 0 then
    match segs with
    | [] => Throw
    | s :: segs' =>
      do r <- load role (need - m) s segs';
      let '(q, c, ss) := r in Ok (qapp part q, c, ss)
    end
  else Hang.

(* ---------------- one round ---------------- *)

(* batchSize, Gmw.cpp:230 *)
Definition batch_size : nat := 2 ^ 14. (* batchSize, Gmw.cpp:230 *)
(* oc::roundUpTo, used at Gmw.cpp:403, 457; a zero second argument divides by zero *)
Definition round_up (x y : nat) : nat := ((x + y - 1) / y) * y.

(* State of the send loop: wires, j, the buffer (capacity and blocks written so far),
   roundRem, the messages sent so far (Gmw.cpp:351-438). *)
Record sst := SSt { sMem : list (list N); sJ : nat; sCap : nat; sAcc : list N; sRem : nat;
  sMsgs : list (list N) }.

(* buff.resize when empty, Gmw.cpp:401-407 *)
Definition send_alloc (w : nat) (s : sst) : outcome sst :=
  if (sCap s =? 0) && negb (sRem s =? 0) then
    if w =? 0 then UB else
    let m := round_up (Nat.min batch_size (sRem s)) (2 * w) in
    if sRem s <? m then UB (* roundRem would wrap *)
    else Ok (SSt (sMem s) (sJ s) m [] (sRem s - m) (sMsgs s))
  else Ok s.

(* body of the send loop, Gmw.cpp:352-438; writing past the buffer is UB *)
Definition send_gate (role : bool) (w : nat) (q : quad) (g : gate) (s : sst) : outcome sst :=
  do x <- get (sMem s) (gIn0 g);
  do y <- get (sMem s) (gIn1 g);
  match gType g with
  | GCopy => do mem <- set (sMem s) (gOut g) x;
    Ok (SSt mem (sJ s) (sCap s) (sAcc s) (sRem s) (sMsgs s))
  | GXor => do mem <- set (sMem s) (gOut g) (map2 N.lxor x y);
    Ok (SSt mem (sJ s) (sCap s) (sAcc s) (sRem s) (sMsgs s))
  | GNxor =>
    let z := map2 N.lxor x y in
    do mem <- set (sMem s) (gOut g) (if role then map (fun z => N.lxor z all_one) z else z);
    Ok (SSt mem (sJ s) (sCap s) (sAcc s) (sRem s) (sMsgs s))
  | GOther => Throw
  | t =>
    do s <- send_alloc w s;
    do a <- readN (qA q) (sJ s) w;
    do c <- readN (qC q) (sJ s) w;
    let acc := sAcc s ++ mult_send role t a c x y in
    if sCap s <? length acc then UB
    else if length acc =? sCap s
    then Ok (SSt (sMem s) (sJ s + w) 0 [] (sRem s) (sMsgs s ++ [acc]))
    else Ok (SSt (sMem s) (sJ s + w) (sCap s) acc (sRem s) (sMsgs s))
  end.

(* the send loop, Gmw.cpp:352-438 *)
Fixpoint send_gates (role : bool) (w : nat) (q : quad) (gs : list gate) (s : sst) : outcome sst :=
  match gs with
  | [] => Ok s
  | g :: gs' => do s <- send_gate role w q g s; send_gates role w q gs' s
  end.

(* State of the receive loop, Gmw.cpp:441-479: wires, j, the unread part of the buffer,
   roundRem, the messages not yet received. *)
Record rst := RSt { rMem : list (list N); rJ : nat; rBuf : list N; rRem : nat;
  rMsgs : list (list N) }.

(* Gmw.cpp:455-461: a new buffer is received when the old one is used up.  The buffer
   starts empty (it was moved from by the last send), so "empty and roundRem" and "iterator
   at the end" coincide with: no unread block. *)
Definition recv_fill (w : nat) (s : rst) : outcome rst :=
  match rBuf s with
  | [] =>
    if w =? 0 then UB else
    let m := round_up (Nat.min batch_size (rRem s)) (2 * w) in
    if rRem s <? m then UB
    else
      do r <- recv_n m (rMsgs s);
      let '(buf, msgs) := r in Ok (RSt (rMem s) (rJ s) buf (rRem s - m) msgs)
  | _ => Ok s
  end.

(* body of the receive loop, Gmw.cpp:445-478 *)
Definition recv_gate (role : bool) (w : nat) (q : quad) (g : gate) (s : rst) : outcome rst :=
  if nonlinear (gType g) then
    do s <- recv_fill w s;
    do x <- get (rMem s) (gIn0 g);
    do y <- get (rMem s) (gIn1 g);
    do b <- readN (qB q) (rJ s) w;
    do c <- readN (qC q) (rJ s) w;
    do d <- readN (qD q) (rJ s) w;
    do m <- readN (rBuf s) 0 (2 * w);
    do mem <- set (rMem s) (gOut g) (mult_recv role w (gType g) b c d x y m);
    Ok (RSt mem (rJ s + w) (skipn (2 * w) (rBuf s)) (rRem s) (rMsgs s))
  else Ok s.

(* the receive loop, Gmw.cpp:445-478 *)
Fixpoint recv_gates (role : bool) (w : nat) (q : quad) (gs : list gate) (s : rst) : outcome rst :=
  match gs with
  | [] => Ok s
  | g :: gs' => do s <- recv_gate role w q g s; recv_gates role w q gs' s
  end.

(* A round up to the messages, Gmw.cpp:255-438.  A level is its gates and the entry of
   mLevelAndCounts.  The assert of line 440 is checked: its failure is UB. *)
Definition level := (list gate * nat)%type.
(* the state of Gmw::run between rounds, Gmw.cpp:255-480 *)
Definition pst := (list (list N) * list triple * list (list triple))%type. (* wires, mult/add, segments *)

(* the send half of a round, Gmw.cpp:255-438 *)
Definition round_send (role : bool) (w : nat) (lv : level) (p : pst)
  : outcome (list (list N) * quad * list triple * list (list triple) * list (list N)) :=
  let '(mem, cur, segs) := p in
  do l <- load role (w * snd lv) cur segs;
  let '(q, cur, segs) := l in
  do s <- send_gates role w q (fst lv) (SSt mem 0 0 [] (w * snd lv * 2) []);
  if (sRem s =? 0) && (sCap s =? 0) then Ok (sMem s, q, cur, segs, sMsgs s) else UB.

(* The rest of the round, Gmw.cpp:441-482; the assert of line 481 is checked, and a message
   left unread would be received as part of the next round: Throw. *)
Definition round_recv (role : bool) (w : nat) (lv : level) (mem : list (list N)) (q : quad)
  (msgs : list (list N)) : outcome (list (list N)) :=
  do s <- recv_gates role w q (fst lv) (RSt mem 0 [] (w * snd lv * 2) msgs);
  if rRem s =? 0 then
    match rMsgs s with [] => Ok (rMem s) | _ => Throw end
  else UB.

(* Both parties through one round; also returns the messages of role 0 and of role 1. *)
Definition round2 (w : nat) (lv : level) (p0 p1 : pst)
  : outcome (pst * pst * (list (list N) * list (list N))) :=
  do s0 <- round_send false w lv p0;
  do s1 <- round_send true w lv p1;
  let '(mem0, q0, cur0, segs0, msg0) := s0 in
  let '(mem1, q1, cur1, segs1, msg1) := s1 in
  do m0 <- round_recv false w lv mem0 q0 msg1;
  do m1 <- round_recv true w lv mem1 q1 msg0;
  Ok ((m0, cur0, segs0), (m1, cur1, segs1), (msg0, msg1)).

(* all rounds, Gmw.cpp:255-613; the transcript is the list of the rounds' messages *)
Fixpoint rounds2 (w : nat) (lvs : list level) (p0 p1 : pst)
  : outcome (pst * pst * list (list (list N) * list (list N))) :=
  match lvs with
  | [] => Ok (p0, p1, [])
  | lv :: lvs' =>
    do r <- round2 w lv p0 p1;
    let '(p0, p1, tr) := r in
    do rs <- rounds2 w lvs' p0 p1;
    let '(p0, p1, trs) := rs in Ok (p0, p1, tr :: trs)
  end.

(* Gmw::run of both parties: wires of both parties after finalizeMapping, and the segments
   of both requests; throws when there are no gates (234-235). *)
Definition gmw_run (w : nat) (lvs : list level) (mem0 mem1 : list (list N))
  (segs0 segs1 : list (list triple)) :=
  if length (concat (map fst lvs)) =? 0 then Throw
  else rounds2 w lvs (mem0, [], segs0) (mem1, [], segs1).

(* ---------------- Circuit.cpp ---------------- *)

(* Building a circuit with cryptoTools: a wire carries an inversion flag (addInvert toggles
   it), addGate folds the flags of its inputs into the gate type and leaves the output
   unflagged.  cryptoTools is not in /repo; this is the documented behaviour for the And
   gates isZeroCircuit uses. (as used in Circuit.cpp:6-49) *)
Definition fold_and (fa fb : bool) : gate_type :=
  match fa, fb with
  | false, false => GAnd
  | true, false => GnaAnd
  | false, true => GnbAnd
  | true, true => GNor
  end.
(* as used in Circuit.cpp:6-49 *)
Definition bcir := (list bool * list gate)%type. (* flags per wire, gates so far *)
(* addGate, used at Circuit.cpp:37 *)
Definition add_and (a b out : nat) (s : bcir) : outcome bcir :=
  let '(fl, gs) := s in
  do fa <- get fl a;
  do fb <- get fl b;
  do fl' <- set fl out false;
  Ok (fl', gs ++ [Gate a b (fold_and fa fb) out]).
(* addInvert (addInvert, used at Circuit.cpp:6-49) *)
Definition add_inv (a : nat) (s : bcir) : outcome bcir :=
  let '(fl, gs) := s in
  do f <- get fl a;
  do fl' <- set fl a (negb f);
  Ok (fl', gs).

(* inner loop of isZeroCircuit, Circuit.cpp:25-39: i, i + 2*step, ... while i + step < bits *)
Fixpoint zero_inner (fuel bits step i : nat) (s : bcir) : outcome bcir :=
  match fuel with
  | 0 => Hang
  | S k =>
    if i + step <? bits then
      do s <- add_and i (i + step) i s;
      zero_inner k bits step (i + step * 2) s
    else Ok s
  end.
(* outer loop, Circuit.cpp:21-42 *)
Fixpoint zero_outer (fuel bits step : nat) (s : bcir) : outcome bcir :=
  match fuel with
  | 0 => Hang
  | S k =>
    if step <? bits then
      do s <- zero_inner (bits + 1) bits step 0 s;
      zero_outer k bits (step * 2) s
    else Ok s
  end.
(* isZeroCircuit, Circuit.cpp:6-49: the gates and the flags; the output is wire 0 *)
Definition is_zero_circuit (bits : nat) : outcome bcir :=
  do s <- forN 0 bits add_inv (repeat false bits, []);
  zero_outer (bits + 1) bits 1 s.

(* oc::BetaCircuit as far as evaluate uses it: mWireCount, mInputs, mOutputs, mGates.
   Inversion flags are not modelled here (all wires unflagged). (used at GMW/Circuit.cpp:85-145) *)
Record circuit := Circuit { cWires : nat; cIns : list (list nat); cOuts : list (list nat);
  cGates : list gate }.

(* the size checks of evaluate, Circuit.cpp:87-110 *)
Definition same_shape (a b : list (list nat)) : bool :=
  (length a =? length b) && forallb (fun p => length (fst p) =? length (snd p)) (combine a b).

(* wires[dst[i]] = src[i], Circuit.cpp:118-125 *)
Fixpoint assign (tbl : list nat) (dst src : list nat) : outcome (list nat) :=
  match dst, src with
  | d :: ds, s :: ss => do t <- set tbl d s; assign t ds ss
  | _, _ => Ok tbl
  end.

(* a gate rewired through the table, Circuit.cpp:130-138; addCopy appends a copy gate whose
   second input is ignored *)
Definition inline_gate (tbl : list nat) (g : gate) : outcome gate :=
  do a <- get tbl (gIn0 g);
  do b <- get tbl (gIn1 g);
  do o <- get tbl (gOut g);
  match gType g with
  | GCopy => Ok (Gate a a GCopy o)
  | t => Ok (Gate a b t o)
  end.

(* a loop that may fail, used for the loops of Circuit.cpp:85-145 *)
Fixpoint mapO {A B} (f : A -> outcome B) (l : list A) : outcome (list B) :=
  match l with
  | [] => Ok []
  | a :: l' => do b <- f a; do r <- mapO f l'; Ok (b :: r)
  end.

(* evaluate, Circuit.cpp:85-139.  The new temporary wires are numbered from the parent's
   wire count on (addTempWireBundle).  When the inputs and outputs outnumber the wires,
   tempCount wraps around and the allocation of 2^64 - k wires throws.  The entries of
   `wires` not written stay at the default wire, here the out-of-range index that makes
   every use UB. *)
Definition evaluate (parent cir : circuit) (ins outs : list (list nat)) : outcome circuit :=
  do _ <- throw_if (negb (same_shape (cIns cir) ins));
  do _ <- throw_if (negb (same_shape (cOuts cir) outs));
  let used := length (concat ins) + length (concat outs) in
  do _ <- throw_if (cWires cir <? used);
  let temps := cWires cir - used in
  let total := cWires parent + temps in
  let tbl := repeat total (cWires cir) in
  do tbl <- assign tbl (concat (cIns cir)) (concat ins);
  do tbl <- assign tbl (concat (cOuts cir)) (concat outs);
  do tbl <- assign tbl (seq used temps) (seq (cWires parent) temps);
  do gs <- mapO (inline_gate tbl) (cGates cir);
  Ok (Circuit total (cIns parent) (cOuts parent) (cGates parent ++ gs)).
