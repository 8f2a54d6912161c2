(* Model of secure-join/TableOps/WhereParser.h and WhereParser.cpp.  The builders of oc::BetaLibrary
   (external) are kept as operations on wires with the function they are documented to compute; they
   are called with bundles of one size that is not 0, any other call is taken as undefined.
   addConst and addConstBundle make new wires.  The prints are left out. *)
From Verif Require Import Base Words KeyMultModel ShuffleModel ShuffleSpec TableModel TableIOModel.

(* the builders and gates a circuit is built of, WhereParser.cpp:174-280 *)
Inductive op :=
| OEq (a b : list nat) (o : nat)
| OInv (o : nat)
| OAnd (a b o : nat) | OOr (a b o : nat) | OXor (a b o : nat)
| OAdd (a b o : list nat)
| OLt (a b : list nat) (o : nat) | OGe (a b : list nat) (o : nat).

(* eq_build, WhereParser.cpp:174: are all bits equal *)
Fixpoint eq_bits (a b : list bool) : bool :=
  match a, b with
  | x :: a, y :: b => Bool.eqb x y && eq_bits a b
  | _, _ => true
  end.
(* add_build for two's complement, WhereParser.cpp:251: the carry out of the top is dropped *)
Fixpoint add_bits (c : bool) (a b : list bool) : list bool :=
  match a, b with
  | x :: a, y :: b => xorb (xorb x y) c :: add_bits (if c then x || y else x && y) a b
  | _, _ => []
  end.
(* lessThan_build for two's complement, WhereParser.cpp:278; lt: the comparison of the bits below; the
   top bit is the sign *)
Fixpoint lt_bits (lt : bool) (a b : list bool) : bool :=
  match a, b with
  | [x], [y] => if xorb x y then x else lt
  | x :: a, y :: b => lt_bits (if xorb x y then y else lt) a b
  | _, _ => lt
  end.

(* evaluation of the circuit (external, oc::BetaCircuit::evaluate): e gives the wires' values; the builders
   called in WhereParser.cpp:174-280 *)
Definition put (e : nat -> bool) (w : nat) (v : bool) : nat -> bool := fun i => if i =? w then v else e i.
(* the same for a bundle, WhereParser.cpp:251 *)
Fixpoint puts (e : nat -> bool) (ws : list nat) (vs : list bool) : nat -> bool :=
  match ws, vs with
  | w :: ws, v :: vs => puts (put e w v) ws vs
  | _, _ => e
  end.
(* one builder, WhereParser.cpp:174-280 *)
Definition do_op (e : nat -> bool) (o : op) : nat -> bool :=
  match o with
  | OEq a b o => put e o (eq_bits (map e a) (map e b))
  | OInv o => put e o (negb (e o))
  | OAnd a b o => put e o (e a && e b)
  | OOr a b o => put e o (e a || e b)
  | OXor a b o => put e o (xorb (e a) (e b))
  | OAdd a b o => puts e o (add_bits false (map e a) (map e b))
  | OLt a b o => put e o (lt_bits false (map e a) (map e b))
  | OGe a b o => put e o (negb (lt_bits false (map e a) (map e b)))
  end.

(* WhBundle, WhereParser.h:54-76 *)
Record whb := WhB { hWires : list nat; hType : nat }.
(* cd while it is built, WhereParser.cpp:49: the number of wires, the constant ones, the operations *)
Record pst := PSt { pNext : nat; pConst : list (nat * bool); pOps : list op }.
(* a call of a builder with cd, WhereParser.cpp:174-280 *)
Definition add_op (s : pst) (o : op) : pst := PSt (pNext s) (pConst s) (pOps s ++ [o]).
(* addTempWireBundle, WhereParser.cpp:171, 247, 249 *)
Definition temps (s : pst) (k : nat) : list nat * pst := (seq (pNext s) k, PSt (pNext s + k) (pConst s) (pOps s)).
(* addConstBundle, WhereParser.cpp:121 *)
Definition consts (s : pst) (v : list bool) : list nat * pst :=
  let ws := seq (pNext s) (length v) in (ws, PSt (pNext s + length v) (pConst s ++ combine ws v) (pOps s)).

(* getBundle, WhereParser.h:81-102: types 0 Int, 1 Boolean, 2 String; others are not extended *)
Definition get_bundle (b : whb) (size : nat) (s : pst) : outcome (list nat * pst) :=
  let k := size - length (hWires b) in
  match hType b with
  | 0 => match hWires b with
         | [] => if k =? 0 then Ok ([], s) else UB
         | w :: _ => Ok (hWires b ++ repeat (last (hWires b) 0) k, s)
         end
  | 1 | 2 => let (ws, s) := consts s (repeat false k) in Ok (hWires b ++ ws, s)
  | _ => Ok (hWires b, s)
  end.

(* ArrGate, WhereParser.h:30-52; ArrGateType, 16-26: 1 =, 2 !=, 3 and, 4 or, 5 +, 6 <, 7 >=, 8 xor *)
Record agate := AGate { aType : nat; aIn0 : nat; aIn1 : nat; aOut : nat }.
(* ArrGate(u64, ..), WhereParser.h:36-43 *)
Definition arr_gate (t a b o : nat) : outcome agate := if t <? 8 then Ok (AGate t a b o) else UB.

(* the result of a comparison, WhereParser.cpp:165-172, 201-208, 266-273 *)
Definition bool_out (last : bool) (out : nat) (s : pst) : nat * pst :=
  if last then (out, s) else let (_, s') := temps s 1 in (pNext s, s').
(* both operands extended, WhereParser.cpp:161-163, 237-239, 261-263 *)
Definition both (a b : whb) (s : pst) : outcome (list nat * list nat * pst) :=
  let size := Nat.max (length (hWires a)) (length (hWires b)) in
  do r <- get_bundle a size s;
  do t <- get_bundle b size (snd r);
  Ok (fst r, fst t, snd t).
(* the precondition of the builders, WhereParser.cpp:174, 251, 278, 280 *)
Definition build_ok (x y : list nat) : outcome unit :=
  if (length x =? length y) && negb (length x =? 0) then Ok tt else UB.

(* the loop body, WhereParser.cpp:141-301; idx = length bs *)
Definition parse_gate (lst : bool) (out : nat) (bs : list whb) (g : agate) (s : pst) : outcome (list whb * pst) :=
  let idx := length bs in
  do _ <- throw_if ((idx <=? aIn0 g) || (idx <=? aIn1 g) || negb (aOut g =? idx));
  do a <- get bs (aIn0 g);
  do b <- get bs (aIn1 g);
  match aType g with
  | 1 | 2 =>
    do p <- both a b s;
    let '(x, y, s) := p in
    do _ <- build_ok x y;
    let (o, s) := bool_out lst out s in
    let s := add_op s (OEq x y o) in
    let s := if aType g =? 2 then add_op s (OInv o) else s in
    Ok (bs ++ [WhB [o] 1], s)
  | 3 | 4 | 8 =>
    do _ <- throw_if (negb (length (hWires a) =? 1) || negb (length (hWires b) =? 1));
    let x := nth 0 (hWires a) 0 in
    let y := nth 0 (hWires b) 0 in
    let (o, s) := bool_out lst out s in
    Ok (bs ++ [WhB [o] 1], add_op s (match aType g with 3 => OAnd x y o | 4 => OOr x y o | _ => OXor x y o end))
  | 5 =>
    do p <- both a b s;
    let '(x, y, s) := p in
    do _ <- throw_if lst;
    do _ <- build_ok x y;
    let (o, s) := temps s (length x) in
    let (_, s) := temps s (length x) in
    Ok (bs ++ [WhB o 0], add_op s (OAdd x y o))
  | 6 | 7 =>
    do _ <- throw_if (negb (hType a =? 0) && negb (hType b =? 0));
    do p <- both a b s;
    let '(x, y, s) := p in
    do _ <- build_ok x y;
    let (o, s) := bool_out lst out s in
    Ok (bs ++ [WhB [o] 1], add_op s (if aType g =? 6 then OLt x y o else OGe x y o))
  | _ => Throw
  end.
(* the loop over the gates, WhereParser.cpp:142-303 *)
Fixpoint parse_gates (out : nat) (bs : list whb) (gs : list agate) (s : pst) : outcome (list whb * pst) :=
  match gs with
  | [] => Ok (bs, s)
  | g :: gs =>
    do r <- parse_gate (match gs with [] => true | _ => false end) out bs g s;
    parse_gates out (fst r) gs (snd r)
  end.

(* std::find_if by name, WhereParser.cpp:57-59 *)
Definition find_col (st : list cinfo) (name : list N) : outcome cinfo :=
  match find (fun c => bytes_eq (iName c) name) st with Some c => Ok c | None => Throw end.
(* the input bundles, WhereParser.cpp:55-62 *)
Fixpoint in_bundles (next : nat) (cs : list cinfo) : list whb :=
  match cs with
  | [] => []
  | c :: cs => WhB (seq next (iBits c)) (iType c) :: in_bundles (next + iBits c) cs
  end.

(* the bits of an i64, WhereParser.cpp:78-79 *)
Definition i64_bits (v : Z) : list bool := map (fun i => Z.testbit v (Z.of_nat i)) (seq 0 64).
(* msb after the loop, WhereParser.cpp:80-82 *)
Fixpoint trim_msb (val : list bool) (msb : nat) : nat :=
  match msb with
  | S (S m as k) => if Bool.eqb (nth k val false) (last val false) then trim_msb val k else msb
  | _ => msb
  end.
(* a literal, WhereParser.cpp:70-116 *)
Definition literal (ty : nat) (s : list N) : outcome (list bool) :=
  match ty with
  | 0 => do v <- stoll s;
         let val := i64_bits v in
         let size := Nat.min (trim_msb val 64 + 1) 64 in
         if Bool.eqb (nth (size - 1) val false) (last val false) then Ok (firstn size val) else UB
  | 1 => if bytes_eq s [49]%N || bytes_eq s [116; 114; 117; 101]%N then Ok [true]
         else if bytes_eq s [48]%N || bytes_eq s [102; 97; 108; 115; 101]%N then Ok [false] else Throw
  | 2 => Ok (row_bits (length s * 8) s)
  | 3 => let k := div_ceil (length s) 2 in
         do d <- from_hex s k;
         Ok (row_bits k d)
  | _ => Throw
  end.
(* the loop over the literals, WhereParser.cpp:70-126 *)
Fixpoint parse_lits (bs : list whb) (lits : list (nat * list N)) (s : pst) : outcome (list whb * pst) :=
  match lits with
  | [] => Ok (bs, s)
  | l :: lits =>
    do v <- literal (fst l) (snd l);
    let (ws, s) := consts s v in
    parse_lits (bs ++ [WhB ws (fst l)]) lits s
  end.

(* the circuit that is returned, WhereParser.cpp:304: the sizes of the inputs, the output wire, the constants and the operations *)
Record pcir := PCir { cSizes : list nat; cOut : nat; cConst : list (nat * bool); cOps : list op }.
(* WhereParser::parse, WhereParser.cpp:42-304 *)
Definition parse (st : list cinfo) (gates : list agate) (ins : list (list N)) (lits : list (list N)) (types : list nat) : outcome pcir :=
  do cs <- mapM (find_col st) ins;
  let out := fold_right (fun c n => iBits c + n) 0 cs in
  let s := PSt (out + 1) [] [] in
  do _ <- throw_if (negb (length lits =? length types));
  do r <- parse_lits (in_bundles 0 cs) (combine types lits) s;
  do r <- parse_gates out (fst r) gates (snd r);
  Ok (PCir (map iBits cs) out (pConst (snd r)) (pOps (snd r))).

(* the evaluation of the circuit: the input wires come first, then the output, WhereParser.cpp:61, 65-66 *)
Definition cir_env (c : pcir) (x : list (list bool)) : nat -> bool :=
  fold_left (fun e k => put e (fst k) (snd k)) (cConst c) (fun i => nth i (concat x) false).
(* its output, WhereParser.cpp:65-66 *)
Definition cir_eval (c : pcir) (x : list (list bool)) : bool := fold_left do_op (cOps c) (cir_env c x) (cOut c).
