(* Model of secure-join/Prf/LowMC.h: the LowMC2 block cipher with its matrix helpers, its
   instantiation and the circuit to_enc_circuit builds.  A std::bitset<n> is a number below 2^n.
   The template parameters numofboxes, blocksize, keysize and rounds are arguments.  The PRNG is a
   stream of bits.  The printing code and writeMatrix (not called) are left out. *)
From Verif Require Import Base GmwModel.

(* the template parameters, LowMC.h:26-34 *)
Record lparams := LP { lpBoxes : nat; lpBits : nat; lpKey : nat; lpRounds : nat }.

(* std::bitset::count (used at LowMC.h:350) *)
Fixpoint pos_count (p : positive) : nat :=
  match p with xH => 1 | xO q => pos_count q | xI q => S (pos_count q) end.
(* std::bitset::count (used at LowMC.h:350) *)
Definition bit_count (x : N) : nat := match x with N0 => 0 | Npos p => pos_count p end.
(* assignment to a bit of a bitset (used at LowMC.h:350, 378, 380, 530, 539, 594) *)
Definition put_bit (x : N) (i : nat) (b : bool) : N :=
  if b then N.setbit x (N.of_nat i) else N.clearbit x (N.of_nat i).
(* reading a bit of a bitset (used at LowMC.h:159, 162, 169, 179, 601, 603, 619, 630, 649, 651, 664) *)
Definition bit_at (x : N) (i : nat) : bool := N.testbit x (N.of_nat i).

(* ---------------- the cipher ---------------- *)

(* Sbox and invSbox, LowMC.h:293-296 *)
Definition sbox : list N := [0; 1; 3; 6; 7; 4; 5; 2]%N.
(* LowMC.h:295-296 *)
Definition inv_sbox : list N := [0; 1; 7; 2; 5; 6; 3; 4]%N.

(* Substitution and invSubstitution, LowMC.h:315-342 *)
Definition substitute (tab : list N) (p : lparams) (msg : N) : outcome N :=
  forN 1 (lpBoxes p) (fun i t =>
    let t := N.land (N.shiftl t 3) (N.ones (N.of_nat (lpBits p))) in
    do v <- get tab (N.to_nat (N.land (N.shiftr msg (N.of_nat (3 * (lpBoxes p - i)))) 7));
    Ok (N.lxor t v)) (N.shiftr msg (N.of_nat (3 * lpBoxes p))).

(* MultiplyWithGF2Matrix, LowMC.h:345-353 *)
Definition mul_mat (bits : nat) (mat : list N) (x : N) : outcome N :=
  forN 0 bits (fun i t => do r <- get mat i; Ok (put_bit t i (Nat.odd (bit_count (N.land x r))))) 0%N.

(* the data members, LowMC.h:49 and 298-309; key is not kept, only its round keys *)
Record lowmc := Low { lmInvertable : bool; lmLin : list (list N); lmInv : list (list N);
  lmConst : list N; lmKeyMat : list (list N); lmKeys : list N }.

(* encrypt, LowMC.h:58-84 *)
Definition lm_encrypt (p : lparams) (l : lowmc) (msg : N) : outcome N :=
  do k0 <- get (lmKeys l) 0;
  forN 1 (lpRounds p) (fun r c =>
    do c <- substitute sbox p c;
    do m <- get (lmLin l) (r - 1);
    do c <- mul_mat (lpBits p) m c;
    do rc <- get (lmConst l) (r - 1);
    do k <- get (lmKeys l) r;
    Ok (N.lxor (N.lxor c rc) k)) (N.lxor msg k0).

(* decrypt, LowMC.h:87-101 *)
Definition lm_decrypt (p : lparams) (l : lowmc) (msg : N) : outcome N :=
  do _ <- throw_if (negb (lmInvertable l));
  do c <- forN 0 (lpRounds p) (fun i c =>
    let r := lpRounds p - i in
    do k <- get (lmKeys l) r;
    do rc <- get (lmConst l) (r - 1);
    do m <- get (lmInv l) (r - 1);
    do c <- mul_mat (lpBits p) m (N.lxor (N.lxor c k) rc);
    substitute inv_sbox p c) msg;
  do k0 <- get (lmKeys l) 0;
  Ok (N.lxor c k0).

(* keyschedule, LowMC.h:355-363 *)
Definition key_schedule (p : lparams) (kms : list (list N)) (key : N) : outcome (list N) :=
  mapO (fun r => do m <- get kms r; mul_mat (lpBits p) m key) (seq 0 (lpRounds p + 1)).

(* set_key, LowMC.h:103-107 *)
Definition set_key (p : lparams) (l : lowmc) (key : N) : outcome lowmc :=
  do ks <- key_schedule p (lmKeyMat l) key;
  Ok (Low (lmInvertable l) (lmLin l) (lmInv l) (lmConst l) (lmKeyMat l) ks).

(* ---------------- matrices ---------------- *)

(* while (r < mat.size() && !mat[r][col]) ++r, LowMC.h:602-605 and 650-653 *)
Fixpoint seek (fuel : nat) (mat : list N) (col r : nat) : nat :=
  match fuel with
  | 0 => r
  | S k =>
    match nth_error mat r with
    | Some x => if bit_at x col then r else seek k mat col (r + 1)
    | None => r
    end
  end.
(* exchanging two rows, LowMC.h:610-615 and 658-660 *)
Definition swap_rows (mat : list N) (i j : nat) : outcome (list N) :=
  do a <- get mat i;
  do b <- get mat j;
  do mat <- set mat i b;
  set mat j a.

(* mat[i] ^= mat[row] and the same on invmat for every i of a range whose bit col is set,
   LowMC.h:618-623 and 629-634 *)
Definition add_rows (lo k row col : nat) (s : list N * list N) : outcome (list N * list N) :=
  forN lo k (fun i s =>
    do x <- get (fst s) i;
    if bit_at x col then
      do p <- get (fst s) row;
      do mat <- set (fst s) i (N.lxor x p);
      do y <- get (snd s) i;
      do q <- get (snd s) row;
      do inv <- set (snd s) i (N.lxor y q);
      Ok (mat, inv)
    else Ok s) s.

(* the first loop of invert_Matrix, LowMC.h:599-625; the state is row, mat and invmat *)
Definition inv_step (col : nat) (s : nat * (list N * list N)) : outcome (nat * (list N * list N)) :=
  let '(row, (mat, inv)) := s in
  do x <- get mat row;
  if bit_at x col then
    do s <- add_rows (row + 1) (length mat - (row + 1)) row col (mat, inv);
    Ok (row + 1, s)
  else
    let r := seek (length mat) mat col (row + 1) in
    if length mat <=? r then Ok s else
    do mat <- swap_rows mat row r;
    do inv <- swap_rows inv row r;
    do s <- add_rows (row + 1) (length mat - (row + 1)) row col (mat, inv);
    Ok (row + 1, s).

(* invert_Matrix, LowMC.h:586-638, for rows of n bits *)
Definition invert_matrix (n : nat) (matrix : list N) : outcome (list N) :=
  do _ <- get matrix 0;
  do inv <- forN 0 n (fun i inv => do x <- get inv i; set inv i (put_bit x i true)) (repeat 0%N n);
  do s <- forN 0 n inv_step (0, (matrix, inv));
  do s <- forN 0 n (fun k s => let col := n - k in add_rows 0 (col - 1) (col - 1) (col - 1) s) (snd s);
  Ok (snd s).

(* the elimination of rank_of_Matrix, LowMC.h:663-665 *)
Definition clear_rows (lo k row col : nat) (mat : list N) : outcome (list N) :=
  forN lo k (fun i mat =>
    do x <- get mat i;
    if bit_at x col then do p <- get mat row; set mat i (N.lxor x p) else Ok mat) mat.

(* the loop of rank_of_Matrix, LowMC.h:648-668: col counts from 0 here; after the break (667) nothing happens *)
Definition rank_step (n : nat) (k : nat) (s : nat * list N) : outcome (nat * list N) :=
  let '(row, mat) := s in
  if row =? n then Ok s else
  let col := n - (k + 1) in
  do x <- get mat row;
  if bit_at x col then
    do mat <- clear_rows (row + 1) (length mat - (row + 1)) row col mat;
    Ok (row + 1, mat)
  else
    let r := seek (length mat) mat col row in
    if length mat <=? r then Ok s else
    do mat <- swap_rows mat row r;
    do mat <- clear_rows (row + 1) (length mat - (row + 1)) row col mat;
    Ok (row + 1, mat).
(* rank_of_Matrix, LowMC.h:640-670 *)
Definition rank_of (n : nat) (matrix : list N) : outcome nat :=
  do _ <- get matrix 0;
  do s <- forN 0 n (rank_step n) (0, matrix);
  Ok (fst s).

(* ---------------- instantiation ---------------- *)

(* getrandblock and getrandkeyblock, LowMC.h:527-541: the bits from position pos of the stream on *)
Definition rand_bits (rng : nat -> bool) (n pos : nat) : N :=
  fold_left (fun t i => put_bit t i (rng (pos + i))) (seq 0 n) 0%N.
(* rows random rows of n bits, LowMC.h:425-427, 443-445, 483-485, 499-501 *)
Definition rand_mat (rng : nat -> bool) (rows n pos : nat) : list N :=
  map (fun i => rand_bits rng n (pos + i * n)) (seq 0 rows).
(* do { ... } while (rank_of_Matrix(mat) is not good), LowMC.h:441-447 and 497-503.  Fuel is the
   number of attempts. *)
Fixpoint pick_mat (good : nat -> bool) (fuel : nat) (rng : nat -> bool) (rows n pos : nat) : outcome (list N * nat) :=
  match fuel with
  | 0 => Hang
  | S k =>
    let mat := rand_mat rng rows n pos in
    do r <- rank_of n mat;
    if good r then Ok (mat, pos + rows * n) else pick_mat good k rng rows n (pos + rows * n)
  end.

(* one byte of a file; at the end of the file c keeps its value (in.read fails); used at
   LowMC.h:376, 385 *)
Definition read_char (s : option N * list N) : option N * list N :=
  match snd s with [] => s | c :: f => (Some c, f) end.
(* loadMatrix, LowMC.h:366-390; c is not initialised at first *)
Definition load_matrix (rows n : nat) (file : list N) : outcome (list N) :=
  do s <- forN 0 rows (fun i s =>
    do s <- forN 0 n (fun j s =>
      let io := read_char (fst s) in
      match fst io with
      | None => UB
      | Some c =>
        if (c =? 48)%N then do x <- get (snd s) i; do m <- set (snd s) i (put_bit x j false); Ok (io, m)
        else if (c =? 49)%N then do x <- get (snd s) i; do m <- set (snd s) i (put_bit x j true); Ok (io, m)
        else Throw
      end) s;
    let io := read_char (fst s) in
    match fst io with
    | None => UB
    | Some c => if (c =? 10)%N then Ok (io, snd s) else Throw
    end) ((None, file), repeat 0%N rows);
  Ok (snd s).

(* one matrix: from the stream, from the file, LowMC.h:421-460 and 479-518.  file is what
   linMtx_r.txt or keyMtx_r.txt contains, if it exists. *)
Definition make_mat (good : nat -> bool) (inv : bool) (fuel : nat) (rng : nat -> bool) (file : option (list N)) (rows n pos : nat)
  : outcome (list N * nat) :=
  if inv then
    match file with
    | None => pick_mat good fuel rng rows n pos
    | Some f =>
      do mat <- load_matrix rows n f;
      do r <- rank_of n mat;
      do _ <- throw_if (negb (good r));
      Ok (mat, pos)
    end
  else Ok (rand_mat rng rows n pos, pos + rows * n).

(* instantiate_LowMC, LowMC.h:411-523; the tests of the rank are at 447, 457, 503 and 513 *)
Definition instantiate (p : lparams) (inv : bool) (fuel : nat) (rng : nat -> bool) (lin_file key_file : nat -> option (list N))
  : outcome lowmc :=
  do s <- forN 0 (lpRounds p) (fun r (s : list (list N) * list (list N) * nat) =>
    let '(ls, is, pos) := s in
    do m <- make_mat (Nat.eqb (lpBits p)) inv fuel rng (lin_file r) (lpBits p) (lpBits p) pos;
    do is <- (if inv then do i <- invert_matrix (lpBits p) (fst m); Ok (is ++ [i]) else Ok is);
    Ok (ls ++ [fst m], is, snd m)) ([], [], 0);
  let '(ls, is, pos) := s in
  let cs := map (fun r => rand_bits rng (lpBits p) (pos + r * lpBits p)) (seq 0 (lpRounds p)) in
  let pos := pos + lpRounds p * lpBits p in
  do s <- forN 0 (lpRounds p + 1) (fun r (s : list (list N) * nat) =>
    do m <- make_mat (Nat.leb (Nat.min (lpBits p) (lpKey p))) inv fuel rng (key_file r) (lpBits p) (lpKey p) (snd s);
    Ok (fst s ++ [fst m], snd m)) ([], pos);
  Ok (Low inv ls is cs (fst s) []).

(* the constructor, LowMC.h:51-56 *)
Definition lm_new (p : lparams) (inv : bool) (fuel : nat) (rng : nat -> bool) (lin_file key_file : nat -> option (list N)) (key : N)
  : outcome lowmc :=
  do l <- instantiate p inv fuel rng lin_file key_file;
  set_key p l key.

(* ---------------- the circuit ---------------- *)

(* addGate for Xor and And: the flags of the inputs are folded into the gate type and the output
   is unflagged; as in GmwModel.add_and (used at LowMC.h:116, 133-147, 165, 171, 188) *)
Definition add_gate (xor : bool) (a b out : nat) (s : bcir) : outcome bcir :=
  let '(fl, gs) := s in
  do fa <- get fl a;
  do fb <- get fl b;
  do fl' <- set fl out false;
  Ok (fl', gs ++ [Gate a b (if xor then (if xorb fa fb then GNxor else GXor) else fold_and fa fb) out]).

(* the wires of to_enc_circuit, LowMC.h:204-222: message, round keys, state, temp, temp2 *)
Definition wKey (p : lparams) (r i : nat) : nat := lpBits p * (1 + r) + i.
(* LowMC.h:219 *)
Definition wState (p : lparams) (i : nat) : nat := lpBits p * (2 + lpRounds p) + i.
(* LowMC.h:221 *)
Definition wTemp (p : lparams) (i : nat) : nat := lpBits p * (3 + lpRounds p) + i.
(* LowMC.h:222 *)
Definition wTemp2 (p : lparams) : nat := lpBits p * (4 + lpRounds p).

(* one box, LowMC.h:124-147 *)
Definition cir_box (p : lparams) (i : nat) (s : bcir) : outcome bcir :=
  let c := wState p (i * 3 + 0) in
  let b := wState p (i * 3 + 1) in
  let a := wState p (i * 3 + 2) in
  let aa := wTemp p (i * 3 + 0) in
  let bb := wTemp p (i * 3 + 1) in
  let cc := wTemp p (i * 3 + 2) in
  let a_b := wTemp2 p in
  do s <- add_gate true a b a_b s;
  do s <- add_gate false b c aa s;
  do s <- add_gate false a c bb s;
  do s <- add_gate false a b cc s;
  do s <- add_gate true cc c cc s;
  do s <- add_gate true a aa a s;
  do s <- add_gate true a_b bb b s;
  add_gate true cc a_b c s.

(* while (row[++j] == 0);  LowMC.h:159-163: the first set bit from position j on; running off the
   row is UB *)
Fixpoint next_one (fuel : nat) (row : N) (j : nat) : outcome nat :=
  match fuel with
  | 0 => UB
  | S k => if bit_at row j then Ok j else next_one k row (j + 1)
  end.

(* one row of the linear layer, LowMC.h:154-173 *)
Definition cir_row (p : lparams) (row : N) (i : nat) (s : bcir) : outcome bcir :=
  do f <- next_one (lpBits p) row 0;
  do g <- next_one (lpBits p - (f + 1)) row (f + 1);
  do s <- add_gate true (wState p f) (wState p g) (wTemp p i) s;
  forN (g + 1) (lpBits p - (g + 1)) (fun j s =>
    if bit_at row j then add_gate true (wTemp p i) (wState p j) (wTemp p i) s else Ok s) s.

(* one round, LowMC.h:119-192 *)
Definition cir_round (p : lparams) (l : lowmc) (r : nat) (s : bcir) : outcome bcir :=
  do s <- forN 0 (lpBoxes p) (cir_box p) s;
  do m <- get (lmLin l) r;
  do s <- forN 0 (lpBits p) (fun i s => do row <- get m i; cir_row p row i s) s;
  do rc <- get (lmConst l) r;
  do s <- forN 0 (lpBits p) (fun i s => if bit_at rc i then add_inv (wTemp p i) s else Ok s) s;
  forN 0 (lpBits p) (fun i s => add_gate true (wTemp p i) (wKey p (r + 1) i) (wState p i) s) s.

(* add_lowmc_gates in to_enc_circuit, LowMC.h:112-226 *)
Definition enc_circuit (p : lparams) (l : lowmc) : outcome bcir :=
  do s <- forN 0 (lpBits p) (fun i s => add_gate true i (wKey p 0 i) (wState p i) s)
            (repeat false (lpBits p * (4 + lpRounds p) + 1), []);
  forN 0 (lpRounds p) (cir_round p l) s.
