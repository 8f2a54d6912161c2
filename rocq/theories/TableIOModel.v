(* Model of hex / fromHex (Defines.h, Join/Table.h) and of the table files: writeBin, readBin,
   writeCSV, readCSV (Join/Table.cpp).  Characters are bytes.  An allocation never fails. *)
From Coq Require Import Decimal DecimalN.
From Verif Require Import Base Words KeyMultModel ShuffleModel TableModel.

(* ---------------- hex ---------------- *)

(* one lower case hexadecimal digit (as std::hex prints it, Defines.h:98-112) *)
Definition hex_digit (v : N) : N := (if v <? 10 then 48 + v else 87 + v)%N.
(* hex, Defines.h:98-105: setw(2), setfill('0') *)
Definition hex (d : list N) : list N :=
  concat (map (fun x => [hex_digit (x / 16); hex_digit (x mod 16)]%N) d).

(* the value of a digit, Table.h:22-29, 31-38; a char is signed, so a byte from 128 on is below '0' *)
Definition hex_val (a : N) : outcome N :=
  if ((48 <=? a) && (a <=? 57))%N then Ok (a - 48)%N
  else if ((97 <=? a) && (a <=? 102))%N then Ok (a - 97 + 10)%N
  else if ((65 <=? a) && (a <=? 70))%N then Ok (a - 65 + 10)%N
  else Throw.
(* fromHex(char, char, u8&), Table.h:19-39 *)
Definition from_hex2 (a b : N) : outcome N :=
  do x <- hex_val a; do y <- hex_val b; Ok (N.lor (N.shiftl x 4) y).
(* fromHex(string, span), Table.h:41-50; k: the size of the destination *)
Definition from_hex (data : list N) (k : nat) : outcome (list N) :=
  do _ <- throw_if (negb (length data =? k * 2));
  mapM (fun i => do a <- get data (i * 2); do b <- get data (i * 2 + 1); from_hex2 a b) (seq 0 k).

(* ---------------- binary files ---------------- *)

(* Table::writeBin, Table.cpp:49-67 *)
Definition bin_head (c : column) : list N :=
  store 8 (N.of_nat (length (cName c))) ++ cName c ++ [N.of_nat (cType c)] ++ store 8 (N.of_nat (cBits c)).
(* the header loop, Table.cpp:54-60 *)
Definition bin_heads (l : list column) : list N := concat (map bin_head l).
(* the data loop, Table.cpp:61-66 *)
Definition bin_data (l : list column) : list N := concat (map (fun c => concat (bRows (cDat c))) l).
(* Table::writeBin, Table.cpp:49-67 *)
Definition write_bin (t : table) : list N :=
  store 8 (N.of_nat (length (tCols t))) ++ store 8 (N.of_nat (t_rows t)) ++ bin_heads (tCols t) ++ bin_data (tCols t).

(* in.read(dst, |dst|): a short read leaves the rest of dst, and everything later reads nothing
   (as used in Table.cpp:69-99) *)
Definition read_into (dst s : list N) : list N * list N :=
  (firstn (length dst) s ++ skipn (length s) dst, skipn (length dst) s).
(* reading a u64 that was 0 before *)
Definition read_u64 (s : list N) : N * list N :=
  let r := read_into (repeat 0%N 8) s in (load (fst r), snd r).

(* the header of one column, Table.cpp:77-91.  type is not initialised: using it after a failed
   read is undefined. *)
Definition read_head (s : list N) : outcome (cinfo * list N) :=
  let (nameSize, s) := read_u64 s in
  do _ <- throw_if (512 <? nameSize)%N;
  let (name, s) := read_into (repeat 0%N (N.to_nat nameSize)) s in
  match s with
  | [] => UB
  | type :: s =>
    do _ <- throw_if (3 <? type)%N;
    let (bits, s) := read_u64 s in
    do _ <- throw_if (2 ^ 14 <? bits)%N;
    do i <- mk_info name (N.to_nat type) (N.to_nat bits);
    Ok (i, s)
  end.
(* the header loop, Table.cpp:75-92 *)
Fixpoint read_heads (k : nat) (s : list N) : outcome (list cinfo * list N) :=
  match k with
  | 0 => Ok ([], s)
  | S k => do h <- read_head s; do r <- read_heads k (snd h); Ok (fst h :: fst r, snd r)
  end.
(* the rows of a flat array (Table.cpp:93-98) *)
Definition chunks (c n : nat) (l : list N) : list (list N) := map (fun i => slice l (i * c) c) (seq 0 n).
(* the data loop, Table.cpp:94-98 *)
Fixpoint read_data (n : nat) (l : list cinfo) (s : list N) : list column :=
  match l with
  | [] => []
  | i :: l =>
    let c := div_ceil (iBits i) 8 in
    let (d, s) := read_into (repeat 0%N (n * c)) s in
    Col (iName i) (iType i) (iBits i) (BM (iBits i) c (chunks c n d)) :: read_data n l s
  end.
(* Table::readBin, Table.cpp:69-99; [act] is the mIsActive of the object, which is not touched *)
Definition read_bin (act s : list N) : outcome table :=
  let (cols, s) := read_u64 s in
  let (rows, s) := read_u64 s in
  do h <- read_heads (N.to_nat cols) s;
  Ok (Tab act (read_data (N.to_nat rows) (fst h) (snd h))).

(* ---------------- CSV files ---------------- *)

(* std::to_string of an unsigned number (as used at Table.cpp:103-148 and 159) *)
Fixpoint uint_chars (u : uint) : list N :=
  match u with
  | Nil => []
  | D0 u => 48 :: uint_chars u | D1 u => 49 :: uint_chars u | D2 u => 50 :: uint_chars u
  | D3 u => 51 :: uint_chars u | D4 u => 52 :: uint_chars u | D5 u => 53 :: uint_chars u
  | D6 u => 54 :: uint_chars u | D7 u => 55 :: uint_chars u | D8 u => 56 :: uint_chars u
  | D9 u => 57 :: uint_chars u
  end%N.
(* std::to_string, used at Table.cpp:159 *)
Definition dec (n : N) : list N := uint_chars (N.to_uint n).
(* std::to_string of a signed number (as used at Table.cpp:196) *)
Definition dec_z (z : Z) : list N := if (z <? 0)%Z then 45%N :: dec (Z.to_N (- z)) else dec (Z.to_N z).

(* part of std::stoll, used at Table.cpp:158 *)
Definition is_digit (c : N) : bool := ((48 <=? c) && (c <=? 57))%N.
(* part of std::stoll, used at Table.cpp:158 *)
Definition is_space (c : N) : bool := ((c =? 32) || ((9 <=? c) && (c <=? 13)))%N.
(* the leading digits (part of std::stoll, used at Table.cpp:158) *)
Fixpoint digits (s : list N) : list N :=
  match s with c :: s => if is_digit c then c :: digits s else [] | [] => [] end.
(* part of std::stoll, used at Table.cpp:158 *)
Definition digits_val (l : list N) : N := fold_left (fun a c => (10 * a + (c - 48))%N) l 0%N.
(* part of std::stoll, used at Table.cpp:158 *)
Fixpoint skip_space (s : list N) : list N :=
  match s with c :: t => if is_space c then skip_space t else s | [] => [] end.
(* an optional sign (part of std::stoll, used at Table.cpp:158) *)
Definition sign_split (s : list N) : bool * list N :=
  match s with 45 :: t => (true, t) | 43 :: t => (false, t) | _ => (false, s) end%N.
(* std::stoll: white space, sign, digits; throws when there are none or the value does not fit
   (used at Table.cpp:158-205) *)
Definition stoll (s : list N) : outcome Z :=
  let s := skip_space s in
  let (neg, s) := sign_split s in
  do _ <- throw_if (length (digits s) =? 0);
  let v := Z.of_N (digits_val (digits s)) in
  let z := if neg then (- v)%Z else v in
  do _ <- throw_if ((z <? - 2 ^ 63) || (2 ^ 63 - 1 <? z))%Z;
  Ok z.

(* a u64 from stoll, compared with its own text, Table.cpp:158-160, 162-164, 172-180 *)
Definition csv_u64 (buf : list N) : outcome N :=
  do z <- stoll buf;
  let u := Z.to_N (z mod 2 ^ 64) in
  do _ <- throw_if (negb (bytes_eq buf (dec u)));
  Ok u.
(* an i64, Table.cpp:195-197, 204-206 *)
Definition csv_i64 (buf : list N) : outcome Z :=
  do z <- stoll buf;
  do _ <- throw_if (negb (bytes_eq (dec_z z) buf));
  Ok z.

(* an input stream: the rest, or None once getline has met the end (Table.cpp:154-236) *)
Definition stream := option (list N).
(* part of std::getline, used at Table.cpp:157 *)
Fixpoint split_at (d : N) (s : list N) : list N * option (list N) :=
  match s with
  | [] => ([], None)
  | c :: s => if (c =? d)%N then ([], Some s) else let (a, b) := split_at d s in (c :: a, b)
  end.
(* std::getline(in, buffer, d): when the stream is not good the buffer is not touched (used at Table.cpp:157-232) *)
Definition getline (d : N) (buf : list N) (st : stream) : list N * stream :=
  match st with None => (buf, None) | Some s => split_at d s end.

(* the text of one cell, Table.cpp:113-148; c: the column, r: the row's bytes *)
Definition i64_of (u : N) : Z := if (u <? 2 ^ 63)%N then Z.of_N u else (Z.of_N u - 2 ^ 64)%Z.
(* a C string cell, Table.cpp:113-148 *)
Fixpoint until0 (r : list N) : list N := match r with c :: r => if (c =? 0)%N then [] else c :: until0 r | [] => [] end.
(* Table.cpp:113-148 *)
Definition csv_cell (c : column) (r : list N) : outcome (list N) :=
  match cType c with
  | 0 => do _ <- throw_if (64 <? cBits c); Ok (dec_z (i64_of (load (firstn 8 r))) ++ [32])%N
  | 1 => do x <- get r 0; Ok (dec (N.land x 1) ++ [32])%N
  | 2 => do _ <- throw_if (existsb (N.eqb 59) r);
         do _ <- throw_if (existsb (fun x => negb (x =? 0)%N) (skipn (length (until0 r)) r));
         Ok (until0 r ++ [59])%N
  | 3 => Ok (hex r ++ [32])%N
  | _ => Throw
  end.
(* Table::writeCSV, Table.cpp:101-152 *)
Definition csv_head (c : column) : list N :=
  (cName c ++ [32] ++ dec (N.of_nat (cType c)) ++ [32] ++ dec (N.of_nat (cBits c)) ++ [10])%N.
(* a row of Table::writeCSV, Table.cpp:110-151 *)
Definition csv_row (l : list column) (i : nat) : outcome (list N) :=
  do cells <- mapM (fun c => do r <- get (bRows (cDat c)) i; csv_cell c r) l;
  Ok (concat cells ++ [10])%N.
(* Table::writeCSV, Table.cpp:101-152 *)
Definition write_csv (t : table) : outcome (list N) :=
  do rows <- mapM (csv_row (tCols t)) (seq 0 (t_rows t));
  Ok (dec (N.of_nat (length (tCols t))) ++ [32] ++ dec (N.of_nat (t_rows t)) ++ [10] ++
      concat (map csv_head (tCols t)) ++ concat rows)%N.

(* one column of the header, Table.cpp:169-183 *)
Definition csv_read_head (buf : list N) (st : stream) : outcome (cinfo * (list N * stream)) :=
  let (name, st) := getline 32 [] st in
  let (buf, st) := getline 32 buf st in
  do type <- csv_u64 buf;
  do _ <- throw_if (3 <? type)%N;
  let (buf, st) := getline 10 buf st in
  do size <- csv_u64 buf;
  do i <- mk_info name (N.to_nat type) (N.to_nat size);
  Ok (i, (buf, st)).
(* the header loop of readCSV, Table.cpp:168-184 *)
Fixpoint csv_read_heads (k : nat) (buf : list N) (st : stream) : outcome (list cinfo * (list N * stream)) :=
  match k with
  | 0 => Ok ([], (buf, st))
  | S k => do h <- csv_read_head buf st; do r <- csv_read_heads k (fst (snd h)) (snd (snd h)); Ok (fst h :: fst r, snd r)
  end.
(* one cell of w bytes, zero before, Table.cpp:190-230 *)
Definition csv_read_cell (i : cinfo) (buf : list N) (st : stream) : outcome (list N * (list N * stream)) :=
  let w := div_ceil (iBits i) 8 in
  match iType i with
  | 0 => do _ <- throw_if (64 <? iBits i);
         let (buf, st) := getline 32 buf st in
         do v <- csv_i64 buf;
         Ok (firstn w (store 8 (Z.to_N (v mod 2 ^ 64))), (buf, st))
  | 1 => let (buf, st) := getline 32 buf st in
         do v <- csv_i64 buf;
         do _ <- throw_if (1 <? v)%Z;
         do r <- set (repeat 0%N w) 0 (Z.to_N (v mod 2 ^ 8));
         Ok (r, (buf, st))
  | 2 => let (buf, st) := getline 59 buf st in
         do _ <- throw_if (w <? length buf);
         Ok (buf ++ repeat 0%N (w - length buf), (buf, st))
  | 3 => let (buf, st) := getline 32 buf st in
         do r <- from_hex buf w;
         Ok (r, (buf, st))
  | _ => Throw
  end.
(* the cells of a row, Table.cpp:189-231 *)
Fixpoint csv_read_cells (l : list cinfo) (buf : list N) (st : stream) : outcome (list (list N) * (list N * stream)) :=
  match l with
  | [] => Ok ([], (buf, st))
  | i :: l => do c <- csv_read_cell i buf st; do r <- csv_read_cells l (fst (snd c)) (snd (snd c)); Ok (fst c :: fst r, snd r)
  end.
(* the rows, Table.cpp:186-235 *)
Fixpoint csv_read_rows (n : nat) (l : list cinfo) (buf : list N) (st : stream) : outcome (list (list (list N))) :=
  match n with
  | 0 => Ok []
  | S n => do r <- csv_read_cells l buf st;
           let (buf, st) := getline 10 (fst (snd r)) (snd (snd r)) in
           do _ <- throw_if (negb (length buf =? 0));
           do m <- csv_read_rows n l buf st;
           Ok (fst r :: m)
  end.
(* Table::readCSV, Table.cpp:154-236; mIsActive is not touched.  Column j's row i is cell j of line i. *)
Definition read_csv (act s : list N) : outcome table :=
  let (buf, st) := getline 32 [] (Some s) in
  do cols <- csv_u64 buf;
  let (buf, st) := getline 10 buf st in
  do rows <- csv_u64 buf;
  do h <- csv_read_heads (N.to_nat cols) buf st;
  do m <- csv_read_rows (N.to_nat rows) (fst h) (fst (snd h)) (snd (snd h));
  Ok (Tab act (map (fun ji => Col (iName (snd ji)) (iType (snd ji)) (iBits (snd ji))
        (BM (iBits (snd ji)) (div_ceil (iBits (snd ji)) 8) (map (fun line => nth (fst ji) line []) m)))
        (combine (seq 0 (length (fst h))) (fst h)))).
