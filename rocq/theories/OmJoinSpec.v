(* Specification of the one to many join. *)
From Verif Require Import Base ShuffleModel ShuffleSpec TableModel TableSpec TableOpsSpec OmJoinModel.

(* the rows two parties share *)
Definition shared_rows (a b : column) : list (list N) := xor_rows (bRows (cDat a)) (bRows (cDat b)).

(* the parties' select lists agree, and every column belongs to its table *)
Definition same_sel (s0 s1 : osel) : Prop := oLeft s0 = oLeft s1 /\ same_info (oCol s0) (oCol s1).
Definition sel_ok (nL nR : nat) (s : osel) : Prop := col_ok (if oLeft s then nL else nR) (oCol s).

(* Row r of a selected column: X are the rows of the column, L and R the keys.  A column of the right
   table is unchanged; one of the left table has the row of the first left key equal to the right key,
   and zeros when there is none. *)
Definition om_row (L R : list (list N)) (left : bool) (w : nat) (X : list (list N)) (r : nat) : list N :=
  if left then match first_eq L (nth r R []) with Some j => nth j X [] | None => repeat 0%N w end
  else nth r X [].
Definition om_flag (L R : list (list N)) (r : nat) : N :=
  match first_eq L (nth r R []) with Some _ => 1%N | None => 0%N end.
Definition om_col (nR : nat) (L R : list (list N)) (s0 s1 : osel) : column :=
  with_rows (oCol s0) (map (om_row L R (oLeft s0) (bCols (cDat (oCol s0))) (shared_rows (oCol s0) (oCol s1))) (seq 0 nR)).

(* the columns two tables share *)
Definition xor_col (a b : column) : column := with_rows a (shared_rows a b).
(* t0 and t1 are shares of these flags and columns *)
Definition shares_of (n : nat) (t0 t1 : table) (fl : list N) (cols : list column) : Prop :=
  Forall (col_ok n) (tCols t0) /\ Forall (col_ok n) (tCols t1) /\ Forall2 same_info (tCols t0) (tCols t1) /\
  length (tAct t0) = n /\ length (tAct t1) = n /\
  map2 N.lxor (tAct t0) (tAct t1) = fl /\ map2 xor_col (tCols t0) (tCols t1) = cols.

(* the masks have the sizes of the results *)
Definition om_rand_ok (n cols cols' : nat) (rd : om_rand) : Prop :=
  rows_ok n cols (rSort rd) /\ length (rCtrl rd) = n /\ rows_ok n cols (rDup rd) /\ length (rFlag rd) = n /\
  rows_ok n cols' (rUnsort rd).

(* rows that agree on their low bits are equal *)
Definition faithful (bits : nat) (K : list (list N)) : Prop :=
  forall x y, In x K -> In y K -> agree bits x y -> x = y.

(* the encoder is linear on rows of c bytes, and gives rows of c' bytes *)
Definition linear_enc (c c' : nat) (enc : list N -> list N) : Prop :=
  (forall x, length x = c -> bytes x -> length (enc x) = c' /\ bytes (enc x)) /\
  forall x y, length x = c -> length y = c -> bytes x -> bytes y -> enc (map2 N.lxor x y) = map2 N.lxor (enc x) (enc y).

(* the bits of a key the control circuit looks at, and what it sees of a key *)
Definition key_bits (kb nL nR : nat) : nat := if kb <=? comp_size nL nR then kb else comp_size nL nR.
Definition seen (enc : list N -> list N) (kb nL nR : nat) (x : list N) : list N := if kb <=? comp_size nL nR then x else enc x.
(* different keys among l are told apart by what is compared of them *)
Definition told_apart (enc : list N -> list N) (kb nL nR : nat) (l : list (list N)) : Prop :=
  forall x y, In x l -> In y l -> agree (2 ^ Nat.log2 (key_bits kb nL nR)) (seen enc kb nL nR x) (seen enc kb nL nR y) -> x = y.

(* the parties' queries: key columns of kb bits in tables of nL and nR rows, the same select lists *)
Definition query_ok (nL nR kb : nat) (q : om_query) : Prop :=
  col_ok nL (qLeft q) /\ col_ok nR (qRight q) /\ cBits (qLeft q) = kb /\ cBits (qRight q) = kb /\ Forall (sel_ok nL nR) (qSel q).
Definition queries_ok (nL nR kb : nat) (q0 q1 : om_query) : Prop :=
  query_ok nL nR kb q0 /\ query_ok nL nR kb q1 /\ Forall2 same_sel (qSel q0) (qSel q1).
(* the keys the parties share *)
Definition left_keys (q0 q1 : om_query) : list (list N) := shared_rows (qLeft q0) (qLeft q1).
Definition right_keys (q0 q1 : om_query) : list (list N) := shared_rows (qRight q0) (qRight q1).
(* the bytes of a row of the working matrix: left columns, flag, key *)
Definition om_width (q : om_query) : nat := left_bits (qSel q) / 8 + 1.

(* the right rows whose key is a left key *)
Definition matched (L R : list (list N)) (nR : nat) : list nat :=
  filter (fun r => match first_eq L (nth r R []) with Some _ => true | None => false end) (seq 0 nR).
Definition join_col (nR : nat) (L R : list (list N)) (s0 s1 : osel) : column :=
  with_rows (oCol s0) (map (om_row L R (oLeft s0) (bCols (cDat (oCol s0))) (shared_rows (oCol s0) (oCol s1))) (matched L R nR)).
