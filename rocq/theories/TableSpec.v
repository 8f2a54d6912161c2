(* Specification of trimming, sharing and the plain table operations. *)
From Verif Require Import Base PermSpec ShuffleModel ShuffleSpec RadixSpec TableModel.

(* a matrix of n rows with c bytes each *)
Definition rows_ok (n c : nat) (m : list (list N)) : Prop :=
  length m = n /\ Forall (fun r => length r = c /\ bytes r) m.
(* a BinMatrix as resize leaves it *)
Definition bm_ok (m : bmat) : Prop :=
  rows_ok (bm_n m) (bCols m) (bRows m) /\ bCols m = div_ceil (bBits m) 8.

(* r' is r with the bits from [bits] on cleared *)
Definition trim_rel (bits : nat) (r r' : list N) : Prop :=
  length r' = length r /\ bytes r' /\ forall j, sbit r' j = (j <? bits) && sbit r j.
(* no bit from [bits] on is set *)
Definition trimmed (bits : nat) (r : list N) : Prop := forall j, bits <= j -> sbit r j = false.
(* a and b agree on the first bits *)
Definition agree (bits : nat) (a b : list N) : Prop := forall j, j < bits -> sbit a j = sbit b j.

(* a column of n rows *)
Definition col_ok (n : nat) (c : column) : Prop :=
  bm_ok (cDat c) /\ bm_n (cDat c) = n /\ cBits c = bBits (cDat c) /\ cType c <= 3 /\
  (cType c = 2 -> bBits (cDat c) mod 8 = 0).
(* a table of n rows, with or without flags *)
Definition t_ok (n : nat) (t : table) : Prop :=
  t_rows t = n /\ Forall (col_ok n) (tCols t) /\ (tAct t = [] \/ length (tAct t) = n).

(* the elements whose flag is 1 *)
Definition keep {A} (fl : list N) (l : list A) : list A :=
  map snd (filter (fun p => (fst p =? 1)%N) (combine fl l)).
(* all of them when there are no flags *)
Definition active {A} (fl : list N) (l : list A) : list A :=
  match fl with [] => l | _ => keep fl l end.

(* c' has the name, type and width of c, and these rows up to padding *)
Definition col_is (c c' : column) (rows : list (list N)) : Prop :=
  cName c' = cName c /\ cType c' = cType c /\ cBits c' = cBits c /\ bBits (cDat c') = bBits (cDat c) /\
  bCols (cDat c') = bCols (cDat c) /\ Forall2 (trim_rel (bBits (cDat c))) rows (bRows (cDat c')).

(* the row numbers of p, in order, of l *)
Definition pick {A} (d : A) (p : list nat) (l : list A) : list A := map (fun i => nth i l d) p.

(* lexicographic order *)
Fixpoint lexlt (a b : list N) : Prop :=
  match a, b with
  | x :: a, y :: b => (x < y)%N \/ (x = y /\ lexlt a b)
  | _, _ => False
  end.
(* the numbers in row i, one per column *)
Definition row_keys (t : table) (i : nat) : list N :=
  map (fun c => le_num (nth i (bRows (cDat c)) [])) (tCols t).

(* c with other rows *)
Definition with_rows (c : column) (r : list (list N)) : column :=
  Col (cName c) (cType c) (cBits c) (BM (bBits (cDat c)) (bCols (cDat c)) r).
(* the same names, types and widths *)
Definition same_info (a b : column) : Prop :=
  cName a = cName b /\ cType a = cType b /\ cBits a = cBits b.
