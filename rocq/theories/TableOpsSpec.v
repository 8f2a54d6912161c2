(* Specification of the plaintext join and average. *)
From Coq Require Import Sorted.
From Verif Require Import Base PermSpec ShuffleModel ShuffleSpec RadixSpec TableModel TableSpec.

Definition row_eq (x y : list N) : bool := if list_eq_dec N.eq_dec x y then true else false.
(* the first row equal to x *)
Fixpoint first_eq (l : list (list N)) (x : list N) : option nat :=
  match l with
  | [] => None
  | y :: l => if row_eq y x then Some 0 else option_map S (first_eq l x)
  end.

Definition key (c : column) (i : nat) : list N := nth i (bRows (cDat c)) [].
(* p lists the rows of c in stable increasing order of their numbers *)
Definition order_of (n : nat) (c : column) (p : list nat) : Prop :=
  is_perm n p /\ StronglySorted (fun i j => (le_num (key c i) < le_num (key c j))%N \/ (le_num (key c i) = le_num (key c j) /\ i < j)) p.

(* a row of the join: right row i of the select column s, when l has the key *)
Definition join_row (l r : column) (rt : nat) (s : nat * column) (i : nat) : list N :=
  match first_eq (bRows (cDat l)) (key r i) with
  | Some j => if fst s =? rt then key (snd s) i else key (snd s) j
  | None => repeat 0%N (bCols (cDat (snd s)))
  end.
Definition join_flag (l r : column) (i : nat) : N :=
  match first_eq (bRows (cDat l)) (key r i) with Some _ => 1%N | None => 0%N end.
(* some repeated key of l is below some key of r *)
Definition low_duplicate (nl nr : nat) (l r : column) : Prop :=
  exists j j' i, j < nl /\ j' < nl /\ j <> j' /\ i < nr /\ key l j = key l j' /\ (le_num (key l j) < le_num (key r i))%N.

(* ---- average ---- *)

(* the rows with the same key as row i, and whether i is the first of them *)
Definition group (n : nat) (c : column) (i : nat) : list nat := filter (fun j => row_eq (key c j) (key c i)) (seq 0 n).
Definition is_leader (c : column) (i : nat) : bool :=
  match first_eq (bRows (cDat c)) (key c i) with Some j => j =? i | None => false end.
Definition total (f : nat -> N) (l : list nat) : N := fold_right (fun j s => (f j + s)%N) 0%N l.
(* the w low bytes of x *)
Fixpoint le_bytes (w : nat) (x : N) : list N :=
  match w with 0 => [] | S w => (x mod 256)%N :: le_bytes w (x / 256)%N end.

(* what the code adds for row j of a: the bits of the width, moved to the top of the bytes *)
Definition addend (a : column) (j : nat) : N :=
  (le_num (key a j) mod 2 ^ N.of_nat (cBits a) * 2 ^ N.of_nat (div_ceil (cBits a) 8 * 8 - cBits a))%N.
Definition flag_of (fl : list N) (i : nat) : N := match fl with [] => 1%N | _ => nth i fl 0%N end.
(* the columns of the result are whole bytes *)
Definition byte_col (name : list N) (type bytes : nat) (rows : list (list N)) : column :=
  Col name type (bytes * 8) (BM (bytes * 8) bytes rows).
Definition avg_row (fl : list N) (g : column) (w : nat) (v : nat -> list N) (i : nat) : list N :=
  if is_leader g i && negb (flag_of fl i =? 0)%N then v i else repeat 0%N w.
Definition avg_table (n : nat) (fl : list N) (g : column) (avgs : list column) : table :=
  Tab (map (fun i => if is_leader g i then flag_of fl i else 0%N) (seq 0 n))
    (byte_col (cName g) (cType g) (bCols (cDat g)) (map (avg_row fl g (bCols (cDat g)) (key g)) (seq 0 n))
     :: map (fun a => byte_col (cName a) (cType a) (bCols (cDat a))
               (map (avg_row fl g (bCols (cDat a)) (fun i => le_bytes (bCols (cDat a)) (total (addend a) (group n g i)))) (seq 0 n))) avgs
     ++ [byte_col [67; 111; 117; 110; 116]%N 0 8 (map (avg_row fl g 8 (fun i => le_bytes 8 (N.of_nat (length (group n g i))))) (seq 0 n))]).

(* the table the columns come from, with those of l permuted *)
Definition col0 : column := Col [] 0 0 (BM 0 0 []).
Definition perm_rows (p : list nat) (c : column) : column :=
  Col (cName c) (cType c) (cBits c) (BM (bCols (cDat c) * 8) (bCols (cDat c)) (pick [] p (bRows (cDat c)))).
Definition left_behind (p l : list nat) (t : table) : table :=
  Tab (tAct t) (map (fun i => let c := nth i (tCols t) col0 in if existsb (Nat.eqb i) l then perm_rows p c else c) (seq 0 (length (tCols t)))).
