(* Specification of Extract. *)
From Verif Require Import Base PermModel PermSpec PermCorModel PermCorSpec ShuffleSpec TableModel TableSpec OmJoinModel OmJoinSpec.

(* two parties' shares of a table with n rows and a flag for every row *)
Definition shared_table (n : nat) (t0 t1 : table) : Prop :=
  Forall (col_ok n) (tCols t0) /\ Forall (col_ok n) (tCols t1) /\ Forall2 same_info (tCols t0) (tCols t1) /\
  length (tAct t0) = n /\ length (tAct t1) = n.
(* row i is active: the low bits of the flag shares *)
Definition is_active (t0 t1 : table) (i : nat) : bool := N.odd (N.lxor (nth i (tAct t0) 0%N) (nth i (tAct t1) 0%N)).
Definition active_rows (n : nat) (t0 t1 : table) : list nat := filter (is_active t0 t1) (seq 0 n).
(* t0 and t1 are shares, without flags, of these columns *)
Definition plain_shares (m : nat) (t0 t1 : table) (cols : list column) : Prop :=
  Forall (col_ok m) (tCols t0) /\ Forall (col_ok m) (tCols t1) /\ Forall2 same_info (tCols t0) (tCols t1) /\
  tAct t0 = [] /\ tAct t1 = [] /\ map2 xor_col (tCols t0) (tCols t1) = cols.
(* rows q of the columns shared by t0 and t1 *)
Definition picked (q : list nat) (t0 t1 : table) : list column :=
  map2 (fun a b => with_rows a (pick [] q (shared_rows a b))) (tCols t0) (tCols t1).
(* bytes per row, with the flag *)
Definition row_bytes (t : table) : nat := fold_right (fun c s => bCols (cDat c) + s) 1 (tCols t).
(* the output can take the result: it has another number of columns, or the same ones *)
Definition out_fits (t out : table) : Prop := length (tCols out) <> length (tCols t) \/ Forall2 same_info (tCols t) (tCols out).

(* a party's half of the correlations consists of bytes *)
Definition comp_bytes (c : comp) : Prop := bytes (dat (csDelta (cpS c))) /\ bytes (dat (crA (cpR c))) /\ bytes (dat (crB (cpR c))).
(* the flags that are opened *)
Definition opened (c0 c1 : comp) (t0 t1 : table) : list bool := map (is_active t0 t1) (comp_perm c0 c1).
(* two receivers have the same masks in the w bytes of a row from their offset on *)
Definition same_window (n c w : nat) (r r' : cor_r) : Prop :=
  forall i j, i < n -> j < w ->
    cel c (dat (crA r)) i (crOff r + j) = cel c (dat (crA r')) i (crOff r + j) /\
    cel c (dat (crB r)) i (crOff r + j) = cel c (dat (crB r')) i (crOff r + j).
