(* What the statements about opening a table speak of. *)
From Verif Require Import Base Words TableModel TableSpec.

(* what the two shares add up to *)
Definition opened (n : nat) (t0 t1 : table) : table :=
  Tab (match map2 N.lxor (tAct t0) (tAct t1) with [] => repeat 1%N n | a => a end)
    (map2 (fun a b => with_rows a (map2 (map2 N.lxor) (bRows (cDat a)) (bRows (cDat b)))) (tCols t0) (tCols t1)).
(* two tables of n rows with the same columns, of at least one bit, and different names; both with flags or both without *)
Definition openable (n : nat) (t0 t1 : table) : Prop :=
  t_ok n t0 /\ t_ok n t1 /\ Forall2 same_info (tCols t0) (tCols t1) /\ NoDup (map cName (tCols t0)) /\ Forall (fun c => 0 < cBits c) (tCols t0) /\ length (tAct t0) = length (tAct t1).
(* the messages as a function of one's own share and the opened table *)
Definition open_sim (t0 out : table) : list (list N) :=
  map2 (fun a o => concat (map2 (map2 N.lxor) (bRows (cDat a)) (bRows (cDat o)))) (tCols t0) (tCols out) ++
  match tAct t0 with [] => [] | a => [map2 N.lxor a (tAct out)] end.
