(* A join whose output is opened to one party, and what that party sees of both. *)
From Verif Require Import Base Words KeyMultModel ExtractSpec RadixModel RadixSpec TableModel TableSpec OmJoinModel OmJoinSpec JoinViewModel JoinPrivSpec JoinRunModel JoinMsgSpec TableOpenModel.

(* party 0 (party 1) calls revealLocal on its output, the other revealRemote: its view of the join (C75), the messages and the table *)
Definition see_open0 (empty : outcome unit) (y : join_tr * cir_msgs) :=
  let (t0, t1) := jtOut (fst y) in do ms <- open_remote empty t1; do o <- open_local empty t0 ms; Ok (run_see0 y, ms, fst o).
Definition see_open1 (empty : outcome unit) (y : join_tr * cir_msgs) :=
  let (t0, t1) := jtOut (fst y) in do ms <- open_remote empty t0; do o <- open_local empty t1 ms; Ok (run_see1 y, ms, fst o).
(* the join as it is opened: all right rows, the flags telling which of them have a left row with the same key *)
Definition join_table (nR : nat) (q0 q1 : om_query) : table :=
  let L := left_keys q0 q1 in let R := right_keys q0 q1 in Tab (map (om_flag L R) (seq 0 nR)) (map2 (om_col nR L R) (qSel q0) (qSel q1)).
(* as for C74: no stray bits in the keys, different keys differ in the bits compared; columns to select, of some width and with different names *)
Definition join_fine (enc : list N -> list N) (kb nL nR : nat) (q0 q1 : om_query) : Prop :=
  Forall (fun x => (le_num x < 2 ^ N.of_nat (key_bits kb nL nR))%N) (all_keys enc kb nL nR q0 q1) /\
  told_apart enc kb nL nR (left_keys q0 q1 ++ right_keys q0 q1) /\
  qSel q0 <> [] /\ NoDup (map (fun s => cName (oCol s)) (qSel q0)) /\ Forall (fun s => 0 < cBits (oCol s)) (qSel q0).
