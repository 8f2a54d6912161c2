(* A group by whose output is opened to one party, and what that party sees of both. *)
From Verif Require Import Base Words PermModel KeyMultModel RadixModel RadixSpec TableModel TableSpec OmJoinModel OmJoinSpec GroupByModel GroupBySpec JoinRunModel GroupByRunModel GroupByMsgModel GroupByMsgSpec TableOpenModel.

(* party 0 (b = true) or party 1 calls revealLocal on its output, the other revealRemote: its view of the group by (C80), the messages and the table *)
Definition gb_see_open (b : bool) (empty : outcome unit) (y : gb_tr * cir_msgs) :=
  let (t0, t1) := gtOut (fst y) in
  do ms <- open_remote empty (if b then t1 else t0); do o <- open_local empty (if b then t0 else t1) ms; Ok (gb_see b y, ms, fst o).
(* the group by as it is opened: all rows, the first active one of every key with the flag 1, every row with the sums and
   the number of the rows from it on with its key and flag *)
Definition gb_table (n : nat) (q0 q1 : gb_query) : table :=
  let G := gb_keys q0 q1 in let A := gb_act q0 q1 in
  Tab (map (fun i => N.b2n (gb_leader G A i)) (seq 0 n)) (gb_cols (gb_rest n G A) (seq 0 n) q0 q1).
(* as for C79, with columns of some width *)
Definition gb_fine (enc : list N -> list N) (n kb : nat) (q0 q1 : gb_query) : Prop :=
  (forall i, i < n -> (le_num (nth i (gb_keys q0 q1) []) < 2 ^ N.of_nat kb)%N) /\ gb_told n kb (gb_keys q0 q1) (gb_act q0 q1) enc /\
  NoDup (cName (gKey q0) :: map (fun s => cName (snd s)) (gAvg q0) ++ [[67; 111; 117; 110; 116]%N]) /\ 0 < cBits (gKey q0) /\ Forall (fun s => 0 < cBits (snd s)) (gAvg q0).
