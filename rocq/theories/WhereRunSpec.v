(* What the statements about Where with the run of its circuit speak of. *)
From Verif Require Import Base GmwModel GmwSpec AggRunModel AggViewModel AggViewSpec TableModel OmJoinSpec ExtractSpec WhereModel WhereSpec WhereRunModel TableOpenModel.

(* shares of a table of n rows with these columns *)
Definition where_in (n : nat) (cols : list cinfo) (x : table * table) : Prop := shared_table n (fst x) (snd x) /\ infos (fst x) = cols.
(* what party 0 (b) or party 1 sees: its output and the messages it gets; r are the correlations of the other party *)
Definition where_see (w : where_st) (lvs : list level) (b : bool) (me ot : tape) (x : table * table) (r : list (list triple)) : outcome (table * list (list (list N))) :=
  do y <- where_msg w lvs (if b then me else with_cor ot r) (if b then with_cor ot r else me) (fst x) (snd x);
  Ok (own b (fst y), got b (snd y)).
(* the table that x shares, with only the active rows that meet the clause still active *)
Definition filtered (n : nat) (cl : clause) (sel : list nat) (x : table * table) : table :=
  Tab (map (fun r => N.b2n (is_active (fst x) (snd x) r && clause_on cl (selected sel (fst x) (snd x) r))) (seq 0 n)) (map2 xor_col (tCols (fst x)) (tCols (snd x))).
(* the output is opened to party 0 (b) or party 1: it calls revealLocal, the other revealRemote; its view of both and the table it gets *)
Definition where_see_open (w : where_st) (lvs : list level) (empty : outcome unit) (b : bool) (me ot : tape) (x : table * table) (r : list (list triple)) :=
  do y <- where_msg w lvs (if b then me else with_cor ot r) (if b then with_cor ot r else me) (fst x) (snd x);
  do ms <- open_remote empty (own (negb b) (fst y));
  do o <- open_local empty (own b (fst y)) ms;
  Ok (own b (fst y), got b (snd y), ms, fst o).
