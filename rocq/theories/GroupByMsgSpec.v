(* What the statements about the messages of a group by speak of. *)
From Verif Require Import Base Words PermModel KeyMultModel ShuffleModel ShuffleSpec GmwModel GmwSpec GmwPrivSpec AggModel AggRunModel AggViewModel AggViewSpec TableModel TableSpec OmJoinModel GroupByModel JoinViewModel JoinRunModel JoinRunSpec JoinMsgSpec GroupByMsgModel.

(* what party 0 (true) or party 1 (false) sees: the messages of the circuits and all its shares.  Which shares of the
   sorted and of the permuted rows it gets is chosen by the sort and the permutations (see C70 for their messages). *)
Definition gb_see (b : bool) (x : gb_tr * cir_msgs) :=
  (cir_got b (snd x), own b (gtSort (fst x)), own b (gtCtrl (fst x)), own b (gtSum (fst x)), own b (gtFlag (fst x)), own b (gtBack (fst x)), own b (gtOut (fst x))).
(* the randomness: party 0's shares of the sorted rows and of the rows permuted back, the other party's correlations *)
Notation gb_coins := ((list (list N) * list (list N)) * cors)%type.
Definition gb_coins_ok (n : nat) (q : gb_query) (me : side) (x : gb_coins) : Prop :=
  rows_ok n (gb_width q + div_ceil (cBits (gKey q)) 8 + div_ceil (gb_key_size q) 8 + 1) (fst (fst x)) /\
  rows_ok n (gb_width q + div_ceil (cBits (gKey q)) 8 + 1) (snd (fst x)) /\ side_fits me (snd x).
