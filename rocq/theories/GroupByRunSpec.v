(* What a group by with the runs of its circuits needs. *)
From Verif Require Import Base GmwModel GmwSpec AggModel AggCirModel AggCirSpec AggCirRun OmJoinModel GroupByModel JoinRunModel JoinRunSpec GroupByRunModel.

(* the library's circuits: a multiplexer of k bits and an adder *)
Definition gb_lib_ok (k : nat) (gl : gb_lib) : Prop := multiplexer_ok k (glMux gl) /\ adder_ok (glAdd gl).
(* the levels list the gates of the circuits of a group by that adds fields of the sizes ws and compares keys of bits bits *)
Definition gb_levels_fit (gl : gb_lib) (ws : list nat) (bits : nat) (jl : join_levels) : Prop :=
  let k := fold_right Nat.add 0 ws in
  let add := add_circuit (glAdd gl) ws in
  lists_levels (control_circuit bits) (jlCtrl jl) /\ lists_levels (upstream_cir add (glMux gl) k Suffix) (jlUp jl) /\
  lists_levels (downstream_cir add k Suffix) (jlDown jl) /\ lists_levels (leaf_cir add (glMux gl) k Suffix) (jlLeaf jl) /\
  levels_of flag_circuit (jlFlag jl).
