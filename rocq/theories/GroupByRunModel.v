(* Group by with the runs of its circuits: the control bits, the sums and the flags are computed here by Gmw and by the
   aggregation tree, with all their messages; GroupBy.cpp:201-244, 300-318, 407-420, 489-557.  The sort and the two
   permutations are as in gb_run: party 0's share of their result is an arbitrary mask. *)
From Verif Require Import Base Words PermModel KeyMultModel ShuffleModel ShuffleSpec RadixModel RadixSpec GmwModel GmwSpec GmwIoModel GmwIoSpec AggModel AggCirModel AggTwoModel AggRunModel AggViewModel
  TableModel TableOpsSpec OmJoinModel GroupByModel JoinRunModel.

(* what the circuits take from the library: the multiplexer of the tree (AggTree.cpp:256) and the adder of getAddCircuit
   (GroupBy.cpp:489-526), see AggCirModel *)
Record gb_lib := GLib { glMux : multiplexer; glAdd : adder }.

(* mAggTree.apply(data, controlBits, .., temp), GroupBy.cpp:413, with getAddCircuit (312-313) on the fields of the sizes
   ws; as gb_agg.  A row's value are its first bits (AggTree/Level.h:166-187), a control bit is the byte of the row
   (195-206). *)
Definition sum_run (gl : gb_lib) (ws : list nat) (w : nat) (jl : join_levels) (jt : join_tapes) (old0 old1 : list N) (ctrl : list N * list N) (d : list (list N) * list (list N))
  : outcome ((list (list N) * list (list N)) * (list messages * list messages * messages)) :=
  let k := fold_right Nat.add 0 ws in
  let ls := div_ceil k 8 in
  do v0 <- mapM (fun r => readN r 0 ls) (fst d);
  do v1 <- mapM (fun r => readN r 0 ls) (snd d);
  do cu <- upstream_cir (add_circuit (glAdd gl) ws) (glMux gl) k Suffix;
  do cd <- downstream_cir (add_circuit (glAdd gl) ws) k Suffix;
  do cl <- leaf_cir (add_circuit (glAdd gl) ws) (glMux gl) k Suffix;
  do r <- agg_msg Suffix (repeat false k) cu cd cl (jlUp jl) (jlDown jl) (jlLeaf jl) (fst (jtpUp jt)) (snd (jtpUp jt)) (fst (jtpDown jt)) (snd (jtpDown jt))
    (fst (jtpLeaf jt)) (snd (jtpLeaf jt)) (map (row_bits k) v0) (map (row_bits k) v1) (map N.odd (fst ctrl)) (map N.odd (snd ctrl));
  Ok ((gb_leaf w ls old0 (map (bits_row ls) (fst (fst r))), gb_leaf w ls old1 (map (bits_row ls) (snd (fst r)))), snd r).

(* updateActiveFlag, GroupBy.cpp:201-216, with the circuit of 219-244 (315-316): the flag bytes.  f0, f1: actFlag, whose
   bytes extractKeyInfo sets to 0 or 1 (31-32) *)
Definition gb_flags_run (lvs : list level) (t : tape * tape) (ctrl : list N * list N) (f0 f1 : list bool) : outcome ((list N * list N) * messages) :=
  let one := map (fun x : N => [x]) in
  let bit := map (fun b => [N.b2n b]) in
  do r <- gmw_rows (length f0) flag_circuit lvs 1 (fst t) (snd t) [one (fst ctrl); bit f0] [one (snd ctrl); bit f1];
  Ok ((map (hd 0%N) (fst (fst r)), map (hd 0%N) (snd (fst r))), snd r).

(* groupBy, GroupBy.cpp:332-441; as gb_run.  sm, um: party 0's shares of the sorted rows and of the rows permuted back *)
Definition gb_run_cir (gl : gb_lib) (enc : list N -> list N) (q0 q1 : gb_query) (sm um : list (list N)) (jl : join_levels) (jt : join_tapes)
  : outcome ((table * table) * cir_msgs) :=
  do k0 <- gb_load enc q0;
  do k1 <- gb_load enc q1;
  let w := gb_width q0 in
  let kb := cBits (gKey q0) in
  let g := div_ceil kb 8 in
  let kc := div_ceil (gb_key_size q0) 8 in
  let offs := gb_offsets q0 in
  do p <- om_sort k0 k1;
  do d0 <- gb_concat false q0 k0 offs;
  do d1 <- gb_concat true q1 k1 offs;
  do d <- om_perm Inverse p sm (d0, d1);
  do g0 <- gb_cut w g (fst d);
  do g1 <- gb_cut w g (snd d);
  do c0 <- gb_cut (w + g) kc (fst d);
  do c1 <- gb_cut (w + g) kc (snd d);
  do f0 <- gb_bits (w + g + kc) (fst d);
  do f1 <- gb_bits (w + g + kc) (snd d);
  do o <- control_run (gb_key_size q0) 0 (jlCtrl jl) (jtpCtrl jt) (c0, c1);
  do o0 <- set (fst (fst o)) 0 0%N;
  do o1 <- set (snd (fst o)) 0 0%N;
  do a <- sum_run gl (gb_sizes q0) w jl jt (concat d0) (concat d1) (o0, o1) d;
  do fl <- gb_flags_run (jlFlag jl) (jtpFlag jt) (o0, o1) f0 f1;
  do e0 <- gb_concat2 w kb (fst (fst a)) g0 (fst (fst fl));
  do e1 <- gb_concat2 w kb (snd (fst a)) g1 (snd (fst fl));
  do e <- om_perm Regular p um (e0, e1);
  do t0 <- gb_output q0 (fst e);
  do t1 <- gb_output q1 (snd e);
  Ok ((t0, t1), (snd o, snd a, snd fl)).
