(* Group by with the runs of its circuits, with everything the parties hold on the way; GroupBy.cpp:332-441. *)
From Verif Require Import Base Words PermModel KeyMultModel ShuffleModel ShuffleSpec RadixModel RadixSpec GmwModel GmwSpec GmwIoModel GmwIoSpec AggModel AggCirModel AggTwoModel AggRunModel AggViewModel
  TableModel TableOpsSpec OmJoinModel GroupByModel JoinRunModel GroupByRunModel.

(* the shares of both parties: the sorted rows (data, GroupBy.cpp:386-389), the control bytes (407-408), the sums (temp,
   413), the flags (417-420), the rows permuted back (temp, 436-438), the tables (441) *)
Record gb_tr := GbT { gtSort : list (list N) * list (list N); gtCtrl : list N * list N; gtSum : list (list N) * list (list N);
  gtFlag : list N * list N; gtBack : list (list N) * list (list N); gtOut : table * table }.

(* groupBy, GroupBy.cpp:332-441; as gb_run_cir, with the shares on the way *)
Definition gb_run_tr (gl : gb_lib) (enc : list N -> list N) (q0 q1 : gb_query) (sm um : list (list N)) (jl : join_levels) (jt : join_tapes)
  : outcome (gb_tr * cir_msgs) :=
  do k0 <- gb_load enc q0;
  do k1 <- gb_load enc q1;
  let w := gb_width q0 in
  let kb := cBits (gKey q0) in
  let g := div_ceil kb 8 in
  let kc := div_ceil (gb_key_size q0) 8 in
  let offs := gb_offsets q0 in
  do p <- om_sort k0 k1;
  do d0 <- gb_concat false q0 k0 offs;
  do d1 <- gb_concat true q1 k1 offs;
  do d <- om_perm Inverse p sm (d0, d1);
  do g0 <- gb_cut w g (fst d);
  do g1 <- gb_cut w g (snd d);
  do c0 <- gb_cut (w + g) kc (fst d);
  do c1 <- gb_cut (w + g) kc (snd d);
  do f0 <- gb_bits (w + g + kc) (fst d);
  do f1 <- gb_bits (w + g + kc) (snd d);
  do o <- control_run (gb_key_size q0) 0 (jlCtrl jl) (jtpCtrl jt) (c0, c1);
  do o0 <- set (fst (fst o)) 0 0%N;
  do o1 <- set (snd (fst o)) 0 0%N;
  do a <- sum_run gl (gb_sizes q0) w jl jt (concat d0) (concat d1) (o0, o1) d;
  do fl <- gb_flags_run (jlFlag jl) (jtpFlag jt) (o0, o1) f0 f1;
  do e0 <- gb_concat2 w kb (fst (fst a)) g0 (fst (fst fl));
  do e1 <- gb_concat2 w kb (snd (fst a)) g1 (snd (fst fl));
  do e <- om_perm Regular p um (e0, e1);
  do t0 <- gb_output q0 (fst e);
  do t1 <- gb_output q1 (snd e);
  Ok (GbT d (o0, o1) (fst a) (fst fl) e (t0, t1), (snd o, snd a, snd fl)).
