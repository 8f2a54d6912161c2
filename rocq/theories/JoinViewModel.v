(* What each party sees in a whole join, OmJoin.cpp:485-606.  Here the sort and the composed permutation are the
   real protocols; the circuits (Gmw, AggTree) are still represented by what was proved about them: they return
   fresh shares, of which party 0's are its own randomness. *)
From Verif Require Import Base Words PermModel PermCorModel PermViewModel KeyMultModel ShuffleModel BitInjModel RadixModel SortViewModel GenPermViewModel GmwModel GmwSpec AggModel TableModel TableIOModel OmJoinModel.

(* ---- ComposedPerm::validate ---- *)
(* both parties' validate, ComposedPerm.h:92-108 with PermCorrelation.cpp:6-34: party 0's receiver sends its
   matrices to party 1's sender, which checks them, then the other way round *)
Definition comp_validate (c0 c1 : comp) : outcome unit :=
  do _ <- cor_validate (cpS c1) (dat (crA (cpR c0))) (dat (crB (cpR c0)));
  cor_validate (cpS c0) (dat (crA (cpR c1))) (dat (crB (cpR c1))).
(* what parties 0 and 1 receive in it: mA and mB of the other one's receiver (PermCorrelation.cpp:6-10, 20-23) *)
Definition comp_validate_msgs (c0 c1 : comp) : (list N * list N) * (list N * list N) :=
  ((dat (crA (cpR c1)), dat (crB (cpR c1))), (dat (crA (cpR c0)), dat (crB (cpR c0)))).

(* ---- between the two permutations ---- *)
(* the shares of the control bits as Gmw returns them, getControlBits, OmJoin.cpp:113-139; as om_control *)
Definition om_control_v (bits off : nat) (mask : list bool) (d : list (list N) * list (list N)) : outcome (list bool * list bool) :=
  let size := div_ceil bits 8 in
  let n := length (fst d) in
  do c <- control_circuit bits;
  do s0 <- skeys off size (fst d);
  do s1 <- skeys off size (snd d);
  let k := xor_rows s0 s1 in
  Ok (mask, map2 xorb mask (map2 (fun a b => eval (cGates c) (row_env bits a b) (2 * bits)) (firstn n k) (skipn 1 k))).
(* choice.back() of the first row is set to 0, OmJoin.cpp:140-142 *)
Definition om_control_set (o : list bool) : outcome (list N) := set (map N.b2n o) 0 0%N.

(* the randomness of the circuits: party 0's shares of the control bits, the duplicated rows and the flags
   (OmJoin.cpp:560-585) *)
Record join_masks := JM { jmCtrl : list bool; jmDup : list (list N); jmFlag : list bool }.
(* everything that happens after the sort (OmJoin.cpp:543-594): the messages of derandomize, those of the inverse
   apply, the shares of the sorted rows, of the control bits, of the duplicated rows, of the rows with flags, the
   messages of the second apply and the shares of its result *)
Record chain_tr := CTr { ctD : list N * (list N * list nat); ctA : list N * list N; ctZ : list (list N) * list (list N);
  ctC : list bool * list bool; ctU : list (list N) * list (list N); ctF : list (list N) * list (list N);
  ctB : list N * list N; ctW : list (list N) * list (list N) }.

(* OmJoin.cpp:549-592 for n rows of w bytes, given the shares y0, y1 of the sorting permutation; bits and off: width
   and place of the key in a row; flag: the place of the flag *)
Definition join_chain (n w bits flag : nat) (y0 y1 : list N) (d0 d1 : list (list N)) (c : comp * comp) (m : join_masks) : outcome chain_tr :=
  do m1 <- comp_derand_msgs (fst c) (snd c) y0 y1;
  do e <- comp_derand (fst c) (snd c) y0 y1;
  do m2 <- comp_apply_msgs (fst e) (snd e) Inverse (Mat n w (concat d0)) (Mat n w (concat d1));
  do a <- comp_apply (fst e) (snd e) Inverse (Mat n w (concat d0)) (Mat n w (concat d1)) (zmat n w) (zmat n w);
  let '((z0, g0), (z1, g1)) := a in
  let z := (chunks w n (dat z0), chunks w n (dat z1)) in
  do o <- om_control_v bits (flag + 1) (jmCtrl m) z;
  do o0 <- om_control_set (fst o);
  do o1 <- om_control_set (snd o);
  do u <- om_dup w (jmDup m) (o0, o1) z;
  do f <- om_flags flag (jmFlag m) (o0, o1) u;
  do m3 <- comp_apply_msgs g0 g1 Regular (Mat n (flag + 1) (concat (fst f))) (Mat n (flag + 1) (concat (snd f)));
  do b <- comp_apply g0 g1 Regular (Mat n (flag + 1) (concat (fst f))) (Mat n (flag + 1) (concat (snd f))) (zmat n (flag + 1)) (zmat n (flag + 1));
  let '((x0, _), (x1, _)) := b in
  Ok (CTr m1 m2 z o u f m3 (chunks (flag + 1) n (dat x0), chunks (flag + 1) n (dat x1))).

(* ---- the join ---- *)
(* the randomness: of the sort, of the composed permutation, of the circuits (OmJoin.cpp:485-606) *)
Record join_rand := JR { jrSort : radix_round * list ((comp * comp) * radix_round); jrPerm : comp * comp; jrMasks : join_masks }.
(* everything that happens: the sort, the messages of validate, the rest, the tables (OmJoin.cpp:485-606) *)
Record join_tr := JTr { jtSort : round_tr * (list step_tr * (list N * list N)); jtVal : (list N * list N) * (list N * list N);
  jtChain : chain_tr; jtOut : table * table }.

(* the bytes per row requested of mPerm, OmJoin.cpp:458-463 *)
Definition om_perm_bytes (sel : list osel) (keyBits keySize : nat) : nat :=
  (div_ceil (om_data_bits sel keyBits) 8 + 4) + div_ceil (om_data_bits sel keyBits - 1 - keySize) 8.

(* join with its messages, OmJoin.cpp:485-596; as om_join.  L: the digits of the sort have L bits *)
Definition om_join_v (L : nat) (enc : list N -> list N) (q0 q1 : om_query) (rd : join_rand) : outcome join_tr :=
  do k0 <- load_keys enc (qLeft q0) (qRight q0);
  do k1 <- load_keys enc (qLeft q1) (qRight q1);
  let keyBits := bBits k0 in
  let n := bm_n k0 in
  let nL := bm_n (cDat (qLeft q0)) in
  let dataBits := om_data_bits (qSel q0) (cBits (qLeft q0)) in
  let offs := om_offsets (qSel q0) keyBits in
  let flag := left_bits (qSel q0) / 8 in
  do t <- gen_perm_v L n keyBits keyBits n (bCols k0) (concat (bRows k0)) (concat (bRows k1)) (fst (jrSort rd)) (snd (jrSort rd));
  do d0 <- om_concat false nL (qSel q0) k0 offs dataBits;
  do d1 <- om_concat true nL (qSel q1) k1 offs dataBits;
  do _ <- comp_validate (fst (jrPerm rd)) (snd (jrPerm rd));
  do r <- join_chain n (div_ceil dataBits 8) keyBits flag (fst (snd (snd t))) (snd (snd (snd t))) d0 d1 (jrPerm rd) (jrMasks rd);
  do t0 <- om_output nL (flag + 1) (fst (ctW r)) (qSel q0);
  do t1 <- om_output nL (flag + 1) (snd (ctW r)) (qSel q1);
  Ok (JTr t (comp_validate_msgs (fst (jrPerm rd)) (snd (jrPerm rd))) r (t0, t1)).

(* what party 0 sees after the sort: the messages to it and its shares (OmJoin.cpp:549-592) *)
Definition chain_see0 (t : chain_tr) := (fst (ctD t), fst (ctA t), fst (ctZ t), fst (ctC t), fst (ctU t), fst (ctF t), fst (ctB t), fst (ctW t)).
(* the same of party 1 (OmJoin.cpp:549-592) *)
Definition chain_see1 (t : chain_tr) := (snd (ctD t), snd (ctA t), snd (ctZ t), snd (ctC t), snd (ctU t), snd (ctF t), snd (ctB t), snd (ctW t)).
(* what party 0 sees of the sort, with its share of the permutation (RadixSort.cpp:1095-1229) *)
Definition sort_see0 (t : round_tr * (list step_tr * (list N * list N))) := (see0 (fst t), map step_see0 (fst (snd t)), fst (snd (snd t))).
(* the same of party 1 (RadixSort.cpp:1095-1229) *)
Definition sort_see1 (t : round_tr * (list step_tr * (list N * list N))) := (see1 (fst t), map step_see1 (fst (snd t)), snd (snd (snd t))).

(* what the parties see in the whole join (OmJoin.cpp:485-606); without validate the messages of line 546 are left out *)
Definition join_view0 (validate : bool) (L : nat) (enc : list N -> list N) (q0 q1 : om_query) (rd : join_rand) :=
  do t <- om_join_v L enc q0 q1 rd;
  Ok (sort_see0 (jtSort t), (if validate then Some (fst (jtVal t)) else None), chain_see0 (jtChain t), fst (jtOut t)).
(* the same of party 1 (OmJoin.cpp:485-606) *)
Definition join_view1 (validate : bool) (L : nat) (enc : list N -> list N) (q0 q1 : om_query) (rd : join_rand) :=
  do t <- om_join_v L enc q0 q1 rd;
  Ok (sort_see1 (jtSort t), (if validate then Some (snd (jtVal t)) else None), chain_see1 (jtChain t), snd (jtOut t)).
