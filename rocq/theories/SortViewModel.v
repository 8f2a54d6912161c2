(* What each party of the radix sort sees: the messages of BitInjection.cpp and of RadixSort.cpp.  As in
   RadixModel.v a Gmw run is replaced by what it computes; its output share is what a party sees of it. *)
From Verif Require Import Base Words PermModel PermCorModel PrfModel KeyMultModel BitInjModel RadixModel PermViewModel.

(* bitInjection with its messages, BitInjection.cpp:64-205: the receiver's differences (134) and the
   sender's packed messages (198); otherwise as bit_inject *)
Definition bit_inject_v (rq : bool) (nr nb req : nat) (r c : nat) (d0 d1 : list N) (w : nat)
    (segs0 : list ot_send) (segs1 : list ot_recv) : outcome ((list (list bool) * list (list N)) * (list N * list N)) :=
  do _ <- throw_if (c * 8 <? nb);
  do _ <- throw_if (negb (r =? nr));
  do _ <- throw_if (negb rq);
  do mask <- bi_mask w;
  do _ <- throw_if (req <? r * nb);
  let total := r * nb in
  do x <- bi_recv1 total nb c d1 segs1 0;
  do y <- bi_send total nb c d0 w mask segs0 (map fst x) 0;
  do o1 <- bi_recv2 w mask (map snd x) (snd y);
  Ok ((map fst x, snd y), (fst y, o1)).

(* one direction of hadamardSum with its messages, RadixSort.cpp:73-205: the differences of A (115) and
   the values tt of B (200); otherwise as hs_pair *)
Definition hs_pair_v (rows cols : nat) (fA : list N) (segA : list ot_recv) (fB sB : list N) (segB : list ot_send)
  : outcome ((list (list bool) * list (list N)) * (list N * list N)) :=
  do x <- hs_send1 rows cols fA segA 0;
  do y <- hs_recv rows cols sB fB segB (fst x) 0;
  do a <- hs_send2 rows cols fA (fst y) (snd x) 0;
  Ok ((fst x, fst y), (a, snd y)).

(* everything that happens in one round: the shares of the indicator bits, the messages of the bit
   injection, those of both directions of hadamardSum, the shares of the result (RadixSort.cpp:725-785) *)
Record round_tr := RTr { rvB : list N * list N; rvInj : list (list bool) * list (list N);
  rvP : list (list bool) * list (list N); rvQ : list (list bool) * list (list N); rvOut : list N * list N }.

(* genBitPerm with its messages, RadixSort.cpp:401-550 and 725-785; as gen_val_masks, hadamard_sum and
   gen_bit_perm *)
Definition gen_bit_perm_v (mL mSize L n kc : nat) (k0 k1 : list N) (rd : radix_round) : outcome round_tr :=
  do _ <- throw_if (kc * 8 <? L);
  let L2 := 2 ^ L in
  do _ <- throw_if (negb (L =? mL));
  do _ <- throw_if (negb (n =? mSize));
  do b <- gen_fbin L mSize k0 k1 (rdHot rd);
  do b0 <- pack_fbin L mSize (fst b);
  do b1 <- pack_fbin L mSize (snd b);
  let nb := mSize * 2 ^ mL in
  do f <- bit_inject_v true 1 nb nb 1 (length b0) b0 b1 32 (rdInj0 rd) (rdInj1 rd);
  do s0 <- aggregate_sum 0 L2 (rows_of n L2 (fst (snd f)));
  do s1 <- aggregate_sum 1 L2 (rows_of n L2 (snd (snd f)));
  do p <- hs_pair_v n L2 b0 (h0r (rdHs rd)) b1 (concat s1) (h1s (rdHs rd));
  do q <- hs_pair_v n L2 b1 (h1r (rdHs rd)) b0 (concat s0) (h0s (rdHs rd));
  let a0 := map2 add32 (snd (snd q)) (fst (snd p)) in
  let a1 := map2 add32 (snd (snd p)) (fst (snd q)) in
  let bc := a2b_bits n in
  do _ <- throw_if (negb (a2b_bits mSize =? bc));
  do _ <- throw_if (negb (mSize =? n));
  do _ <- throw_if (negb (length (rdA2b rd) =? n));
  Ok (RTr (b0, b1) (fst f) (fst p) (fst q)
    (rdA2b rd, map2 N.lxor (rdA2b rd) (map2 (fun x y => ((x + y) mod 2 ^ N.of_nat bc)%N) a0 a1))).

(* what party 0 sees of a round: its share of the indicator bits, the differences of the bit injection,
   tt of the first and the differences of the second direction, its share of the result
   (RadixSort.cpp:725-785) *)
Definition see0 (t : round_tr) := (fst (rvB t), fst (rvInj t), snd (rvP t), fst (rvQ t), fst (rvOut t)).
(* the same of party 1 (RadixSort.cpp:725-785) *)
Definition see1 (t : round_tr) := (snd (rvB t), snd (rvInj t), fst (rvP t), snd (rvQ t), snd (rvOut t)).

(* RadixSort.cpp:725-785 *)
Definition round_view0 (L n kc : nat) (k0 k1 : list N) (rd : radix_round) := do t <- gen_bit_perm_v L n L n kc k0 k1 rd; Ok (see0 t).
(* RadixSort.cpp:725-785 *)
Definition round_view1 (L n kc : nat) (k0 k1 : list N) (rd : radix_round) := do t <- gen_bit_perm_v L n L n kc k0 k1 rd; Ok (see1 t).
