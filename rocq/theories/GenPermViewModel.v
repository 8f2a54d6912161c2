(* What each party sees in the whole radix sort, RadixSort.cpp:1095-1229. *)
From Verif Require Import Base Words PermModel PermCorModel ShuffleModel KeyMultModel BitInjModel RadixModel PermViewModel SortViewModel.

(* everything that happens in one pass of the loop of genPerm, RadixSort.cpp:1156-1222: the messages of the
   derandomize, those of the inverse apply to the digits, the shares of the permuted digits, the round of
   genBitPerm, the messages of compose, the shares of the composed permutation *)
Record step_tr := STr { stD : list N * (list N * list nat); stA : list N * list N; stZ : list N * list N;
  stR : round_tr; stC : list N * list N; stY : list N * list N }.

(* one pass with its messages, RadixSort.cpp:1156-1222; as in gen_perm_loop, given the digits (1160) *)
Definition sort_step_v (mL mSize n : nat) (sk0 sk1 : list N) (dst0 dst1 : list N) (x : (comp * comp) * radix_round) : outcome step_tr :=
  let '((c0, c1), rd) := x in
  do m1 <- comp_derand_msgs c0 c1 dst0 dst1;
  do d <- comp_derand c0 c1 dst0 dst1;
  do m2 <- comp_apply_msgs (fst d) (snd d) Inverse (Mat n 1 sk0) (Mat n 1 sk1);
  do a <- comp_apply (fst d) (snd d) Inverse (Mat n 1 sk0) (Mat n 1 sk1) (zmat n 1) (zmat n 1);
  let '((z0, e0), (z1, e1)) := a in
  do t <- gen_bit_perm_v mL mSize mL n 1 (dat z0) (dat z1) rd;
  let m a := Mat (length a) 4 (bytes_of_u32s a) in
  do m3 <- comp_apply_msgs e0 e1 Regular (m (fst (rvOut t))) (m (snd (rvOut t)));
  do q <- comp_compose e0 e1 (fst (rvOut t)) (snd (rvOut t));
  let '((y0, _), (y1, _)) := q in
  Ok (STr m1 m2 (dat z0, dat z1) t m3 (y0, y1)).

(* the loop with its messages, RadixSort.cpp:1156-1222; as gen_perm_loop *)
Fixpoint gen_perm_loop_v (mL mSize n c : nat) (k0 k1 : list N) (kIdx : nat)
    (rds : list ((comp * comp) * radix_round)) (dst0 dst1 : list N) : outcome (list step_tr * (list N * list N)) :=
  match rds with
  | [] => Ok ([], (dst0, dst1))
  | x :: rds =>
    do sk0 <- extract kIdx mL n c k0;
    do sk1 <- extract kIdx mL n c k1;
    do t <- sort_step_v mL mSize n sk0 sk1 dst0 dst1 x;
    do r <- gen_perm_loop_v mL mSize n c k0 k1 (kIdx + mL) rds (fst (stY t)) (snd (stY t));
    Ok (t :: fst r, snd r)
  end.

(* genPerm with its messages, RadixSort.cpp:1095-1229; as gen_perm *)
Definition gen_perm_v (mL mSize mBitCount bits n c : nat) (k0 k1 : list N)
    (rd : radix_round) (rds : list ((comp * comp) * radix_round)) : outcome (round_tr * (list step_tr * (list N * list N))) :=
  do _ <- throw_if (negb (n =? mSize));
  do _ <- throw_if (negb (bits =? mBitCount));
  if mL =? 0 then UB else
  let ll := div_ceil bits mL in
  do sk0 <- extract 0 mL n c k0;
  do sk1 <- extract 0 mL n c k1;
  if ll =? 0 then UB else
  do t <- gen_bit_perm_v mL mSize mL n 1 sk0 sk1 rd;
  if negb (length rds =? ll - 1) then UB else
  do r <- gen_perm_loop_v mL mSize n c k0 k1 mL rds (fst (rvOut t)) (snd (rvOut t));
  Ok (t, r).

(* what party 0 sees of a pass: the messages to it and its shares (RadixSort.cpp:1156-1222) *)
Definition step_see0 (t : step_tr) := (fst (stD t), fst (stA t), fst (stZ t), see0 (stR t), fst (stC t), fst (stY t)).
(* the same of party 1 (RadixSort.cpp:1156-1222) *)
Definition step_see1 (t : step_tr) := (snd (stD t), snd (stA t), snd (stZ t), see1 (stR t), snd (stC t), snd (stY t)).

(* what party 0 sees of the whole sort, with its share of the result (RadixSort.cpp:1095-1229) *)
Definition sort_view0 (L bits n c : nat) (k0 k1 : list N) (R : radix_round * list ((comp * comp) * radix_round)) :=
  do t <- gen_perm_v L n bits bits n c k0 k1 (fst R) (snd R);
  Ok (see0 (fst t), map step_see0 (fst (snd t)), fst (snd (snd t))).
(* the same of party 1 (RadixSort.cpp:1095-1229) *)
Definition sort_view1 (L bits n c : nat) (k0 k1 : list N) (R : radix_round * list ((comp * comp) * radix_round)) :=
  do t <- gen_perm_v L n bits bits n c k0 k1 (fst R) (snd R);
  Ok (see1 (fst t), map step_see1 (fst (snd t)), snd (snd (snd t))).
