(* Model of secure-join/Perm/LowMCPerm.h and LowMCPerm.cpp: generating a permutation correlation by
   evaluating LowMC under GMW.  LowMC2<>::block is a bitset of lpBits p bits; its size in bytes and
   in bits agree when lpBits p is a multiple of 64, as 256 is.  levelByAndDepth is library code: the
   levels are an argument. *)
From Verif Require Import Base PermModel PermCorModel ShuffleModel GmwModel GmwIoModel LowMCModel.

(* sizeof(lowBlock), LowMCPerm.cpp:30 and 71 *)
Definition low_size (p : lparams) : nat := lpBits p / 8.
(* the bytes of a bitset, LowMCPerm.cpp:45, 94-97, 110 *)
Definition blk_bytes (k : nat) (x : N) : list N := map (fun b => N.land (N.shiftr x (8 * N.of_nat b)) 255) (seq 0 k).
(* lowBlock(j + srcIdx << 32), LowMCPerm.cpp:41 and 120: the sum is taken before the shift, both in
   u64, and the bitset keeps its low bits *)
Definition low_point (p : lparams) (j src : nat) : N :=
  N.land (N.shiftl (N.of_nat (j + src) mod 2 ^ 64) 32 mod 2 ^ 64) (N.ones (N.of_nat (lpBits p))).
(* the matrix of the points, LowMCPerm.cpp:34-43 *)
Definition low_points (p : lparams) (idx : list nat) (bpr : nat) : list N :=
  concat (map (fun i => map (fun j => low_point p j i) (seq 0 bpr)) idx).

(* the bundles of to_enc_circuit, LowMC.h:204-222 *)
Definition low_ins (p : lparams) : list (list nat) := map (fun r => seq (lpBits p * r) (lpBits p)) (seq 0 (2 + lpRounds p)).
(* LowMC.h:219 *)
Definition low_outs (p : lparams) : list (list nat) := [seq (lpBits p * (2 + lpRounds p)) (lpBits p)].
(* LowMC.h:221-222 *)
Definition low_wires (p : lparams) : nat := lpBits p * (4 + lpRounds p) + 1.

(* init of both parties, LowMCPerm.h:50-60 and 98-108 *)
Definition low_init (p : lparams) (n bytes : nat) : gmw :=
  gmw_init (n * div_ceil bytes (low_size p)) (low_wires p) (low_ins p) (low_outs p).

(* LowMCPermSender::generate up to run, LowMCPerm.cpp:26-50.  The counter of the loop at 49 is a
   u8. *)
Definition low_send_setup junk (pad : nat -> nat -> bool) (p : lparams) (pi : list nat) (n bytes : nat) (g : gmw) : outcome gmw :=
  do _ <- throw_if (negb (length pi =? n));
  let k := low_size p in
  do g <- set_input junk pad 0 k k (map (blk_bytes k) (low_points p pi (div_ceil bytes k))) g;
  if 256 <=? lpRounds p + 1 then Hang else
  forN 0 (lpRounds p + 1) (fun i g => set_zero_input junk (1 + i) g) g.

(* LowMCPermReceiver::generate up to run, LowMCPerm.cpp:66-100; l has its key set *)
Definition low_recv_setup junk (pad : nat -> nat -> nat -> bool) (p : lparams) (l : lowmc) (n bytes : nat) (g : gmw) : outcome gmw :=
  let k := low_size p in
  do g <- set_zero_input junk 0 g;
  forN 0 (lpRounds p + 1) (fun i g =>
    do rk <- get (lmKeys l) i;
    set_input junk (pad i) (1 + i) k k (repeat (blk_bytes k rk) (n * div_ceil bytes k)) g) g.

(* osuCrypto::copyBytesMin(dst, src), used at LowMCPerm.cpp:59, 110, 124 *)
Definition copy_min (dst src : list N) : list N :=
  firstn (Nat.min (length dst) (length src)) src ++ skipn (Nat.min (length dst) (length src)) dst.
(* the rows of mDelta and mB, LowMCPerm.cpp:54-60 and 105-111; old are the rows after resize *)
Definition low_rows (old : list (list N)) (bpr : nat) (out : list (list N)) : list (list N) :=
  map (fun i => copy_min (nth i old []) (concat (slice out (i * bpr) bpr))) (seq 0 (length old)).

(* the rows of mA, LowMCPerm.cpp:113-125 *)
Definition low_masks (p : lparams) (l : lowmc) (bpr : nat) (old : list (list N)) : outcome (list (list N)) :=
  mapO (fun i =>
    do a <- mapO (fun j => lm_encrypt p l (low_point p j i)) (seq 0 bpr);
    Ok (copy_min (nth i old []) (concat (map (blk_bytes (low_size p)) a)))) (seq 0 (length old)).

(* what the code of LowMCPerm.cpp:24-127 does not determine: uninitialised memory, padding lanes, the rows of
   the destination matrices before they are written *)
Record low_junk := LJ { ljHeap0 : nat -> nat -> nat -> N; ljHeap1 : nat -> nat -> nat -> N;
  ljIn0 : nat -> nat -> bool; ljIn1 : nat -> nat -> nat -> bool; ljOut0 : nat -> nat -> bool; ljOut1 : nat -> nat -> bool;
  ljDelta : list (list N); ljA : list (list N); ljB : list (list N) }.

(* both parties' generate, LowMCPerm.cpp:24-127.  Sender and receiver use instances from the same
   stream rng (LowMC.h:411-414 seeds it with a constant); kbits are the key bits the receiver
   draws (74-76).  so and ro are the offsets of the destination objects, which are not touched. *)
Definition lowmc_gen (p : lparams) (rng kbits : nat -> bool) (lf kf : nat -> option (list N)) (lvs : list level) (J : low_junk)
    (pi : list nat) (n bytes so ro : nat) (s0 s1 : list (list triple)) : outcome (cor_s * cor_r) :=
  let k := low_size p in
  let bpr := div_ceil bytes k in
  let c := 16 * div_ceil bytes 16 in
  do _ <- throw_if (negb (length pi =? n));
  do _ <- throw_if (n =? 0);
  do l <- lm_new p false 0 rng lf kf 0;
  do l <- set_key p l (rand_bits kbits (lpKey p) 0);
  do g0 <- low_send_setup (ljHeap0 J) (ljIn0 J) p pi n bytes (low_init p n bytes);
  do g1 <- low_recv_setup (ljHeap1 J) (ljIn1 J) p l n bytes (low_init p n bytes);
  do g <- gmw_exec lvs (ljHeap0 J) (ljHeap1 J) s0 s1 g0 g1;
  do d <- get_output (ljHeap0 J) (ljOut0 J) 0 k (n * bpr) k (fst g);
  do b <- get_output (ljHeap1 J) (ljOut1 J) 0 k (n * bpr) k (snd g);
  do a <- low_masks p l bpr (ljA J);
  Ok (CorS pi (Mat n c (concat (low_rows (ljDelta J) bpr (snd d)))) so,
      CorR (Mat n c (concat a)) (Mat n c (concat (low_rows (ljB J) bpr (snd b)))) ro).
