(* Model of AltModPrf (secure-join/Prf/AltModPrf.{h,cpp}) with linear input expansion and of
   the evaluation protocols AltModWPrfSender/Receiver::evaluate (AltModPrfProto.cpp).
   The random matrices mB, mGCode and the permutations of mACode are parameters: the theorems
   hold for any of them.  Matrices are lists of rows. *)
From Verif Require Import Base Words Mod3Model F2CodeModel F3CodeModel ConvModel KeyMultModel.

(* AltModPrf::MidSize, AltModPrf.h:80 *)
Definition MidSize : nat := 256.

(* the word with the given bits, lowest first (used for the masks and the key words, AltModPrf.cpp:97-119) *)
Fixpoint of_bits (l : list bool) : N :=
  match l with [] => 0%N | b :: r => ((if b then 1 else 0) + 2 * of_bits r)%N end.

(* oc::transpose128 (cryptoTools, library): bit i of block j becomes bit j of block i *)
Definition transpose128 (t : list N) : list N :=
  map (fun j => of_bits (map (fun i => N.testbit (nth i t 0%N) (N.of_nat j)) (seq 0 128))) (seq 0 128).

(* The static tables: mGCode (three subcode tables), mBCode, and the permutations of mACode. (AltModPrf.h:61-70) *)
Record prf := Prf { prfG : list (list N); prfB : list N; prfA : list (list nat) }.

(* makeAltModWPrfGCode, makeAltModWPrfBCode, AltModPrf.cpp:20-31 and 54-68: the B code is
   initialised with the transpose of mB *)
Definition prf_make (G : list (list N)) (B : list N) (A : list (list nat)) : outcome prf :=
  do tg <- mapM (fun g => do r <- f2_init 16 g; Ok (snd r)) G;
  do tb <- f2_init 16 (transpose128 B);
  Ok (Prf tg (snd tb) A).

(* writing t down column k from row r0, AltModPrf.cpp:204-211, 239-246 *)
Definition put_col (r0 k : nat) (t : list N) (M : list (list N)) : outcome (list (list N)) :=
  forN 0 128 (fun j M => do v <- get t j; set2 M (r0 + j) k v) M.

(* t[j] = v[j * vStep] from row r0 of column k, AltModPrf.cpp:97-106 *)
Definition get_col (r0 k : nat) (M : list (list N)) : outcome (list N) :=
  forN 0 128 (fun j t => do v <- get2 M (r0 + j) k; set t j v) (repeat 0%N 128).

(* oc::divCeil(n, 128), AltModPrf.cpp:71-119 *)
Definition blocks128 (n : nat) : nat := (n + 127) / 128.

(* the encoded block q of a chunk, AltModPrf.cpp:224-236 *)
Definition encode_chunk (T : list N) (x : list N) (i m : nat) : outcome (list N) :=
  if m =? 128 then
    forN 0 16 (fun w t =>
      do xs <- readN x (i + 8 * w) 8;
      do o <- f2_encodeN 8 16 T xs;
      writeN t (8 * w) o) (repeat 0%N 128)
  else
    do xs <- readN x i m;
    do o <- mapM (f2_encode T) xs;
    Ok (o ++ repeat 0%N (128 - m)).

(* expandInputLinear(span x, MatrixView xt), AltModPrf.cpp:184-251; cols = xt.cols() *)
Definition expandInputLinear (p : prf) (x : list N) (cols : nat) (xt : list (list N)) : outcome (list (list N)) :=
  let n := length x in
  do _ <- throw_if (negb (length xt =? KeySize));
  do _ <- throw_if (negb (cols =? blocks128 n));
  do xt <- forN 0 (blocks128 n) (fun k xt =>
    let i := 128 * k in
    let m := Nat.min 128 (n - i) in
    do seg <- readN x i m;
    put_col 0 k (transpose128 (seg ++ repeat 0%N (128 - m))) xt) xt;
  forN 0 (length (prfG p)) (fun q xt =>
    do T <- get (prfG p) q;
    forN 0 (blocks128 n) (fun k xt =>
      let i := 128 * k in
      let m := Nat.min 128 (n - i) in
      do t <- encode_chunk T x i m;
      put_col (q * 128 + 128) k (transpose128 t) xt) xt) xt.

(* expandInputLinear(block x, KeyType& X), AltModPrf.cpp:176-182 *)
Definition expandInputLinear1 (p : prf) (x : N) : outcome (list N) :=
  do r <- mapM (fun T => f2_encode T x) (prfG p);
  Ok (x :: r).

(* compressB, AltModPrf.cpp:71-119; vc = v.cols(), ny = y.size() *)
Definition compressB (p : prf) (v : list (list N)) (vc ny : nat) : outcome (list N) :=
  do _ <- throw_if (negb (length v =? MidSize));
  do _ <- throw_if (negb (vc =? blocks128 ny));
  forN 0 (blocks128 ny) (fun ii y =>
    let i := 128 * ii in
    do yy <- get_col 0 ii v;
    let yy := transpose128 yy in
    do zz <- get_col 128 ii v;
    let zz := transpose128 zz in
    let m := Nat.min (ny - i) 128 in
    forN 0 m (fun j y =>
      do t <- get zz j;
      do e <- f2_encode (prfB p) t;
      do a <- get yy j;
      set y (i + j) (N.lxor a e)) y) (repeat 0%N ny).

(* a fresh matrix; its content is never read before it is written (AltModPrf.cpp:296-330) *)
Definition mtx (r c : nat) : list (list N) := repeat (repeat 0%N c) r.

(* F3LinearCode.h:78 *)
Definition f3_batch : nat := 2 ^ 10.

(* mACode.encode(ek1, ek0, u1, u0) into fresh MidSize x cols matrices; result (u1, u0) *)
Definition prf_encodeA (p : prf) (cols : nat) (ek1 ek0 : list (list N)) : outcome (list (list N) * list (list N)) :=
  do r <- f3_encode_span KeySize MidSize (prfA p) f3_batch cols cols cols cols ek1 ek0 (mtx MidSize cols) (mtx MidSize cols);
  Ok (snd r).

(* AltModPrf::eval(span x, span y), AltModPrf.cpp:296-331; key = bits of mExpandedKey *)
Definition prf_eval (p : prf) (key : list bool) (x : list N) (ny : nat) : outcome (list N) :=
  do _ <- throw_if (negb (length x =? ny));
  let cols := blocks128 ny in
  do xt <- expandInputLinear p x cols (mtx KeySize cols);
  do xk0 <- forN 0 KeySize (fun i xk0 =>
      do ki <- get key i;
      do row <- get xt i;
      set xk0 i (if ki : bool then row else repeat 0%N cols)) (mtx KeySize cols);
  do u <- prf_encodeA p cols (mtx KeySize cols) xk0;
  compressB p (snd u) cols ny.

(* ---------------- protocols ---------------- *)

(* the correlation used for the mod 2 step: mMod2F4Req or mMod2OleReq, both parties' segments *)
Inductive mod2_cor :=
| CorF4 (ss : list (list f4_s)) (rs : list (list f4_r))
| CorOle (ss : list (list ole)) (rs : list (list ole)).

(* The size checks of evaluate, AltModPrfProto.cpp:109-118 and 320-330.  Sizes of requests are
   counted in 128-bit positions here. *)
Definition mod2_check (c : mod2_cor) (n : nat) : outcome unit :=
  match c with
  | CorF4 ss rs =>
    do _ <- throw_if (negb (length (concat ss) =? blocks128 n * MidSize));
    throw_if (negb (length (concat rs) =? blocks128 n * MidSize))
  | CorOle ss rs =>
    do _ <- throw_if (negb (length (concat ss) =? blocks128 n * MidSize * 2));
    throw_if (negb (length (concat rs) =? blocks128 n * MidSize * 2))
  end.

(* Both parties' mod 2 step, message by message.  The sender holds (su1, su0), the receiver
   (ru1, ru0); the flat matrices are walked row-major. *)
Definition mod2_run (c : mod2_cor) (su ru : list (N * N)) : outcome (list N * list N) :=
  match c with
  | CorF4 ss rs =>
    do d <- f4_recv_derand rs ru;
    do s <- f4_send ss su d;
    do w <- f4_recv_out rs ru (fst s);
    Ok (snd s, w)
  | CorOle ss rs =>
    do d <- ole_recv_derand rs ru;
    do s <- ole_send ss su d;
    do w <- ole_recv_out rs ru (fst s);
    Ok (snd s, w)
  end.

(* the matrices u as spans, AltModPrfProto.cpp:183-208 *)
Definition flat2 (u : list (list N) * list (list N)) : list (N * N) :=
  combine (concat (snd u)) (concat (fst u)).

(* the common tail of both evaluate functions, AltModPrfProto.cpp:183-208 and 393-423:
   u = A ek, v = u mod 2, y = B v *)
Definition prf_tail (p : prf) (c : mod2_cor) (n : nat) (sek rek : list (list N) * list (list N))
  : outcome (list N * list N) :=
  let cols := blocks128 n in
  do su <- prf_encodeA p cols (fst sek) (snd sek);
  do ru <- prf_encodeA p cols (fst rek) (snd rek);
  do v <- mod2_run c (flat2 su) (flat2 ru);
  do ys <- compressB p (take_rows MidSize cols (fst v)) cols n;
  do yr <- compressB p (take_rows MidSize cols (snd v)) cols n;
  Ok (ys, yr).

(* the matrices (xk1, xk0) of a mult *)
Definition km_mats {P} (o : list (P * (list N * list N))) : list (list N) * list (list N) :=
  (map (fun x => fst (snd x)) o, map (fun x => snd (snd x)) o).

(* evaluate with input mode ReceiverOnly (key mode SenderOnly or Shared), AltModPrfProto.cpp:
   127-133 and 344-350: the receiver is the sender of the key multiplication. *)
Definition prf_run_ro (fuel : nat) (p : prf) (c : mod2_cor) (n : nat)
    (ros : list (prng * prng)) (rshare : option (list bool)) (sos : list prng) (skey : list bool)
    (x : list N) : outcome (list N * list N) :=
  do _ <- throw_if (n =? 0);
  do _ <- throw_if (negb (length x =? n));
  do _ <- mod2_check c n;
  do e <- expandInputLinear p x (blocks128 n) (mtx KeySize (blocks128 n));
  do rk <- km_send fuel ros rshare (blocks128 n) e [];
  do sk <- km_recv fuel sos skey n (fst rk);
  prf_tail p c n (km_mats sk) (km_mats (snd rk)).

(* One party's keys in the Shared/Shared mode: its key share, the sender OTs and receiver OTs of
   its two key multiplications.  The two sides of the check mKey = *mOptionalKeyShare
   (AltModPrfProto.cpp:143-144, 360-361) are kept apart. *)
Record pkeys := PKeys { pkShare : option (list bool); pkKey : list bool;
                        pkSend : list (prng * prng); pkRecv : list prng }.

(* operator!= of std::array, KeyType, AltModPrf.h:85-94 *)
Fixpoint bits_eqb (a b : list bool) : bool :=
  match a, b with
  | [], [] => true
  | x :: a', y :: b' => Bool.eqb x y && bits_eqb a' b'
  | _, _ => false
  end.

(* AltModPrfProto.cpp:143-144 and 360-361 *)
Definition key_checks (k : pkeys) : outcome unit :=
  match pkShare k with
  | None => Throw
  | Some s => throw_if (negb (bits_eqb (pkKey k) s))
  end.

(* the in-place mod3Add of matrices (row-major spans), AltModPrfProto.cpp:170, 388 *)
Definition mod3AddIn_mtx (z1 z0 y1 y0 : list (list N)) (cols : nat) : outcome (list (list N) * list (list N)) :=
  do r <- mod3AddIn_span (concat z1) (concat z0) (concat y1) (concat y0);
  Ok (take_rows (length z1) cols (fst r), take_rows (length z0) cols (snd r)).

(* evaluate with shared key and shared input, AltModPrfProto.cpp:137-171 and 353-389.  [ct] are
   the trit OT segments of the conversion.  The two key multiplications run on different
   sockets; here one after the other.  Exceptions inside when_all_ready are not rethrown by the
   code; they are Throw here. *)
Definition prf_run_shared (fuel : nat) (p : prf) (c : mod2_cor) (n : nat)
    (cs : list (list trit_s)) (cr : list (list trit_r)) (ks kr : pkeys)
    (xs xr : list N) : outcome (list N * list N) :=
  let cols := blocks128 n in
  do _ <- throw_if (n =? 0);
  do _ <- throw_if (negb (length xs =? n));
  do _ <- throw_if (negb (length xr =? n));
  do _ <- mod2_check c n;
  do _ <- key_checks ks;
  do _ <- key_checks kr;
  do es <- expandInputLinear p xs cols (mtx KeySize cols);
  do er <- expandInputLinear p xr cols (mtx KeySize cols);
  (* convert *)
  do _ <- conv_send_checks (KeySize * cols) (KeySize * cols) (KeySize * cols) (128 * length (concat cs));
  do _ <- conv_recv_checks (KeySize * cols) (KeySize * cols) (KeySize * cols) (128 * length (concat cr));
  do cor <- conv_recv_cor cr (concat er);
  do sc <- conv_send cs (concat es) cor;
  do yr <- conv_recv_out cr (concat er) (fst sc);
  let mat l := take_rows KeySize cols l in
  let es1 := mat (map fst (snd sc)) in let es0 := mat (map snd (snd sc)) in
  let er1 := mat (map fst yr) in let er0 := mat (map snd yr) in
  (* sock: the receiver multiplies, the sender has its key share *)
  do rk <- km_send fuel (pkSend kr) (pkShare kr) cols er0 er1;
  do sk <- km_recv fuel (pkRecv ks) (pkKey ks) n (fst rk);
  (* sb: the other way round *)
  do sk' <- km_send fuel (pkSend ks) (pkShare ks) cols es0 es1;
  do rk' <- km_recv fuel (pkRecv kr) (pkKey kr) n (fst sk');
  do sek <- mod3AddIn_mtx (fst (km_mats sk)) (snd (km_mats sk)) (fst (km_mats (snd sk'))) (snd (km_mats (snd sk'))) cols;
  do rek <- mod3AddIn_mtx (fst (km_mats rk')) (snd (km_mats rk')) (fst (km_mats (snd rk))) (snd (km_mats (snd rk))) cols;
  prf_tail p c n sek rek.
