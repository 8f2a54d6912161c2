(* What the receiver of the PRF protocol gets from the sender when only the receiver has an input,
   AltModPrfProto.cpp:300-425.  The receiver is the sender of the key multiplication, whose receiver
   sends nothing (AltModKeyMult.cpp:9-88); so the messages are those of the mod 2 step. *)
From Verif Require Import Base Words Mod3Model ConvModel KeyMultModel PrfModel.

(* the messages of the sender in the mod 2 step, when the receiver follows the protocol:
   mod2OtF4 (AltModPrfProto.cpp:877-1018, 1058-1097) or mod2Ole (AltModPrfProto.cpp:565-683, 722-763) *)
Definition mod2_msgs (c : mod2_cor) (su ru : list (N * N)) : outcome (list (list N)) :=
  match c with
  | CorF4 ss rs => do d <- f4_recv_derand rs ru; do s <- f4_send ss su d; Ok (fst s)
  | CorOle ss rs => do d <- ole_recv_derand rs ru; do s <- ole_send ss su d; Ok (fst s)
  end.

(* evaluate in the input mode ReceiverOnly, up to the messages of the sender,
   AltModPrfProto.cpp:127-133, 183-195, 344-350, 393-410; as prf_run_ro *)
Definition prf_ro_msgs (fuel : nat) (p : prf) (c : mod2_cor) (n : nat)
    (ros : list (prng * prng)) (rshare : option (list bool)) (sos : list prng) (skey : list bool)
    (x : list N) : outcome (list (list N)) :=
  do _ <- throw_if (n =? 0);
  do _ <- throw_if (negb (length x =? n));
  do _ <- mod2_check c n;
  do e <- expandInputLinear p x (blocks128 n) (mtx KeySize (blocks128 n));
  do rk <- km_send fuel ros rshare (blocks128 n) e [];
  do sk <- km_recv fuel sos skey n (fst rk);
  do su <- prf_encodeA p (blocks128 n) (fst (km_mats sk)) (snd (km_mats sk));
  do ru <- prf_encodeA p (blocks128 n) (fst (km_mats (snd rk))) (snd (km_mats (snd rk)));
  mod2_msgs c (flat2 su) (flat2 ru).

(* AltModWPrfReceiver::evaluate in the same mode as a function of the messages it gets,
   AltModPrfProto.cpp:303-423; of the correlation only the receiver's part is used *)
Definition prf_ro_recv (fuel : nat) (p : prf) (c : mod2_cor) (n : nat)
    (ros : list (prng * prng)) (rshare : option (list bool)) (x : list N) (msgs : list (list N)) : outcome (list N) :=
  do e <- expandInputLinear p x (blocks128 n) (mtx KeySize (blocks128 n));
  do rk <- km_send fuel ros rshare (blocks128 n) e [];
  do ru <- prf_encodeA p (blocks128 n) (fst (km_mats (snd rk))) (snd (km_mats (snd rk)));
  do w <- match c with
          | CorF4 _ rs => f4_recv_out rs (flat2 ru) msgs
          | CorOle _ rs => ole_recv_out rs (flat2 ru) msgs
          end;
  compressB p (take_rows MidSize (blocks128 n) w) (blocks128 n) n.

(* The message of one row of the key multiplication, AltModKeyMult.cpp:204-273, as a function of the
   trits (ms, ls) sampled from the first OT string and of the pad drawn from the second; km_send_row
   without the generation of both. *)
Definition km_row_msg (r : srow) (ms ls pad : list N) : outcome (list N) :=
  let buf := repeat 0%N (length (srLsb r)) in
  do m <- match srMsb r with
    | Some xm => if srKey r then mod3Sub_span buf buf ms ls xm (srLsb r) else mod3Add_span buf buf ms ls xm (srLsb r)
    | None => if srKey r then mod3Sub1_span buf buf ms ls (srLsb r) else mod3Add1_span buf buf ms ls (srLsb r)
    end;
  Ok (map (fun p => N.lxor (fst p) (snd p)) (combine (fst m ++ snd m) pad)).

(* the share (xk1, xk0) the sender keeps of that row, AltModKeyMult.cpp:204-273 *)
Definition km_row_share (r : srow) (ms ls : list N) : outcome (list N * list N) :=
  if srKey r then
    match srMsb r with
    | Some xm => mod3AddIn_span ls ms xm (srLsb r)
    | None => mod3AddIn1_span ls ms (srLsb r)
    end
  else Ok (ls, ms).

(* the rows of Sender::mult, AltModKeyMult.cpp:199-215; as in km_send *)
Definition km_rows (ots : list (prng * prng)) (share : option (list bool)) (xLsb xMsb : list (list N)) : list srow :=
  map (fun i => SRow (fst (nth i ots (Prng (fun _ => 0%N) 0, Prng (fun _ => 0%N) 0)))
                    (snd (nth i ots (Prng (fun _ => 0%N) 0, Prng (fun _ => 0%N) 0)))
                    (match share with Some k => nth i k false | None => false end)
                    (nth i xLsb [])
                    (if length xMsb =? 0 then None else Some (nth i xMsb []))) (seq 0 KeySize).

(* one message per StepSize rows, AltModKeyMult.cpp:199-276 *)
Fixpoint groups (g : nat) (rows : list (list N)) : list (list N) :=
  match g with 0 => [] | S g => concat (firstn km_step rows) :: groups g (skipn km_step rows) end.

(* Sender::mult, AltModKeyMult.cpp:144-276, as a function of the sampled trits and the pads of all rows *)
Definition km_ideal (rows : list srow) (tps : list ((list N * list N) * list N))
  : outcome (list (list N) * list (list N * list N)) :=
  do o <- mapM (fun q => do m <- km_row_msg (fst q) (fst (fst (snd q))) (snd (fst (snd q))) (snd (snd q));
                         do s <- km_row_share (fst q) (fst (fst (snd q))) (snd (fst (snd q)));
                         Ok (m, s)) (combine rows tps);
  Ok (groups (KeySize / km_step) (map fst o), map snd o).

(* the receiver's part of the correlation of the mod 2 step, its size check
   (AltModPrfProto.cpp:320-330) and its first messages (AltModPrfProto.cpp:722-763, 1058-1097) *)
Inductive mod2_rcor := RF4 (rs : list (list f4_r)) | ROle (rs : list (list ole)).
(* the receiver's half, AltModPrfProto.cpp:320-330 *)
Definition rcor_of (c : mod2_cor) : mod2_rcor := match c with CorF4 _ rs => RF4 rs | CorOle _ rs => ROle rs end.
(* AltModPrfProto.cpp:320-330 *)
Definition rcor_check (c : mod2_rcor) (n : nat) : outcome unit :=
  match c with
  | RF4 rs => throw_if (negb (length (concat rs) =? blocks128 n * MidSize))
  | ROle rs => throw_if (negb (length (concat rs) =? blocks128 n * MidSize * 2))
  end.
(* AltModPrfProto.cpp:722-763 and 1058-1097 *)
Definition rcor_derand (c : mod2_rcor) (u : list (N * N)) : outcome (list (list N)) :=
  match c with RF4 rs => f4_recv_derand rs u | ROle rs => ole_recv_derand rs u end.

(* All messages of AltModWPrfReceiver::evaluate in the input mode ReceiverOnly,
   AltModPrfProto.cpp:303-423: those of the key multiplication, then those of the mod 2 step. *)
Definition prf_ro_sent (fuel : nat) (p : prf) (c : mod2_rcor) (n : nat)
    (ros : list (prng * prng)) (rshare : option (list bool)) (x : list N) : outcome (list (list N) * list (list N)) :=
  do _ <- throw_if (n =? 0);
  do _ <- throw_if (negb (length x =? n));
  do _ <- rcor_check c n;
  do e <- expandInputLinear p x (blocks128 n) (mtx KeySize (blocks128 n));
  do rk <- km_send fuel ros rshare (blocks128 n) e [];
  do ru <- prf_encodeA p (blocks128 n) (fst (km_mats (snd rk))) (snd (km_mats (snd rk)));
  do d <- rcor_derand c (flat2 ru);
  Ok (fst rk, d).

(* the same as a function of the trits and pads, AltModPrfProto.cpp:303-423 *)
Definition prf_ro_ideal (p : prf) (c : mod2_rcor) (n : nat) (rshare : option (list bool))
    (tps : list ((list N * list N) * list N)) (x : list N) : outcome (list (list N) * list (list N)) :=
  do _ <- throw_if (n =? 0);
  do _ <- throw_if (negb (length x =? n));
  do _ <- rcor_check c n;
  do e <- expandInputLinear p x (blocks128 n) (mtx KeySize (blocks128 n));
  do rk <- km_ideal (km_rows [] rshare e []) tps;
  do ru <- prf_encodeA p (blocks128 n) (map fst (snd rk)) (map snd (snd rk));
  do d <- rcor_derand c (flat2 ru);
  Ok (fst rk, d).

(* AltModWPrfSender::evaluate in the same mode as a function of the messages it gets,
   AltModPrfProto.cpp:86-225; of the correlation only the sender's part is used *)
Definition prf_ro_sender (fuel : nat) (p : prf) (c : mod2_cor) (n : nat) (sos : list prng) (skey : list bool)
    (v : list (list N) * list (list N)) : outcome (list N) :=
  do sk <- km_recv fuel sos skey n (fst v);
  do su <- prf_encodeA p (blocks128 n) (fst (km_mats sk)) (snd (km_mats sk));
  do s <- match c with
          | CorF4 ss _ => f4_send ss (flat2 su) (snd v)
          | CorOle ss _ => ole_send ss (flat2 su) (snd v)
          end;
  compressB p (take_rows MidSize (blocks128 n) (snd s)) (blocks128 n) n.
