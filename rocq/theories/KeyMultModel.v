(* Model of AltModKeyMultSender / AltModKeyMultReceiver, secure-join/Prf/AltModKeyMult.{h,cpp},
   and of xorVector / xorVectorOne, secure-join/Prf/AltModSimd.h.  mDebug is false. *)
From Verif Require Import Base Words Mod3Model ConvModel.

(* A PRNG used in counter mode: the block at each counter (AES under the PRNG's key, opaque)
   and mBlockIdx. (mKeySendOTs and mKeyRecvOTs, AltModKeyMult.h:29 and 129) *)
Record prng := Prng { pRnd : N -> N; pIdx : N }.

(* xorVector, AltModSimd.h:32-64: eight blocks at a time, then the rest one by one *)
Definition xorVector (v : list N) (g : prng) : outcome (prng * list N) :=
  let n := length v in
  do st <- forN 0 (n / 8) (fun j st =>
      let g : prng := fst st in
      do v' <- forN 0 8 (fun q v =>
          do a <- get v (8 * j + q);
          set v (8 * j + q) (N.lxor a (pRnd g (pIdx g + N.of_nat q)))) (snd st);
      Ok (Prng (pRnd g) (pIdx g + 8), v')) (g, v);
  forN (8 * (n / 8)) (n - 8 * (n / 8)) (fun j st =>
      let g : prng := fst st in
      do a <- get (snd st) j;
      do v' <- set (snd st) j (N.lxor a (pRnd g (pIdx g)));
      Ok (Prng (pRnd g) (pIdx g + 1), v')) st.

(* xorVectorOne, AltModSimd.h:69-105: v = u ^ stream *)
Definition xorVectorOne (v u : list N) (g : prng) : outcome (prng * list N) :=
  let n := length v in
  do st <- forN 0 (n / 8) (fun j st =>
      let g : prng := fst st in
      do v' <- forN 0 8 (fun q v =>
          do a <- get u (8 * j + q);
          set v (8 * j + q) (N.lxor a (pRnd g (pIdx g + N.of_nat q)))) (snd st);
      Ok (Prng (pRnd g) (pIdx g + 8), v')) (g, v);
  forN (8 * (n / 8)) (n - 8 * (n / 8)) (fun j st =>
      let g : prng := fst st in
      do a <- get u j;
      do v' <- set (snd st) j (N.lxor a (pRnd g (pIdx g)));
      Ok (Prng (pRnd g) (pIdx g + 1), v')) st.

(* sampleMod3Lookup(prng, msb, lsb), mod3.cpp:506-661 *)
Definition sample_prng (fuel : nat) (g : prng) (n : nat) : outcome (prng * (list N * list N)) :=
  do r <- sampleMod3Lookup fuel (pRnd g) (pIdx g) n n;
  Ok (Prng (pRnd g) (fst r), snd r).

(* The sender's data for one key bit: mKeySendOTs[i], the bit of mOptionalKeyShare (false when
   disengaged), xLsb[i] and, if xMsb is not empty, xMsb[i]. (AltModKeyMult.cpp:204-273) *)
Record srow := SRow { srOt0 : prng; srOt1 : prng; srKey : bool; srLsb : list N; srMsb : option (list N) }.

(* body of the k loop of Sender::mult, AltModKeyMult.cpp:204-273.  The row of msg is msbMsg
   followed by lsbMsg.  Result ((OT PRNGs), (message row, (xk1, xk0))). *)
Definition km_send_row (fuel : nat) (r : srow) : outcome ((prng * prng) * (list N * (list N * list N))) :=
  let n := length (srLsb r) in
  do s <- sample_prng fuel (srOt0 r) n;
  (* stored in swapped order to negate the value: msbShare is xk0[i], lsbShare is xk1[i] *)
  let msbShare := fst (snd s) in
  let lsbShare := snd (snd s) in
  let buf := repeat 0%N n in
  do mx <- match srMsb r with
    | Some xm =>
      if srKey r then
        do m <- mod3Sub_span buf buf msbShare lsbShare xm (srLsb r);
        do xk <- mod3AddIn_span lsbShare msbShare xm (srLsb r);
        Ok (m, xk)
      else
        do m <- mod3Add_span buf buf msbShare lsbShare xm (srLsb r);
        Ok (m, (lsbShare, msbShare))
    | None =>
      if srKey r then
        do m <- mod3Sub1_span buf buf msbShare lsbShare (srLsb r);
        do xk <- mod3AddIn1_span lsbShare msbShare (srLsb r);
        Ok (m, xk)
      else
        do m <- mod3Add1_span buf buf msbShare lsbShare (srLsb r);
        Ok (m, (lsbShare, msbShare))
    end;
  do a <- xorVector (fst (fst mx)) (srOt1 r);
  do b <- xorVector (snd (fst mx)) (fst a);
  Ok ((fst s, fst b), (snd a ++ snd b, snd mx)).

(* The receiver's data for one key bit: mKeyRecvOTs[i] and bit i of mKey. (AltModKeyMult.cpp:62-86) *)
Record rrow := RRow { rrOt : prng; rrKey : bool }.

(* body of the k loop of Receiver::mult, AltModKeyMult.cpp:62-86; result (PRNG, (xk1, xk0)) *)
Definition km_recv_row (fuel cols : nat) (r : rrow) (msg : list N) : outcome (prng * (list N * list N)) :=
  if rrKey r then
    do msbMsg <- readN msg 0 cols;
    do lsbMsg <- readN msg cols cols;
    let buf := repeat 0%N cols in
    do a <- xorVectorOne buf msbMsg (rrOt r);
    do b <- xorVectorOne buf lsbMsg (fst a);
    Ok (fst b, (snd a, snd b))
  else sample_prng fuel (rrOt r) cols.

(* a loop that may fail, used for the loops of AltModKeyMult.cpp:62-86 and 204-273 *)
Fixpoint mapM {A B} (f : A -> outcome B) (l : list A) : outcome (list B) :=
  match l with
  | [] => Ok []
  | a :: r => do b <- f a; do r' <- mapM f r; Ok (b :: r')
  end.

(* the rows of a message matrix with n rows of w blocks (AltModKeyMult.cpp:57-62) *)
Fixpoint take_rows (n w : nat) (m : list N) : list (list N) :=
  match n with 0 => [] | S n' => firstn w m :: take_rows n' w (skipn w m) end.

(* StepSize, AltModKeyMult.h:27 and :122; KeySize, AltModPrf.h *)
Definition km_step : nat := 32.
(* AltModPrf::KeySize, AltModPrf.h:77 *)
Definition KeySize : nat := 512.

(* the loop over i of Sender::mult, AltModKeyMult.cpp:199-276; one message per 32 rows *)
Fixpoint km_send_loop (fuel groups : nat) (rows : list srow)
  : outcome (list (list N) * list ((prng * prng) * (list N * list N))) :=
  match groups with
  | 0 => Ok ([], [])
  | S g =>
    do o <- mapM (km_send_row fuel) (firstn km_step rows);
    do r <- km_send_loop fuel g (skipn km_step rows);
    Ok (concat (map (fun x => fst (snd x)) o) :: fst r,
        map (fun x => (fst x, snd (snd x))) o ++ snd r)
  end.

(* the loop over i of Receiver::mult, AltModKeyMult.cpp:58-88 *)
Fixpoint km_recv_loop (fuel cols groups : nat) (rows : list rrow) (msgs : list (list N))
  : outcome (list (prng * (list N * list N))) :=
  match groups with
  | 0 => Ok []
  | S g =>
    do m <- recv_n (km_step * (2 * cols)) msgs;
    do o <- mapM (fun p => km_recv_row fuel cols (fst p) (snd p))
              (combine (firstn km_step rows) (take_rows km_step (2 * cols) (fst m)));
    do r <- km_recv_loop fuel cols g (skipn km_step rows) (snd m);
    Ok (o ++ r)
  end.

(* Sender::mult, AltModKeyMult.cpp:144-276, on key OTs already set.  The matrices are lists of
   KeySize rows; xMsb = [] is the empty matrix. *)
Definition km_send (fuel : nat) (ots : list (prng * prng)) (share : option (list bool)) (cols : nat)
    (xLsb xMsb : list (list N))
  : outcome (list (list N) * list ((prng * prng) * (list N * list N))) :=
  do _ <- throw_if (negb (length xLsb =? KeySize));
  do _ <- throw_if (negb (length xMsb =? 0) && negb (length xMsb =? KeySize));
  do _ <- throw_if (length ots =? 0);
  let row i := SRow (fst (nth i ots (Prng (fun _ => 0%N) 0, Prng (fun _ => 0%N) 0)))
                    (snd (nth i ots (Prng (fun _ => 0%N) 0, Prng (fun _ => 0%N) 0)))
                    (match share with Some k => nth i k false | None => false end)
                    (nth i xLsb [])
                    (if length xMsb =? 0 then None else Some (nth i xMsb [])) in
  km_send_loop fuel (KeySize / km_step) (map row (seq 0 KeySize)).

(* Receiver::mult, AltModKeyMult.cpp:9-88, on key OTs already set; cols = divCeil(n, 128) *)
Definition km_recv (fuel : nat) (ots : list prng) (key : list bool) (n : nat) (msgs : list (list N))
  : outcome (list (prng * (list N * list N))) :=
  do _ <- throw_if (negb (length ots =? KeySize));
  let row i := RRow (nth i ots (Prng (fun _ => 0%N) 0)) (nth i key false) in
  km_recv_loop fuel ((n + 127) / 128) (KeySize / km_step) (map row (seq 0 KeySize)) msgs.

(* The key OTs of the receiver: mKeyRecvOTs/mKey and the pending request.  [kReq] = Some n when
   mRecvKeyReq.size() is not zero, n the number of its batches already fetched; the request
   has one batch (KeySize OTs), whose content is [batch].  Receiver::mult, AltModKeyMult.cpp:18-28
   with Request::get, CorGenerator/Request.h:68-81. *)
Record rkeys := RKeys { kOts : list prng; kKey : list bool; kReq : option nat }.
(* the key OTs of the receiver, AltModKeyMult.cpp:17-32 *)
Definition km_recv_key (batch : list prng * list bool) (s : rkeys) : outcome rkeys :=
  match kReq s with
  | None => Ok s
  | Some n =>
    do _ <- throw_if (1 <=? n);
    do _ <- throw_if (negb ((length (snd batch) + 7) / 8 =? KeySize / 8));
    do _ <- throw_if (negb (length (fst batch) =? KeySize));
    Ok (RKeys (fst batch) (snd batch) (Some (S n)))
  end.

(* The key OTs of the sender: AltModKeyMult.cpp:163-170, the request is cleared (168). *)
Record skeys := SKeys { zOts : list (prng * prng); zShare : option (list bool); zReq : option nat }.
(* the key OTs of the sender, AltModKeyMult.cpp:163-170 *)
Definition km_send_key (batch : list (prng * prng)) (s : skeys) : outcome skeys :=
  match zReq s with
  | None => Ok s
  | Some n =>
    do _ <- throw_if (1 <=? n);
    do _ <- throw_if (negb (length batch =? KeySize));
    Ok (SKeys batch None None)
  end.
