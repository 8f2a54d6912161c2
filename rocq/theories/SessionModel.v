(* Model of the sessions of the alternating moduli PRF: init, setKeyOts, preprocess, clear and
   evaluate of AltModWPrfSender and AltModWPrfReceiver (Prf/AltModPrfProto.cpp:17-430), with
   AltModKeyMultSender and AltModKeyMultReceiver (Prf/AltModKeyMult.h:23-211) and the requests of
   ConvertToF3 (Prf/ConvertToF3.h:12-63).
   The requests go to the generator of CorGenModel.  What a batch delivers is a function of the
   segment (cors).  The protocol itself is PrfModel's.  u64 products are taken modulo 2^64.
   Simplified: both parties' calls of evaluate are one function, parties in different branches or
   with different mUseMod2F4Ot are not modelled (Hang). *)
From Verif Require Import Base CorGenModel ConvModel KeyMultModel PrfModel.

(* ---------------- requests ---------------- *)

(* RequestState, Request.h:14-52: mBatches_, mSize, mNextBatchIdx, and whether startReq was called *)
Record creq := CReq { cqSegs : list segment; cqSize : N; cqNext : nat; cqStarted : bool }.

(* Request::size, Request.h:92: 0 without a request *)
Definition req_size (q : option creq) : N := match q with Some r => cqSize r | None => 0%N end.

(* Request::start, Request.h:84-86, startReq, Request.cpp:44-54: without a request a null pointer
   is dereferenced *)
Definition req_start (q : option creq) : outcome (option creq) :=
  match q with
  | Some r => Ok (Some (CReq (cqSegs r) (cqSize r) (cqNext r) true))
  | None => UB
  end.

(* Request::get, Request.h:68-81: the next segment; the request is started *)
Definition req_next (r : creq) : outcome (segment * creq) :=
  do p <- req_get (cqSegs r) (cqNext r);
  Ok (fst p, CReq (cqSegs r) (cqSize r) (snd p) true).

(* CorGenerator::request, CorGenerator.h:171-211: the size is rounded, mSize is the rounded size *)
Definition make_req (dbg : bool) (t : cortype) (r : bool) (n : N) (g : gen) : outcome (gen * creq) :=
  do p <- request dbg t r n g;
  Ok (fst p, CReq (snd p) (round128 n) 0 false).

(* a u64 product, AltModPrfProto.cpp:45-51 *)
Definition mul64 (a b : N) : N := ((a * b) mod two64)%N.

(* ---------------- the key multiplications' setup ---------------- *)

(* AltModPrfKeyMode, AltModPrf.h:18-22 *)
Inductive kmode := KSenderOnly | KShared.
(* AltModPrfInputMode, AltModPrf.h:25-29 *)
Inductive imode := IReceiverOnly | IShared.

(* the test mKeyMode == Shared && mInputMode == Shared, AltModPrfProto.cpp:36-37, 85-86, 217-218, 271-272 *)
Definition both_shared (k : kmode) (i : imode) : bool :=
  match k, i with KShared, IShared => true | _, _ => false end.

(* AltModKeyMultSender, AltModKeyMult.h:23-42: mKeySendOTs, mOptionalKeyShare, mSendKeyReq *)
Record kms := KMS { msOts : list (prng * prng); msShare : option (list bool); msReq : option creq }.
(* AltModKeyMultReceiver, AltModKeyMult.h:124-141: mKeyRecvOTs, mKey (None: never written), mRecvKeyReq *)
Record kmr := KMR { mrOts : list prng; mrKey : option (list bool); mrReq : option creq }.

(* PRNG::SetSeed(seed), AltModKeyMult.h:87-91, 186-189: [sd] is the PRNG of a seed *)
Definition seed2 (sd : N -> prng) (p : N * N) : prng * prng := (sd (fst p), sd (snd p)).

(* AltModKeyMultSender::setKeyOts, AltModKeyMult.h:77-92 *)
Definition kms_set (sd : N -> prng) (share : option (list bool)) (ots : list (N * N)) (s : kms) : outcome kms :=
  do _ <- throw_if (negb (length ots =? KeySize));
  Ok (KMS (map (seed2 sd) ots) share (msReq s)).

(* AltModKeyMultSender::init, AltModKeyMult.h:48-62 *)
Definition kms_init (dbg : bool) (sd : N -> prng) (share : option (list bool)) (ots : list (N * N)) (g : gen) (s : kms)
  : outcome (gen * kms) :=
  match ots with
  | [] =>
    do _ <- throw_if (match share with Some _ => true | None => false end);
    do q <- make_req dbg COt true (N.of_nat KeySize) g;
    Ok (fst q, KMS (msOts s) (msShare s) (Some (snd q)))
  | _ => do s' <- kms_set sd share ots s; Ok (g, s')
  end.

(* AltModKeyMultReceiver::setKeyOts, AltModKeyMult.h:176-191 *)
Definition kmr_set (sd : N -> prng) (key : list bool) (ots : list N) (s : kmr) : outcome kmr :=
  do _ <- throw_if (negb (length ots =? KeySize));
  Ok (KMR (map sd ots) (Some key) (mrReq s)).

(* AltModKeyMultReceiver::init, AltModKeyMult.h:146-161: a key if and only if there are OTs *)
Definition kmr_init (dbg : bool) (sd : N -> prng) (key : option (list bool)) (ots : list N) (g : gen) (s : kmr)
  : outcome (gen * kmr) :=
  match key, ots with
  | None, [] =>
    do q <- make_req dbg COt false (N.of_nat KeySize) g;
    Ok (fst q, KMR (mrOts s) (mrKey s) (Some (snd q)))
  | Some k, _ :: _ => do s' <- kmr_set sd k ots s; Ok (g, s')
  | _, _ => Throw
  end.

(* AltModKeyMultSender::clear, AltModKeyMult.h:95-100 *)
Definition kms_clear (s : kms) : kms := KMS [] None None.
(* AltModKeyMultReceiver::clear, AltModKeyMult.h:194-199: the key becomes zero *)
Definition kmr_clear (s : kmr) : kmr := KMR [] (Some (repeat false KeySize)) None.

(* preprocess of the two key multiplications, AltModKeyMult.h:103-107 and 202-206 *)
Definition start_if (q : option creq) : outcome (option creq) :=
  if N.eqb (req_size q) 0 then Ok q else req_start q.
(* AltModKeyMultSender::preprocess, AltModKeyMult.h:103-107 *)
Definition kms_pre (s : kms) : outcome kms :=
  do q <- start_if (msReq s); Ok (KMS (msOts s) (msShare s) q).
(* AltModKeyMultReceiver::preprocess, AltModKeyMult.h:202-206 *)
Definition kmr_pre (s : kmr) : outcome kmr :=
  do q <- start_if (mrReq s); Ok (KMR (mrOts s) (mrKey s) q).

(* what the batches deliver (Batch::getCor) for a segment: the OTs of the sender and, with the
   choice bits, of the receiver, and the F4 OTs, OLEs and trit OTs of 128 positions each
   (Correlations.h:26-120) *)
Record cors := Cors { cOtS : segment -> list (N * N); cOtR : segment -> list N * list bool;
                      cF4S : segment -> list f4_s; cF4R : segment -> list f4_r;
                      cOle : segment -> list ole;
                      cTrS : segment -> list trit_s; cTrR : segment -> list trit_r }.

(* the start of AltModKeyMultSender::mult, AltModKeyMult.cpp:162-173: the key OTs of a request are
   fetched with one get(), the request is cleared *)
Definition kms_fetch (sd : N -> prng) (c : cors) (s : kms) : outcome kms :=
  do s' <- (match msReq s with
    | Some r =>
      if N.eqb (cqSize r) 0 then Ok s else
      do p <- req_next r;
      do s' <- kms_set sd None (cOtS c (fst p)) s;
      Ok (KMS (msOts s') (msShare s') None)
    | None => Ok s end);
  do _ <- throw_if (length (msOts s') =? 0);
  Ok s'.

(* the start of AltModKeyMultReceiver::mult, AltModKeyMult.cpp:17-32: one get(), then the choice
   bits become the key; the request stays *)
Definition kmr_fetch (sd : N -> prng) (c : cors) (s : kmr) : outcome kmr :=
  do s' <- (match mrReq s with
    | Some r =>
      if N.eqb (cqSize r) 0 then Ok s else
      do p <- req_next r;
      let ot := cOtR c (fst p) in
      do _ <- throw_if (negb ((length (snd ot) + 7) / 8 =? KeySize / 8));
      kmr_set sd (snd ot) (fst ot) (KMR (mrOts s) (mrKey s) (Some (snd p)))
    | None => Ok s end);
  do _ <- throw_if (negb (length (mrOts s') =? KeySize));
  Ok s'.

(* ---------------- the two parties ---------------- *)

(* AltModWPrfSender, AltModPrfProto.h:34-79 *)
Record sender := Sender { sdSize : N; sdF4 : bool; sdK : kmode; sdI : imode; sdKR : kmr; sdKS : kms;
                          sdReqF4 : option creq; sdReqOle : option creq; sdConv : option creq }.
(* AltModWPrfReceiver, AltModPrfProto.h:148-194 *)
Record recver := Recver { rvSize : N; rvF4 : bool; rvK : kmode; rvI : imode; rvKR : kmr; rvKS : kms;
                          rvReqF4 : option creq; rvReqOle : option creq; rvConv : option creq }.

(* default constructed objects with mUseMod2F4Ot = f4, AltModPrfProto.h:58-71, 172-186 *)
Definition sender0 (f4 : bool) : sender :=
  Sender 0 f4 KSenderOnly IReceiverOnly (KMR [] None None) (KMS [] None None) None None None.
(* default constructed objects with mUseMod2F4Ot = f4, AltModPrfProto.h:58-71, 172-186 *)
Definition recver0 (f4 : bool) : recver :=
  Recver 0 f4 KSenderOnly IReceiverOnly (KMR [] None None) (KMS [] None None) None None None.

(* the mod 2 request of both init functions, AltModPrfProto.cpp:43-52 and 278-287; result: the F4
   request and the OLE request *)
Definition mod2_request (dbg f4 role party : bool) (n128 : N) (f o : option creq) (g : gen)
  : outcome (gen * (option creq * option creq)) :=
  if f4 then do q <- make_req dbg CF4 role (mul64 n128 (N.of_nat MidSize)) g; Ok (fst q, (Some (snd q), o))
  else do q <- make_req dbg COle party (mul64 (mul64 n128 (N.of_nat MidSize)) 2) g; Ok (fst q, (f, Some (snd q))).

(* AltModWPrfSender::init, AltModPrfProto.cpp:17-53.  [party] is the generator's partyIdx, the role
   of BinOle requests. *)
Definition send_init (dbg : bool) (sd : N -> prng) (party : bool) (size : N) (k : kmode) (i : imode)
    (key : option (list bool)) (rots : list N) (sots : list (N * N)) (g : gen) (s : sender) : outcome (gen * sender) :=
  do _ <- throw_if (xorb (match key with Some _ => true | None => false end) (KeySize =? length rots));
  do kr <- kmr_init dbg sd key rots g (sdKR s);
  let n128 := round128 size in
  do sc <- (if both_shared k i then
       do ks <- kms_init dbg sd key sots (fst kr) (sdKS s);
       do q <- make_req dbg CTrit true (mul64 n128 (N.of_nat KeySize)) (fst ks);
       Ok (fst q, (snd ks, Some (snd q)))
     else Ok (fst kr, (sdKS s, sdConv s)));
  do m <- mod2_request dbg (sdF4 s) true party n128 (sdReqF4 s) (sdReqOle s) (fst sc);
  Ok (fst m, Sender size (sdF4 s) k i (snd kr) (fst (snd sc)) (fst (snd m)) (snd (snd m)) (snd (snd sc))).

(* AltModWPrfReceiver::init, AltModPrfProto.cpp:249-289 *)
Definition recv_init (dbg : bool) (sd : N -> prng) (party : bool) (size : N) (k : kmode) (i : imode)
    (share : option (list bool)) (sots : list (N * N)) (rots : list N) (g : gen) (s : recver) : outcome (gen * recver) :=
  do _ <- throw_if (negb (length sots =? KeySize) && negb (length sots =? 0));
  do _ <- throw_if (N.eqb size 0);
  do _ <- throw_if (negb (N.eqb (rvSize s) 0));
  let n128 := round128 size in
  do ks <- kms_init dbg sd share sots g (rvKS s);
  do rc <- (if both_shared k i then
       do kr <- kmr_init dbg sd share rots (fst ks) (rvKR s);
       do q <- make_req dbg CTrit false (mul64 n128 (N.of_nat KeySize)) (fst kr);
       Ok (fst q, (snd kr, Some (snd q)))
     else Ok (fst ks, (rvKR s, rvConv s)));
  do m <- mod2_request dbg (rvF4 s) false party n128 (rvReqF4 s) (rvReqOle s) (fst rc);
  Ok (fst m, Recver size (rvF4 s) k i (fst (snd rc)) (snd ks) (fst (snd m)) (snd (snd m)) (snd (snd rc))).

(* AltModWPrfSender::clear, AltModPrfProto.cpp:56-63: mConvToF3 and the modes stay *)
Definition send_clear (s : sender) : sender :=
  Sender 0 (sdF4 s) (sdK s) (sdI s) (kmr_clear (sdKR s)) (kms_clear (sdKS s)) None None (sdConv s).
(* AltModWPrfReceiver::clear, AltModPrfProto.cpp:234-241 *)
Definition recv_clear (s : recver) : recver :=
  Recver 0 (rvF4 s) (rvK s) (rvI s) (kmr_clear (rvKR s)) (kms_clear (rvKS s)) None None (rvConv s).

(* AltModWPrfSender::preprocess, AltModPrfProto.cpp:66-76 *)
Definition send_pre (s : sender) : outcome sender :=
  do kr <- kmr_pre (sdKR s);
  do ks <- kms_pre (sdKS s);
  if sdF4 s then do q <- req_start (sdReqF4 s); Ok (Sender (sdSize s) true (sdK s) (sdI s) kr ks q (sdReqOle s) (sdConv s))
  else do q <- req_start (sdReqOle s); Ok (Sender (sdSize s) false (sdK s) (sdI s) kr ks (sdReqF4 s) q (sdConv s)).

(* AltModWPrfReceiver::preprocess, AltModPrfProto.cpp:291-300: mKeyMultRecver twice *)
Definition recv_pre (s : recver) : outcome recver :=
  do s1 <- (if rvF4 s then do q <- req_start (rvReqF4 s); Ok (Recver (rvSize s) true (rvK s) (rvI s) (rvKR s) (rvKS s) q (rvReqOle s) (rvConv s))
            else do q <- req_start (rvReqOle s); Ok (Recver (rvSize s) false (rvK s) (rvI s) (rvKR s) (rvKS s) (rvReqF4 s) q (rvConv s)));
  do kr <- kmr_pre (rvKR s1);
  do kr' <- kmr_pre kr;
  Ok (Recver (rvSize s1) (rvF4 s1) (rvK s1) (rvI s1) kr' (rvKS s1) (rvReqF4 s1) (rvReqOle s1) (rvConv s1)).

(* AltModWPrfSender::setKeyOts, AltModPrfProto.cpp:78-95 *)
Definition send_setKeyOts (sd : N -> prng) (k : list bool) (ots : list N) (sots : list (N * N)) (s : sender) : outcome sender :=
  do kr <- kmr_set sd k ots (sdKR s);
  do ks <- (if both_shared (sdK s) (sdI s) then kms_set sd (Some k) sots (sdKS s)
            else do _ <- throw_if (negb (length sots =? 0)); Ok (sdKS s));
  Ok (Sender (sdSize s) (sdF4 s) (sdK s) (sdI s) kr ks (sdReqF4 s) (sdReqOle s) (sdConv s)).

(* AltModWPrfReceiver::setKeyOts, AltModPrfProto.cpp:210-231 *)
Definition recv_setKeyOts (sd : N -> prng) (ots : list (N * N)) (share : option (list bool)) (rots : list N) (s : recver) : outcome recver :=
  do ks <- kms_set sd share ots (rvKS s);
  do kr <- (if both_shared (rvK s) (rvI s) then
              match share with None => Throw | Some k => kmr_set sd k rots (rvKR s) end
            else do _ <- throw_if (negb (length rots =? 0)); Ok (rvKR s));
  Ok (Recver (rvSize s) (rvF4 s) (rvK s) (rvI s) kr ks (rvReqF4 s) (rvReqOle s) (rvConv s)).

(* ---------------- evaluate ---------------- *)

(* the sizes tested before anything is sent, AltModPrfProto.cpp:109-118 and 319-328 *)
Definition mod2_sizes (f4 : bool) (f o : option creq) (ny : N) : outcome unit :=
  if f4 then throw_if (negb (N.eqb (req_size f) (mul64 (round128 ny) (N.of_nat MidSize))))
  else throw_if (negb (N.eqb (req_size o) (mul64 (mul64 (round128 ny) (N.of_nat MidSize)) 2))).

(* AltModWPrfSender::evaluate, AltModPrfProto.cpp:103-118 *)
Definition send_checks (s : sender) (nx ny : N) : outcome unit :=
  do _ <- throw_if (negb (N.eqb nx (match sdI s with IShared => sdSize s | IReceiverOnly => 0 end)));
  do _ <- throw_if (negb (N.eqb ny (sdSize s)));
  mod2_sizes (sdF4 s) (sdReqF4 s) (sdReqOle s) ny.

(* AltModWPrfReceiver::evaluate, AltModPrfProto.cpp:310-328 *)
Definition recv_checks (s : recver) (nx ny : N) : outcome unit :=
  do _ <- throw_if (N.eqb (rvSize s) 0);
  do _ <- throw_if (negb (N.eqb nx (rvSize s)));
  do _ <- throw_if (negb (N.eqb ny (rvSize s)));
  mod2_sizes (rvF4 s) (rvReqF4 s) (rvReqOle s) ny.

(* the segments a request still has, Request.h:68-81 *)
Definition rest (q : option creq) : list segment :=
  match q with Some r => skipn (cqNext r) (cqSegs r) | None => [] end.
(* the request after every segment was fetched, Request.h:68-81 *)
Definition used (q : option creq) : option creq :=
  match q with Some r => Some (CReq (cqSegs r) (cqSize r) (length (cqSegs r)) true) | None => None end.

(* the correlations of the mod 2 step, mMod2F4Req or mMod2OleReq, AltModPrfProto.cpp:198-201, 413-416;
   flags that differ are not modelled *)
Definition mod2_cors (cs cr : cors) (s : sender) (r : recver) : outcome mod2_cor :=
  match sdF4 s, rvF4 r with
  | true, true => Ok (CorF4 (map (cF4S cs) (rest (sdReqF4 s))) (map (cF4R cr) (rest (rvReqF4 r))))
  | false, false => Ok (CorOle (map (cOle cs) (rest (sdReqOle s))) (map (cOle cr) (rest (rvReqOle r))))
  | _, _ => Hang
  end.

(* reading mKey, AltModKeyMult.h:135: indeterminate if it was never written *)
Definition key_of (s : kmr) : outcome (list bool) :=
  match mrKey s with Some k => Ok k | None => UB end.

(* the PRNGs of a key multiplication move on; what they are afterwards is not tracked, every init
   with OTs and every request replaces them (AltModKeyMult.h:77-92, 176-191) *)
Definition send_done (s : sender) (kr : kmr) (ks : kms) : sender :=
  Sender 0 (sdF4 s) (sdK s) (sdI s) kr ks (if sdF4 s then used (sdReqF4 s) else sdReqF4 s)
    (if sdF4 s then sdReqOle s else used (sdReqOle s))
    (if both_shared (sdK s) (sdI s) then used (sdConv s) else sdConv s).
(* the receiver after evaluate, AltModPrfProto.cpp:303-424 *)
Definition recv_done (s : recver) (kr : kmr) (ks : kms) : recver :=
  Recver 0 (rvF4 s) (rvK s) (rvI s) kr ks (if rvF4 s then used (rvReqF4 s) else rvReqF4 s)
    (if rvF4 s then rvReqOle s else used (rvReqOle s))
    (if both_shared (rvK s) (rvI s) then used (rvConv s) else rvConv s).

(* AltModWPrfSender::evaluate and AltModWPrfReceiver::evaluate, AltModPrfProto.cpp:97-208 and
   303-424.  [ns] and [nr] are the sizes of the two output spans.  The first branch is taken for
   the input mode ReceiverOnly (the key mode test is always true), the second otherwise; its
   test for unsupported modes (139-141, 355-357) never fires since the input mode is Shared. *)
Definition evaluate2 (fuel : nat) (p : prf) (sd : N -> prng) (cs cr : cors) (s : sender) (r : recver)
    (xs xr : list N) (ns nr : N) : outcome ((list N * list N) * (sender * recver)) :=
  do _ <- send_checks s (N.of_nat (length xs)) ns;
  do _ <- recv_checks r (N.of_nat (length xr)) nr;
  let n := N.to_nat nr in
  match sdI s, rvI r with
  | IReceiverOnly, IReceiverOnly =>
    do ks <- kms_fetch sd cr (rvKS r);
    do kr <- kmr_fetch sd cs (sdKR s);
    do key <- key_of kr;
    do c <- mod2_cors cs cr s r;
    do y <- prf_run_ro fuel p c n (msOts ks) (msShare ks) (mrOts kr) key xr;
    Ok (y, (send_done s kr (sdKS s), recv_done r (rvKR r) ks))
  | IShared, IShared =>
    do _ <- throw_if (match msShare (sdKS s) with None => true | _ => false end);
    do _ <- throw_if (match msShare (rvKS r) with None => true | _ => false end);
    do sk <- key_of (sdKR s);
    do rk <- key_of (rvKR r);
    let cks := PKeys (msShare (sdKS s)) sk in
    let ckr := PKeys (msShare (rvKS r)) rk in
    do _ <- key_checks (cks [] []);
    do _ <- key_checks (ckr [] []);
    do rks <- kms_fetch sd cr (rvKS r);
    do skr <- kmr_fetch sd cs (sdKR s);
    do sks <- kms_fetch sd cs (sdKS s);
    do rkr <- kmr_fetch sd cr (rvKR r);
    do c <- mod2_cors cs cr s r;
    do y <- prf_run_shared fuel p c n (map (cTrS cs) (rest (sdConv s))) (map (cTrR cr) (rest (rvConv r)))
              (PKeys (msShare sks) sk (msOts sks) (mrOts skr))
              (PKeys (msShare rks) rk (msOts rks) (mrOts rkr)) xs xr;
    Ok (y, (send_done s skr sks, recv_done r rkr rks))
  | _, _ => Hang
  end.

(* ---------------- a session ---------------- *)

(* what the callers pass in: the size, the modes, the sender's key and OTs (keyRecvOts,
   keySendOts), the receiver's share and OTs (keyOts, keyRecvOts), AltModPrfProto.h:87-94, 207-213 *)
Record sargs := SArgs { aSize : N; aK : kmode; aI : imode;
  aKey : option (list bool); aRots : list N; aSots : list (N * N);
  aShare : option (list bool); aSots' : list (N * N); aRots' : list N }.

(* init, preprocess (if [pre]) and evaluate on both sides, the calls of AltModPerm.h:36-56, 99-120
   and AltModPerm.cpp:84, 128.  [party] is the partyIdx of the sender's generator. *)
Definition session (dbg : bool) (fuel : nat) (p : prf) (sd : N -> prng) (cs cr : cors) (party pre : bool) (a : sargs)
    (xs xr : list N) (st : (gen * gen) * (sender * recver)) : outcome ((list N * list N) * ((gen * gen) * (sender * recver))) :=
  do si <- send_init dbg sd party (aSize a) (aK a) (aI a) (aKey a) (aRots a) (aSots a) (fst (fst st)) (fst (snd st));
  do ri <- recv_init dbg sd (negb party) (aSize a) (aK a) (aI a) (aShare a) (aSots' a) (aRots' a) (snd (fst st)) (snd (snd st));
  do s <- (if pre then send_pre (snd si) else Ok (snd si));
  do r <- (if pre then recv_pre (snd ri) else Ok (snd ri));
  do e <- evaluate2 fuel p sd cs cr s r xs xr (aSize a) (aSize a);
  Ok (fst e, ((fst si, fst ri), snd e)).

(* sessions one after the other on the same objects and generators, AltModPrfProto.h:34-194 *)
Fixpoint sessions (dbg : bool) (fuel : nat) (p : prf) (sd : N -> prng) (cs cr : cors) (party : bool)
    (l : list (bool * sargs * (list N * list N))) (st : (gen * gen) * (sender * recver))
  : outcome (list (list N * list N) * ((gen * gen) * (sender * recver))) :=
  match l with
  | [] => Ok ([], st)
  | (pre, a, (xs, xr)) :: l' =>
    do o <- session dbg fuel p sd cs cr party pre a xs xr st;
    do os <- sessions dbg fuel p sd cs cr party l' (snd o);
    Ok (fst o :: fst os, snd os)
  end.
