(* Model of how correlations get from the batches to those who asked for them: what the tasks of
   the batches leave behind (OtBatch.cpp:20-67, BinOleBatch.cpp:158-260, F4BitOtBatch.cpp:111-446,
   TritOtBatch.cpp:104-386), Batch::getCor (OtBatch.cpp:70-96, BinOleBatch.cpp:18-28,
   F4BitOtBatch.cpp:21-45, TritOtBatch.cpp:21-49), Request<Cor>::get and batchCount
   (Request.h:68-92, Request.cpp:56-59), and the comparison of the requests of the two parties that
   GenState::start makes with mDebug (CorGenerator.cpp:167-219).
   The batches' tasks are done when getCor is called (mCorReady, Request.h:76).  A span that leaves
   its vector is undefined; std::terminate ends the process and is a Throw here. *)
From Verif Require Import Base Words SimdModel Mod3Model GF4Model CompressModel ConvModel CorGenModel SessionModel.

(* ---------------- what a batch holds ---------------- *)

(* the members the tasks fill: mMsg2; mMsg, mChoice (OtBatch.h); mAdd, mMult (BinOleBatch.h);
   mOts[4]; mOts, mChoiceLsb, mChoiceMsb (F4BitOtBatch.h); mLsb[2], mMsb[2]; mChoice, mLsb, mMsb
   (TritOtBatch.h).  What getCor hands out has the same shape (Correlations.h:71-215). *)
Inductive bout :=
| OutOtS (msg : list (N * N))
| OutOtR (msg : list N) (choice : list bool)
| OutOle (add mult : list N)
| OutF4S (o0 o1 o2 o3 : list N)
| OutF4R (ots lsb msb : list N)
| OutTrS (l0 m0 l1 m1 : list N)
| OutTrR (choice lsb msb : list N).

(* the type and role an output belongs to (makeBatch, Batch.cpp:11-32, and the constructors
   OtBatch.cpp:7-18, F4BitOtBatch.cpp:12-19, TritOtBatch.cpp:12-19); an OLE batch keeps its output
   in the same members in either role *)
Definition fits (t : cortype) (r : bool) (o : bout) : bool :=
  match t, r, o with
  | COt, true, OutOtS _ => true | COt, false, OutOtR _ _ => true
  | COle, _, OutOle _ _ => true
  | CF4, true, OutF4S _ _ _ _ => true | CF4, false, OutF4R _ _ _ => true
  | CTrit, true, OutTrS _ _ _ _ => true | CTrit, false, OutTrR _ _ _ => true
  | _, _, _ => false
  end.

(* the type check at the start of getCor, OtBatch.cpp:74-75, 81-82, BinOleBatch.cpp:20-21,
   F4BitOtBatch.cpp:23-24, TritOtBatch.cpp:23-24 *)
Definition type_of (o : bout) : cortype :=
  match o with
  | OutOtS _ | OutOtR _ _ => COt | OutOle _ _ => COle
  | OutF4S _ _ _ _ | OutF4R _ _ _ => CF4 | OutTrS _ _ _ _ | OutTrR _ _ _ => CTrit
  end.

(* the asserts begin % 128 == 0 and size % 128 == 0, BinOleBatch.cpp:24-25, F4BitOtBatch.cpp:28-29,
   TritOtBatch.cpp:27-28 *)
Definition aligned (dbg : bool) (begin size : N) : outcome unit :=
  if dbg && negb ((begin mod 128 =? 0)%N && (size mod 128 =? 0)%N) then UB else Ok tt.

(* Batch::getCor for an object of type t and role r: what it gets, and the batch afterwards.  When
   the segment is as long as the choice bits these are moved out of the batch (OtBatch.cpp:89-90),
   otherwise copied. *)
Definition get_cor (dbg : bool) (t : cortype) (r : bool) (begin size : N) (o : bout) : outcome (bout * bout) :=
  do _ <- throw_if (negb (ct_eqb t (type_of o)));
  if negb (fits t r o) then UB else
  let b := N.to_nat begin in let n := N.to_nat size in
  let b' := N.to_nat (begin / 128) in let n' := N.to_nat (size / 128) in
  match o with
  | OutOtS msg => do m <- readN msg b n; Ok (OutOtS m, o)
  | OutOtR msg choice =>
    do m <- readN msg b n;
    if n =? length choice then Ok (OutOtR m choice, OutOtR msg [])
    else
      do _ <- throw_if (length choice <? b + n);
      do c <- readN choice b n; Ok (OutOtR m c, o)
  | OutOle add mult =>
    do _ <- aligned dbg begin size;
    do a <- readN add b' n'; do m <- readN mult b' n'; Ok (OutOle a m, o)
  | OutF4S o0 o1 o2 o3 =>
    do _ <- aligned dbg begin size;
    do p0 <- readN o0 b' n'; do p1 <- readN o1 b' n'; do p2 <- readN o2 b' n'; do p3 <- readN o3 b' n';
    Ok (OutF4S p0 p1 p2 p3, o)
  | OutF4R ots lsb msb =>
    do _ <- aligned dbg begin size;
    do p <- readN ots b' n'; do l <- readN lsb b' n'; do m <- readN msb b' n';
    Ok (OutF4R p l m, o)
  | OutTrS l0 m0 l1 m1 =>
    do _ <- aligned dbg begin size;
    do a <- readN l0 b' n'; do b <- readN m0 b' n'; do c <- readN l1 b' n'; do d <- readN m1 b' n';
    Ok (OutTrS a b c d, o)
  | OutTrR ch lsb msb =>
    do _ <- aligned dbg begin size;
    do c <- readN ch b' n'; do l <- readN lsb b' n'; do m <- readN msb b' n';
    Ok (OutTrR c l m, o)
  end.

(* ---------------- Request ---------------- *)

(* Request<Cor> with its RequestState, Request.h:14-66: type, role, mBatches_, mNextBatchIdx *)
Record reqst := ReqSt { rqType : cortype; rqRole : bool; rqSegs : list segment; rqIdx : nat }.

(* Request::get, Request.h:68-81, on the outputs of all batches *)
Definition get_one (dbg : bool) (outs : list bout) (q : reqst) : outcome (bout * list bout * reqst) :=
  do p <- req_get (rqSegs q) (rqIdx q);
  let s := fst p in
  do o <- get outs (sBatch s);
  do c <- get_cor dbg (rqType q) (rqRole q) (sBegin s) (sSize s) o;
  Ok (fst c, upd outs (sBatch s) (snd c), ReqSt (rqType q) (rqRole q) (rqSegs q) (snd p)).

(* calls of get (Request.h:68-81) on the requests number ord[0], ord[1], ... *)
Fixpoint get_all (dbg : bool) (ord : list nat) (outs : list bout) (qs : list reqst)
  : outcome (list bout * list bout * list reqst) :=
  match ord with
  | [] => Ok ([], outs, qs)
  | i :: ord' =>
    do q <- get qs i;
    do x <- get_one dbg outs q;
    do y <- get_all dbg ord' (snd (fst x)) (upd qs i (snd x));
    Ok (fst (fst x) :: fst (fst y), snd (fst y), snd y)
  end.

(* the requests a history of calls of CorGenerator::request leaves (CorGenerator.h:170-211,
   Request.cpp:9-22) *)
Definition make_reqs (qs : list (cortype * bool * N)) (segss : list (list segment)) : list reqst :=
  map2 (fun q segs => ReqSt (fst (fst q)) (snd (fst q)) segs 0) qs segss.

(* RequestState::batchCount, Request.cpp:56-59; n is mSize, the rounded size *)
Definition batch_count (bs n : N) : N := ((n + bs - 1) / bs + 1)%N.

(* ---------------- the tasks ---------------- *)

(* vectors written through u8* or u16*, read as blocks: the words (each cut to w bits by the
   store) of block i, BinOleBatch.cpp:268-274, TritOtBatch.cpp:394-400, F4BitOtBatch.cpp:448-455 *)
Definition as_blocks (w k : nat) (l : list N) : list N :=
  map (fun i => of_words (N.of_nat w) (map (fun x => N.land x (N.ones (N.of_nat w))) (slice l (i * (128 / w)) (128 / w))))
    (seq 0 k).

(* OtBatch::SendOtBatch::mock and RecvOtBatch::mock, OtBatch.cpp:30-45, 56-67 with the resizes of
   getTask, 143-153; aes = ecbEncBlock(block(batchIdx,0)); the counter is a u32 *)
Definition ot_mock_m (aes : N) (i : nat) : N * N :=
  let v := N.of_nat i in let w := (2 ^ 64 - 1 - v)%N in
  (N.lxor (join64 v v) aes, N.lxor (join64 w w) aes).
(* OtBatch.cpp:30-45 *)
Definition ot_mock_recver (aes : N) (n : nat) : outcome bout :=
  if (2 ^ 32 <=? N.of_nat n)%N then Hang else
  let ch := map (fun i => N.testbit aes (N.of_nat (i mod 8))) (seq 0 n) in
  Ok (OutOtR (map (fun i => let m := ot_mock_m aes i in if nth i ch false then snd m else fst m) (seq 0 n)) ch).
(* OtBatch.cpp:56-67 *)
Definition ot_mock_sender (aes : N) (n : nat) : outcome bout :=
  if (2 ^ 32 <=? N.of_nat n)%N then Hang else Ok (OutOtS (map (ot_mock_m aes) (seq 0 n))).

(* the assert n % 128 == 0 of the mocks, F4BitOtBatch.cpp:116, 199, TritOtBatch.cpp:107, 143 *)
Definition mock_size (dbg : bool) (n : N) : outcome unit :=
  if dbg && negb (n mod 128 =? 0)%N then UB else Ok tt.

(* the task of a batch in mock mode: OtBatch.cpp:138-154, BinOleBatch.cpp:171-176, 228-233,
   F4BitOtBatch.cpp:111-127, 191-208 (the taken branches), TritOtBatch.cpp:104-177 *)
Definition mock_task (dbg : bool) (aes : N) (b : batch) : outcome bout :=
  let n := N.to_nat (bSize b) in
  let m := N.to_nat (bSize b / 128) in
  let mc := N.to_nat ((bSize b + 127) / 128) in
  match bType b, bSender b with
  | COt, true => ot_mock_sender aes n
  | COt, false => ot_mock_recver aes n
  | COle, true => do p <- ole_mock_sender aes mc; Ok (OutOle (fst p) (snd p))
  | COle, false => do p <- ole_mock_recver aes mc; Ok (OutOle (fst p) (snd p))
  | CF4, true => do _ <- mock_size dbg (bSize b);
      Ok (OutF4S (repeat 0%N m) (repeat 0%N m) (repeat 0%N m) (repeat 0%N m))
  | CF4, false => do _ <- mock_size dbg (bSize b);
      Ok (OutF4R (repeat 0%N m) (repeat 0%N m) (repeat 0%N m))
  | CTrit, true => do _ <- mock_size dbg (bSize b);
      let '((m0, l0), (m1, l1)) := trit_mock_sender m in Ok (OutTrS l0 m0 l1 m1)
  | CTrit, false => do _ <- mock_size dbg (bSize b);
      let '(c, ms, ls) := trit_mock_recver m in Ok (OutTrR c ls ms)
  end.

(* all batches in mock mode; batch i encrypts its index, OtBatch.cpp:32, 58, BinOleBatch.cpp:262-285,
   so aes is the same function for both parties *)
Fixpoint mock_store (dbg : bool) (aes : nat -> N) (i : nat) (bs : list batch) : outcome (list bout) :=
  match bs with
  | [] => Ok []
  | b :: bs' => do o <- mock_task dbg (aes i) b; do r <- mock_store dbg aes (S i) bs'; Ok (o :: r)
  end.

(* the tasks of a batch in real mode, from the output of the silent OT / VOLE on: A and B are the
   vectors silentReceiveInplace and silentSendInplace fill, mSize long: BinOleBatch.cpp:169-170,
   200, 223-224, 250; F4BitOtBatch.cpp:446-723; TritOtBatch.cpp:387-514 *)
Definition ole_task_s (H : N -> N) (delta : N) (B : list N) (size : N) : outcome bout :=
  let k := N.to_nat ((size + 127) / 128) in
  do p <- ole_compress_sender H delta B k k; Ok (OutOle (as_blocks 16 k (fst p)) (as_blocks 16 k (snd p))).
(* BinOleBatch.cpp:169-200 *)
Definition ole_task_r (H : N -> N) (A : list N) (size : N) : outcome bout :=
  let k := N.to_nat ((size + 127) / 128) in
  do p <- ole_compress_recver H A k k; Ok (OutOle (as_blocks 16 k (fst p)) (as_blocks 8 k (snd p))).
(* F4BitOtBatch.cpp:585-723: mOts[j] has as many blocks as B has entries; those behind the written
   ones are not initialised (here 0) and no segment reaches them *)
Definition f4_task_s (H : N -> N) (delta : N) (B : list N) : outcome bout :=
  do p <- f4_compress_sender H delta B;
  let '(o0, o1, o2, o3) := p in let k := length B in
  Ok (OutF4S (as_blocks 16 k o0) (as_blocks 16 k o1) (as_blocks 16 k o2) (as_blocks 16 k o3)).
(* F4BitOtBatch.cpp:446-582 *)
Definition f4_task_r (H : N -> N) (A : list N) : outcome bout :=
  do p <- f4_compress_recver H A;
  let '(ots, ls, ms) := p in let k := length A in
  Ok (OutF4R (as_blocks 16 k ots) (as_blocks 8 k ls) (as_blocks 8 k ms)).
(* TritOtBatch.cpp:449-514 *)
Definition trit_task_s (H : N -> N) (delta : N) (B : list N) : outcome bout :=
  do p <- trit_compress_sender H delta B;
  let '((m0, l0), (m1, l1)) := p in let k := length B / 128 in
  Ok (OutTrS (as_blocks 8 k l0) (as_blocks 8 k m0) (as_blocks 8 k l1) (as_blocks 8 k m1)).
(* TritOtBatch.cpp:387-446 *)
Definition trit_task_r (H : N -> N) (A : list N) : outcome bout :=
  do p <- trit_compress_recver H A;
  let '(c, ms, ls) := p in let k := length A / 128 in
  Ok (OutTrR (as_blocks 8 k c) (as_blocks 8 k ls) (as_blocks 8 k ms)).

(* the check of the OTs with mDebug, OtBatch.cpp:228-243: the sender sends its messages; false:
   terminate *)
Definition ot_debug (s r : bout) : bool :=
  match s, r with
  | OutOtS msg, OutOtR m c =>
    forallb (fun i => N.eqb (nth i m 0%N) (let p := nth i msg (0, 0)%N in if nth i c false then snd p else fst p))
      (seq 0 (length m))
  | _, _ => true
  end.

(* ---------------- correlations for the sessions ---------------- *)

(* what the requests of a session (SessionModel.cors) get: getCor of the segment's batch, position
   by position (Correlations.h:71-215).  The function is total: a segment that lies in no batch gets
   zeros; a generator never hands one out *)
Definition got (bs : list batch) (outs : list bout) (t : cortype) (r : bool) (s : segment) : option bout :=
  match nth_error bs (sBatch s), nth_error outs (sBatch s) with
  | Some b, Some o =>
    if (sBegin s mod 128 =? 0)%N && (sSize s mod 128 =? 0)%N && (sBegin s + sSize s <=? bSize b)%N then
      match get_cor false t r (sBegin s) (sSize s) o with Ok p => Some (fst p) | _ => None end
    else None
  | _, _ => None
  end.
(* Correlations.h:71-215 *)
Definition cors_of (bs : list batch) (outs : list bout) : cors :=
  let n s := N.to_nat (sSize s) in let k s := N.to_nat (sSize s / 128) in
  {| cOtS := fun s => match got bs outs COt true s with Some (OutOtS m) => m | _ => repeat (0, 0)%N (n s) end;
     cOtR := fun s => match got bs outs COt false s with Some (OutOtR m c) => (m, c) | _ => (repeat 0%N (n s), repeat false (n s)) end;
     cF4S := fun s => match got bs outs CF4 true s with
       | Some (OutF4S o0 o1 o2 o3) => map (fun i => F4S (nth i o0 0%N) (nth i o1 0%N) (nth i o2 0%N) (nth i o3 0%N)) (seq 0 (k s))
       | _ => repeat (F4S 0 0 0 0) (k s) end;
     cF4R := fun s => match got bs outs CF4 false s with
       | Some (OutF4R o l m) => map (fun i => F4R (nth i l 0%N) (nth i m 0%N) (nth i o 0%N)) (seq 0 (k s))
       | _ => repeat (F4R 0 0 0) (k s) end;
     cOle := fun s => match got bs outs COle false s with
       | Some (OutOle a m) => map (fun i => (nth i a 0%N, nth i m 0%N)) (seq 0 (k s))
       | _ => repeat (0, 0)%N (k s) end;
     cTrS := fun s => match got bs outs CTrit true s with
       | Some (OutTrS l0 m0 l1 m1) => map (fun i => TritS (nth i l0 0%N) (nth i m0 0%N) (nth i l1 0%N) (nth i m1 0%N)) (seq 0 (k s))
       | _ => repeat (TritS 0 0 0 0) (k s) end;
     cTrR := fun s => match got bs outs CTrit false s with
       | Some (OutTrR c l m) => map (fun i => TritR (nth i c 0%N) (nth i l 0%N) (nth i m 0%N)) (seq 0 (k s))
       | _ => repeat (TritR 0 0 0) (k s) end |}.

(* ---------------- comparing the requests (mDebug) ---------------- *)

(* ReqInfo, CorGenerator.h:65-82 *)
Definition req := (cortype * bool * N)%type.
(* where a party is in the loop CorGenerator.cpp:170-176: at the condition with counter i, waiting
   for a message, behind the loop *)
Inductive dphase := DTop (i : nat) | DWait | DOut.
(* theirReq and the number of messages received and sent, CorGenerator.cpp:153, 172-173 *)
Record dparty := DParty { dPhase : dphase; dTheirs : list req; dIn : nat; dSent : nat }.

(* roles of the received requests flipped, CorGenerator.cpp:174-175 *)
Definition flip_role (q : req) : req := let '(t, r, n) := q in (t, negb r, n).

(* one step of a party with requests mine against one with requests theirs; avail: how many
   messages the other has sent.  None: blocked or done.  The inner loop CorGenerator.cpp:174-175
   reuses i: it ends with i = theirReq.size(), and the outer loop goes on from there. *)
Definition dstep (mine theirs : list req) (avail : nat) (p : dparty) : option dparty :=
  match dPhase p with
  | DTop i =>
    if i <? length mine then Some (DParty DWait (dTheirs p) (dIn p) (S (dSent p)))
    else Some (DParty DOut (dTheirs p) (dIn p) (dSent p))
  | DWait =>
    if dIn p <? avail then Some (DParty (DTop (S (length theirs))) (map flip_role theirs) (S (dIn p)) (dSent p))
    else None
  | DOut => None
  end.

(* any party may take the next step (CorGenerator.cpp:167-176 on both sides) *)
Inductive dsteps (a b : list req) : dparty * dparty -> dparty * dparty -> Prop :=
| ds_refl x : dsteps a b x x
| ds_left x p q p' : dsteps a b x (p, q) -> dstep a b (dSent q) p = Some p' -> dsteps a b x (p', q)
| ds_right x p q q' : dsteps a b x (p, q) -> dstep b a (dSent p) q = Some q' -> dsteps a b x (p, q').

(* the start, CorGenerator.cpp:153, 170 *)
Definition dparty0 : dparty := DParty (DTop 0) [] 0 0.

(* comparison of two ReqInfo, CorGenerator.h:71-81 *)
Definition req_eqb (x y : req) : bool :=
  let '(t, r, n) := x in let '(t', r', n') := y in ct_eqb t t' && Bool.eqb r r' && N.eqb n n'.
(* mReqs != theirReq, CorGenerator.cpp:177, for lists of ReqInfo *)
Fixpoint reqs_eqb (a b : list req) : bool :=
  match a, b with
  | [], [] => true
  | x :: a', y :: b' => req_eqb x y && reqs_eqb a' b'
  | _, _ => false
  end.

(* behind the loop, CorGenerator.cpp:177-216: throw unless mReqs == theirReq *)
Definition dcheck (mine : list req) (p : dparty) : outcome unit := throw_if (negb (reqs_eqb mine (dTheirs p))).
