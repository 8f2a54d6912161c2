(* Model of secure-join/CorGenerator: CorGenerator::request (CorGenerator.h:170-211), implRequest
   (CorGenerator.cpp:52-124), GenState's limits (CorGenerator.h:24-43), Request::get
   (Request.h:68-81), Batch::start (Batch.cpp:35-42), GenState::startBatch and abort
   (CorGenerator.h:119-150), the scheduling loop of GenState::start (CorGenerator.cpp:288-335),
   BaseRequest and BaseCor (Base.h:44-150) and the setBase calls (OtBatch.cpp, BinOleBatch.cpp:51-65,
   F4BitOtBatch.cpp:72-91, TritOtBatch.cpp:74-93).
   u64 arithmetic is in N modulo 2^64. *)
From Verif Require Import Base.
Open Scope N_scope.

(* u64 arithmetic, CorGenerator.cpp:52-131 *)
Definition two64 : N := 2 ^ 64.
(* u64 arithmetic, CorGenerator.cpp:52-131 *)
Definition sub64 (x y : N) : N := (x + two64 - y) mod two64.

(* oc::roundUpTo(n, 128) (cryptoTools: (n + 127) / 128 * 128) *)
Definition round128 (n : N) : N := ((n + 127) mod two64) / 128 * 128.

(* CorType, Correlations.h:17-23 *)
Inductive cortype := COt | COle | CF4 | CTrit.
(* comparison of CorType, Correlations.h:18-24 *)
Definition ct_eqb (a b : cortype) : bool :=
  match a, b with COt, COt => true | COle, COle => true | CF4, CF4 => true | CTrit, CTrit => true | _, _ => false end.

(* Batch, Batch.h: type and role (makeBatch, Batch.cpp:11-32), mSize; mIndex is its position *)
Record batch := Batch { bType : cortype; bSender : bool; bSize : N }.

(* GenState: mBatchSize, mBatches, and the open batch of each type and role
   (mOtBatch, mOleBatch, mF4BitOtBatch, mTritOtBatch; null = None) *)
Record gen := Gen { gBatchSize : N; gBatches : list batch; gOpen : cortype -> bool -> option nat }.

(* GenState::GenState, CorGenerator.h:24-43 *)
Definition gen_init (numConcurrent batchSize : N) : outcome gen :=
  do _ <- throw_if (batchSize <? 2 ^ 10);
  do _ <- throw_if (2 ^ 26 <? batchSize);
  do _ <- throw_if (numConcurrent =? 0);
  do _ <- throw_if (2 ^ 10 <? numConcurrent);
  Ok (Gen batchSize [] (fun _ _ => None)).

(* BatchSegment, Batch.h:96-117: index of the batch, mBegin, mSize *)
Record segment := Seg { sBatch : nat; sBegin : N; sSize : N }.

(* mPartialBatches after an update, CorGenerator.cpp:52-131 *)
Definition set_open (o : cortype -> bool -> option nat) (t : cortype) (r : bool) (v : option nat)
  : cortype -> bool -> option nat :=
  fun t' r' => if ct_eqb t t' && Bool.eqb r r' then v else o t' r'.

(* CorGenerator.cpp:97-103: create the batch if there is none *)
Definition open_batch (g : gen) (t : cortype) (r : bool) : gen * nat :=
  match gOpen g t r with
  | Some b => (g, b)
  | None => let b := length (gBatches g) in
      (Gen (gBatchSize g) (gBatches g ++ [Batch t r 0]) (set_open (gOpen g) t r (Some b)), b)
  end.

(* the loop CorGenerator.cpp:79-121.  [dbg]: the assert of line 113 is compiled in (UB when it
   fails).  A pass adds a segment; [fuel] bounds the passes. *)
Fixpoint cut (dbg : bool) (fuel : nat) (t : cortype) (r : bool) (n j : N) (g : gen) (segs : list segment)
  : outcome (gen * list segment) :=
  if n <=? j then Ok (g, segs) else
  match fuel with
  | O => Hang
  | S fuel' =>
    let '(g, b) := open_batch g t r in
    do bt <- get (gBatches g) b;
    let begin := bSize bt in
    let remReq := n - j in
    let remAvb := sub64 (gBatchSize g) begin in
    let size := round128 (N.min remReq remAvb) in
    if dbg && (remAvb <? size) then UB else
    let bs := upd (gBatches g) b (Batch (bType bt) (bSender bt) ((begin + size) mod two64)) in
    let op := if remAvb =? size then set_open (gOpen g) t r None else gOpen g in
    cut dbg fuel' t r n (j + size) (Gen (gBatchSize g) bs op) (segs ++ [Seg b begin size])
  end.

(* CorGenerator::request<T>(n) with implRequest: the size is rounded first.  Role: 0 for a
   receiver, 1 for a sender, partyIdx for BinOle (CorGenerator.h:176-203). *)
Definition request (dbg : bool) (t : cortype) (r : bool) (n : N) (g : gen) : outcome (gen * list segment) :=
  cut dbg (N.to_nat (round128 n / 128)) t r (round128 n) 0 g [].

(* a sequence of requests before start() (calls of CorGenerator::request, CorGenerator.h:170-211) *)
Fixpoint requests (dbg : bool) (qs : list (cortype * bool * N)) (g : gen)
  : outcome (gen * list (list segment)) :=
  match qs with
  | [] => Ok (g, [])
  | (t, r, n) :: qs' =>
    do p <- request dbg t r n g;
    do q <- requests dbg qs' (fst p);
    Ok (fst q, snd p :: snd q)
  end.

(* Request::get, Request.h:68-81: the segment and the next mNextBatchIdx *)
Definition req_get (segs : list segment) (next : nat) : outcome (segment * nat) :=
  do _ <- throw_if (Nat.leb (length segs) next);
  do s <- get segs next;
  Ok (s, S next).

Close Scope N_scope.

(* ---------------- starting batches ---------------- *)

(* A thread in Batch::start of batch b (Batch.cpp:35-42) with startBatch (CorGenerator.h:119-134),
   or in abort (136-150), which runs the same loop up to the last batch and sets mAbort first.
   One step is one access to shared state. *)
Inductive thread :=
| TStart (b : nat)                       (* before mStarted.exchange(true), Batch.cpp:37 *)
| TLoad (ab : bool) (b : nat)            (* before reading mBatchStartIdx, CorGenerator.h:121, 138 *)
| TLoop (ab : bool) (b idx : nat)        (* at the while condition and the CAS, 125-127, 139-142 *)
| TSet (ab : bool) (b idx : nat)         (* CAS succeeded, before mStart.set(), 130, 145-146 *)
| TAssert (b : nat)                      (* before assert(mStart.is_set()), Batch.cpp:40 *)
| TDone.

(* shared state: mBatchStartIdx, the mStarted flags, and the log of mStart.set() calls with the
   value given to mAbort (GenState, CorGenerator.h:21-64) *)
Record shared := Shared { shIdx : nat; shStarted : list bool; shLog : list (nat * bool) }.

(* the loop exit: Batch::start goes on to its assert, abort returns (CorGenerator.h:119-150) *)
Definition leave (ab : bool) (b : nat) : thread := if ab then TDone else TAssert b.

(* one step of one thread.  abort is TLoad true (mBatches.size() - 1). *)
Definition tstep (s : shared) (t : thread) : option (shared * thread) :=
  match t with
  | TStart b =>
    if nth b (shStarted s) false then Some (s, TDone)
    else Some (Shared (shIdx s) (upd (shStarted s) b true) (shLog s), TLoad false b)
  | TLoad ab b => Some (s, TLoop ab b (shIdx s))
  | TLoop ab b idx =>
    if Nat.ltb b idx then Some (s, leave ab b)
    else if Nat.eqb (shIdx s) idx
      then Some (Shared (S idx) (shStarted s) (shLog s), TSet ab b idx)
      else Some (s, TLoop ab b (shIdx s))
  | TSet ab b idx => Some (Shared (shIdx s) (shStarted s) (shLog s ++ [(idx, ab)]), TLoop ab b (S idx))
  | TAssert b => Some (s, TDone)
  | TDone => None
  end.

(* any thread may take the next step (interleavings of CorGenerator.h:119-150 and Batch.cpp:35-42) *)
Inductive step : shared * list thread -> shared * list thread -> Prop :=
| step_at s s' t t' l r : tstep s t = Some (s', t') -> step (s, l ++ t :: r) (s', l ++ t' :: r).

(* interleavings of CorGenerator.h:119-150 and Batch.cpp:35-42 *)
Inductive steps : shared * list thread -> shared * list thread -> Prop :=
| steps_refl x : steps x x
| steps_step x y z : steps x y -> step y z -> steps x z.

(* ---------------- the scheduling loop ---------------- *)

(* what GenState::start does with the batches: launch the task of batch i in a slot
   (CorGenerator.cpp:302-317), co_await the task of a slot (327), drop batch j (330) *)
Inductive event := ELaunch (i slot : nat) | EAwait (slot : nat) | EFree (j : nat).

(* u64 arithmetic, CorGenerator.cpp:302-340 *)
Definition u64 (x : N) : N := (x mod two64)%N.

(* the loop CorGenerator.cpp:292-332; [ab i]: batch i was aborted; [used s]: slot s has a task.
   j is a u64 that starts at -mNumConcurrent + 1. *)
Fixpoint sched (fuel : nat) (c nB : N) (ab : nat -> bool) (i j : N) (used : list bool) (ev : list event)
  : outcome (list event) :=
  if (j =? nB)%N then Ok ev else
  match fuel with
  | O => Hang
  | S fuel' =>
    do st <- (if (i <? nB)%N && negb (ab (N.to_nat i))
              then do used' <- set used (N.to_nat (i mod c)) true;
                   Ok (used', ev ++ [ELaunch (N.to_nat i) (N.to_nat (i mod c))])
              else Ok (used, ev));
    let '(used, ev) := st in
    do ev <- (if (j <? nB)%N
              then do h <- get used (N.to_nat (j mod c));
                   Ok (ev ++ (if h then [EAwait (N.to_nat (j mod c))] else []) ++ [EFree (N.to_nat j)])
              else Ok ev);
    sched fuel' c nB ab (u64 (i + 1)) (u64 (j + 1)) used ev
  end.

(* GenState::start's loop: threadState.resize(mNumConcurrent), 288; j = -mNumConcurrent + 1, 292 *)
Definition start_loop (c nB : nat) (ab : nat -> bool) : outcome (list event) :=
  sched (nB + c) (N.of_nat c) (N.of_nat nB) ab 0 (u64 (two64 - N.of_nat c + 1)) (repeat false c) [].

(* ---------------- base correlations ---------------- *)

(* BaseRequest, Base.h:24-42: mChoice, mSendSize, mSendVoleSize, mVoleChoice *)
Record base_req := BReq { rqChoice : list bool; rqSend : nat; rqVoleSend : nat; rqVoleChoice : list N }.

(* BaseRequest(span<BaseRequest>), Base.h:44-66 *)
Definition base_concat (rs : list base_req) : base_req :=
  BReq (fold_left (fun a r => a ++ rqChoice r) rs [])
       (fold_left (fun a r => a + rqSend r) rs 0)
       (fold_left (fun a r => a + rqVoleSend r) rs 0)
       (fold_left (fun a r => a ++ rqVoleChoice r) rs []).

(* BaseCor::get, Base.h:101-111 *)
Definition bc_get {T} (val : list T) (index n : nat) : outcome (list T * nat) :=
  do _ <- throw_if (Nat.ltb (length val) (index + n));
  Ok (slice val index n, index + n).

Section BaseCor.
Variables OT2 OT1 VA VB : Type.
(* BaseCor, Base.h:70-99: the four vectors and the four indices *)
Record base_cor := BCor { bcSend : list OT2; bcRecv : list OT1; bcVoleA : list VA; bcVoleB : list VB;
  ixSend : nat; ixRecv : nat; ixA : nat; ixB : nat }.

(* what a batch receives in setBase (the arguments of setBase, Batch.h:25-85) *)
Record base_got := Got { gotSend : list OT2; gotRecv : list OT1; gotA : list VA; gotB : list VB }.

(* setBase of a batch whose request was r: a sender takes silentBaseOtCount() = mSendSize send OTs
   and baseVoleCount() = mSendVoleSize VOLEs, a receiver as many recv OTs / VOLEs as it gave choices
   (OtBatch.cpp:123-, BinOleBatch.cpp:51-65, F4BitOtBatch.cpp:72-91, TritOtBatch.cpp:74-93).  A
   batch is a sender or a receiver; the requests for the other role have size 0. *)
Definition set_base (r : base_req) (c : base_cor) : outcome (base_got * base_cor) :=
  do s <- bc_get (bcSend c) (ixSend c) (rqSend r);
  do v <- bc_get (bcRecv c) (ixRecv c) (length (rqChoice r));
  do a <- bc_get (bcVoleA c) (ixA c) (length (rqVoleChoice r));
  do b <- bc_get (bcVoleB c) (ixB c) (rqVoleSend r);
  Ok (Got (fst s) (fst v) (fst a) (fst b),
      BCor (bcSend c) (bcRecv c) (bcVoleA c) (bcVoleB c) (snd s) (snd v) (snd a) (snd b)).

(* the calls made by GenState::start, CorGenerator.cpp:292-302: batches in index order, aborted
   ones skipped *)
Fixpoint dispense (rs : list (base_req * bool)) (c : base_cor) : outcome (list (option base_got) * base_cor) :=
  match rs with
  | [] => Ok ([], c)
  | (r, true) :: rs' => do q <- dispense rs' c; Ok (None :: fst q, snd q)
  | (r, false) :: rs' =>
    do p <- set_base r c;
    do q <- dispense rs' (snd p);
    Ok (Some (fst p) :: fst q, snd q)
  end.
End BaseCor.
