(* Model of how the permutations that the rounds of the radix sort consume are prepared beside the
   sort: RadixSort::init (RadixSort.cpp:1003-1042, RadixSort.h:135-171), genPrePerm
   (RadixSort.cpp:1053-1093), Round::preGenPerm (RadixSort.cpp:1442-1468) and the waiting in
   RadixSort::genPerm (RadixSort.cpp:1095-1226), called alone or the way OmJoin::join and
   GroupBy::groupBy do it (OmJoin.cpp:513-523, GroupBy.cpp:363-371).
   One step is what a coroutine does between two points where it may be suspended; the coroutines of
   both parties take their steps in any order.  What the sub-protocols compute is modelled elsewhere
   (RadixModel.v, CompPermModel.v, PermCorModel.v); here a sub-protocol of both parties can end as
   soon as both of them have entered it.  The event objects are unset until set() is called and stay
   set (macoro::async_manual_reset_event, never reset here). *)
From Verif Require Import Base ShuffleModel.

(* RadixSort::Round, RadixSort.h:76-131: mStartPrepro and mPrePermReady (are they set), mPermBytes,
   mPerPermStarted, and whether mPerm holds a permutation correlation of this round *)
Record round := Rd { rd_start : bool; rd_ready : bool; rd_bytes : nat; rd_begun : bool; rd_perm : bool }.

(* a task preGenPerm, RadixSort.cpp:1442-1468: suspended at co_await mStartPrepro (1450), in
   mPrePermGen.generate (1463), ended, ended with an exception (1445) *)
Inductive ptask := PWait | PGen | PDone | PThrow.

(* the coroutine genPrePerm, RadixSort.cpp:1053-1093: never called, ended by its first check (1057),
   waiting for its tasks (1089-1092) *)
Inductive pre := NoPre | PreThrow | PreTasks (l : list ptask).

(* the coroutine genPerm and its caller: before the first check (RadixSort.cpp:1114); in mockSort
   (1123); for round i in genBitPerm (1139, 1196), about to release the next preparation (1144-1150,
   1200-1205), in compose (1216), waiting for mPrePermReady of round i-1 (1181), in derandomize and
   apply with the permutation of round i-1 (1186-1193); waiting for genPrePerm (1224, or
   OmJoin.cpp:523, GroupBy.cpp:371); returned, left by an exception, undefined *)
Inductive mpc := MStart | MMock | MBit (i : nat) | MRel (i : nat) | MComp (i : nat) | MWait (i : nat) | MApply (i : nat)
| MPre | MDone | MThrow | MUb.

(* a party: RadixSort.h:39-71, 180 (mRounds, mPrePermStarted, mPreProLead, mInsecureMock, mRole), the
   arguments and locals of genPerm (are rows and bits of k those of init, ll, lead) and whether its
   caller calls genPrePerm itself.  py_fail says which generate would end with an exception. *)
Record party := Py {
  py_rounds : list round; py_started : bool; py_lead : nat; py_mock : bool; py_role : bool;
  py_keys : bool; py_ll : nat; py_next : nat; py_ext : bool; py_fail : nat -> bool;
  py_pre : pre; py_pc : mpc }.

(* assigning the members of a party that genPerm and the tasks change (RadixSort.h:39-180) *)
Definition with_rounds (p : party) (l : list round) : party :=
  Py l (py_started p) (py_lead p) (py_mock p) (py_role p) (py_keys p) (py_ll p) (py_next p) (py_ext p) (py_fail p) (py_pre p) (py_pc p).
(* see with_rounds, RadixSort.h:39-180 *)
Definition with_pc (p : party) (c : mpc) : party :=
  Py (py_rounds p) (py_started p) (py_lead p) (py_mock p) (py_role p) (py_keys p) (py_ll p) (py_next p) (py_ext p) (py_fail p) (py_pre p) c.
(* see with_rounds, RadixSort.h:39-180 *)
Definition with_next (p : party) (n : nat) : party :=
  Py (py_rounds p) (py_started p) (py_lead p) (py_mock p) (py_role p) (py_keys p) (py_ll p) n (py_ext p) (py_fail p) (py_pre p) (py_pc p).
(* see with_rounds, RadixSort.h:39-180 *)
Definition with_pre (p : party) (s : bool) (e : pre) : party :=
  Py (py_rounds p) s (py_lead p) (py_mock p) (py_role p) (py_keys p) (py_ll p) (py_next p) (py_ext p) (py_fail p) e (py_pc p).

(* a Round made by its default constructor, RadixSort.h:79-131 *)
Definition round0 : round := Rd false false 0 false false.

(* Round::init, RadixSort.h:135-171: new event objects; mPerm and mPerPermStarted are left *)
Definition round_init (bytes : nat) (r : round) : round := Rd false false bytes (rd_begun r) (rd_perm r).

(* the loop of RadixSort::init over the ll rounds, RadixSort.cpp:1017-1041; resize keeps the rounds
   that were there *)
Definition rounds_init (L ll : nat) (old : list round) : list round :=
  map (fun i => round_init (if i =? ll - 1 then 0 else div_ceil L 8 + 4) (nth i old round0)) (seq 0 ll).

(* RadixSort::init with mL = L for keys of that many bits, RadixSort.cpp:1003-1042: mPrePermStarted
   is left; nothing has been called since *)
Definition rs_init (L bits : nat) (p : party) : party :=
  let ll := div_ceil bits L in
  Py (rounds_init L ll (py_rounds p)) (py_started p) (py_lead p) (py_mock p) (py_role p) (py_keys p) ll 0 (py_ext p) (py_fail p) NoPre MStart.

(* a RadixSort made by its default constructor with mPreProLead, mInsecureMock and the role then set
   (RadixSort.h:39-71, 185); keys: the key matrix has the shape given to init; ext: the caller calls
   genPrePerm first *)
Definition rs_new (lead : nat) (mock role keys ext : bool) (fail : nat -> bool) : party :=
  Py [] false lead mock role keys 0 0 ext fail NoPre MStart.

(* mStartPrepro->set() of one round, RadixSort.cpp:1080, 1149, 1204 *)
Definition set_start (r : round) : round := Rd true (rd_ready r) (rd_bytes r) (rd_begun r) (rd_perm r).

(* mPrePermReady->set() of one round after its generate, RadixSort.cpp:1455-1468.  With mPermBytes 0
   nothing was generated.  An exception of generate is lost in AltModComposedPerm::generate
   (AltModComposedPerm.cpp:44: the results of when_all_ready are not looked at), mPerm is then not
   set. *)
Definition set_ready (fail : bool) (r : round) : round :=
  Rd (rd_start r) true (rd_bytes r) (rd_begun r) (if rd_bytes r =? 0 then rd_perm r else negb fail).

(* mPerPermStarted = true, RadixSort.cpp:1446 *)
Definition set_begun (r : round) : round := Rd (rd_start r) (rd_ready r) (rd_bytes r) true (rd_perm r).

(* the loop of genPrePerm and the start of each preGenPerm up to its first co_await,
   RadixSort.cpp:1074-1086, 1444-1446, from round i on *)
Fixpoint pre_start (lead i : nat) (l : list round) : list round * list ptask :=
  match l with
  | [] => ([], [])
  | r :: l =>
      let r := if i <? lead then set_start r else r in
      let '(rs, ts) := pre_start lead (S i) l in
      if rd_begun r then (r :: rs, PThrow :: ts) else (set_begun r :: rs, PWait :: ts)
  end.

(* genPrePerm up to its first co_await, RadixSort.cpp:1057-1087 *)
Definition gen_pre (p : party) : party :=
  if py_started p then with_pre p true PreThrow
  else
    let '(rs, ts) := pre_start (py_lead p) 0 (py_rounds p) in
    with_pre (with_rounds p rs) true (PreTasks ts).

(* the caller of OmJoin.cpp:514, GroupBy.cpp:365 starts genPrePerm before genPerm; others do not *)
Definition call (p : party) : party := if py_ext p then gen_pre p else p.

(* co_await tasks[i] one after the other, RadixSort.cpp:1089-1092: Some true when all have ended,
   Some false when it gets to one that threw, None while it waits *)
Fixpoint join_tasks (l : list ptask) : option bool :=
  match l with
  | [] => Some true
  | PDone :: l => join_tasks l
  | PThrow :: _ => Some false
  | _ :: _ => None
  end.

(* how far a coroutine genPerm has come (the order of the statements of RadixSort.cpp:1114-1226) *)
Definition rank (ll : nat) (c : mpc) : nat :=
  match c with
  | MStart | MThrow | MUb => 0
  | MMock => 1
  | MWait i => 2 + 5 * i
  | MApply i => 3 + 5 * i
  | MBit i => 4 + 5 * i
  | MRel i => 5 + 5 * i
  | MComp i => 6 + 5 * i
  | MPre => 2 + 5 * ll
  | MDone => 3 + 5 * ll
  end.

(* the other party has come to the sub-protocol this party is in (genBitPerm, derandomize, apply,
   compose exchange messages, RadixSort.cpp:1139, 1186, 1192, 1196, 1216) *)
Definition entered (me other : party) : bool := rank (py_ll me) (py_pc me) <=? rank (py_ll other) (py_pc other).

(* the loop condition i < ll, RadixSort.cpp:1170, and what follows the loop: with a genPrePerm of its
   own, or called by the caller, it is awaited (1222-1224, OmJoin.cpp:523, GroupBy.cpp:371) *)
Definition loop_top (ll i : nat) : mpc := if i <? ll then MWait i else MPre.

(* one step of genPerm and what its caller does after it, RadixSort.cpp:1114-1226; None: it is
   suspended and cannot go on yet *)
Definition mstep (me other : party) : option party :=
  match py_pc me with
  | MStart =>
      if negb (py_keys me) then Some (with_pc me MThrow)
      else if py_mock me then Some (with_pc me MMock)
      else
        let me := if py_started me then me else gen_pre me in
        Some (with_pc me (match py_rounds me with [] => MUb | _ => MBit 0 end))
  | MMock => if py_role me && (rank (py_ll other) (py_pc other) =? 0) then None else Some (with_pc me MPre)
  | MBit i => if entered me other then Some (with_pc me (MRel i)) else None
  | MRel i =>
      let lead := if i =? 0 then py_lead me else py_next me in
      let me := with_pc me (if i =? 0 then loop_top (py_ll me) 1 else MComp i) in
      if lead <? length (py_rounds me)
      then Some (with_next (with_rounds me (upd (py_rounds me) lead (set_start (nth lead (py_rounds me) round0)))) (S lead))
      else Some (with_next me lead)
  | MComp i => if entered me other then Some (with_pc me (loop_top (py_ll me) (S i))) else None
  | MWait i => if rd_ready (nth (i - 1) (py_rounds me) round0) then Some (with_pc me (MApply i)) else None
  | MApply i => if entered me other then Some (with_pc me (MBit i)) else None
  | MPre =>
      match py_pre me with
      | NoPre => Some (with_pc me MDone)
      | PreThrow => if py_ext me then Some (with_pc me MThrow) else Some (with_pc me MDone)
      | PreTasks ts =>
          match join_tasks ts with
          | None => None
          | Some false => Some (with_pc me MThrow)
          | Some true => if py_ext me then Some (with_pc me MDone) else Some (with_pc (with_rounds me []) MDone)
          end
      end
  | MDone | MThrow | MUb => None
  end.

(* the tasks of a party (RadixSort.cpp:1064) *)
Definition tasks (p : party) : list ptask := match py_pre p with PreTasks l => l | _ => [] end.

(* one step of the task preGenPerm of round j, RadixSort.cpp:1450-1468: it starts when its event is
   set; generate is a protocol of the two tasks of that round *)
Definition pstep (j : nat) (me other : party) : option party :=
  let r := nth j (py_rounds me) round0 in
  let go t r' := Some (with_pre (with_rounds me (upd (py_rounds me) j r')) (py_started me) (PreTasks (upd (tasks me) j t))) in
  match nth_error (tasks me) j with
  | Some PWait =>
      if rd_start r then (if rd_bytes r =? 0 then go PDone (set_ready false r) else go PGen r) else None
  | Some PGen =>
      match nth_error (tasks other) j with
      | Some PGen | Some PDone => go PDone (set_ready (py_fail me j) r)
      | _ => None
      end
  | _ => None
  end.

(* which coroutine of a party takes a step: genPerm or a task (RadixSort.cpp:1095, 1442) *)
Inductive who := WMain | WTask (j : nat).

(* a step of a coroutine of one party (RadixSort.cpp:1095-1226, 1442-1468) *)
Definition step1 (w : who) (me other : party) : option party :=
  match w with WMain => mstep me other | WTask j => pstep j me other end.

(* a step of the two parties: party b takes it (RadixSort.cpp:1095-1226, 1442-1468) *)
Definition step (b : bool) (w : who) (s : party * party) : option (party * party) :=
  if b then match step1 w (snd s) (fst s) with Some p => Some (fst s, p) | None => None end
  else match step1 w (fst s) (snd s) with Some p => Some (p, snd s) | None => None end.

(* the steps are taken in the order the schedule names; None: one of them could not be taken
   (RadixSort.cpp:1095-1226, 1442-1468) *)
Fixpoint run (sch : list (bool * who)) (s : party * party) : option (party * party) :=
  match sch with
  | [] => Some s
  | (b, w) :: sch => match step b w s with Some s => run sch s | None => None end
  end.
