(* What the preparation of the permutations is required to do, in terms of the states only: where
   the coroutines are and which events are set (RadixSort.h:40-41, 73-79). *)
From Verif Require Import Base PrePermModel.

(* both calls have returned normally *)
Definition returned (s : party * party) : Prop := py_pc (fst s) = MDone /\ py_pc (snd s) = MDone.

(* no coroutine of either party can go on *)
Definition stuck (s : party * party) : Prop := forall b w, step b w s = None.

(* the permutations of all rounds but the last have been generated and announced *)
Definition all_prepared (ll : nat) (p : party) : Prop :=
  forall j, S j < ll -> exists r, nth_error (py_rounds p) j = Some r /\ rd_ready r = true /\ rd_perm r = true.

(* how many rounds have finished generating the permutation of their digits (RadixSort.cpp:1139, 1196) *)
Definition bits_done (ll : nat) (c : mpc) : nat :=
  match c with
  | MStart | MMock | MThrow | MUb => 0
  | MBit i | MWait i | MApply i => i
  | MRel i | MComp i => S i
  | MPre | MDone => ll
  end.

(* the task of that round has left its first co_await *)
Definition task_begun (p : party) (j : nat) : Prop :=
  exists ts, py_pre p = PreTasks ts /\ (nth_error ts j = Some PGen \/ nth_error ts j = Some PDone).
