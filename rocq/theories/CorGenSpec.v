(* Specifications for the correlation generator (C37-C41), stated on the observable results. *)
From Verif Require Import Base CorGenModel.
From Coq Require Import Permutation.

(* ---------------- C37 ---------------- *)

(* a segment covers a position of a batch *)
Definition covers (b : nat) (p : N) (s : segment) : bool :=
  Nat.eqb (sBatch s) b && (sBegin s <=? p)%N && (p <? sBegin s + sSize s)%N.

(* how many of the segments cover the position *)
Definition cover_count (segs : list segment) (b : nat) (p : N) : nat := length (filter (covers b p) segs).

(* the size of batch b, 0 if there is none *)
Definition batch_size (bs : list batch) (b : nat) : N :=
  match nth_error bs b with Some x => bSize x | None => 0%N end.

(* the segments tile the batches: every position of every batch is covered once, no other is *)
Definition tiles (segs : list segment) (bs : list batch) : Prop :=
  forall b p, cover_count segs b p = if (p <? batch_size bs b)%N then 1 else 0.

Definition seg_total (segs : list segment) : N := fold_right (fun s a => (sSize s + a)%N) 0%N segs.

(* what a request must get: segments adding up to its rounded size, of positive size, all cut from
   batches of its type and role *)
Definition served (bs : list batch) (q : cortype * bool * N) (segs : list segment) : Prop :=
  let '(t, r, n) := q in
  (n <= seg_total segs < n + 128)%N /\
  Forall (fun s => (0 < sSize s)%N /\ (sSize s mod 128 = 0)%N /\ (sBegin s mod 128 = 0)%N /\
     exists x, nth_error bs (sBatch s) = Some x /\ bType x = t /\ bSender x = r) segs.

(* ---------------- C38 ---------------- *)

(* the other party's request and batch: same type and size, other role *)
Definition mirror_q (q : cortype * bool * N) : cortype * bool * N :=
  let '(t, r, n) := q in (t, negb r, n).
Definition mirror_b (b : batch) : batch := Batch (bType b) (negb (bSender b)) (bSize b).

(* ---------------- C39 ---------------- *)

(* the batch a thread was created for *)
Definition target (t : thread) : option nat :=
  match t with
  | TStart b => Some b | TLoad _ b => Some b | TLoop _ b _ => Some b | TSet _ b _ => Some b
  | TAssert _ => None | TDone => None
  end.

(* threads at their first instruction: Batch::start calls, and abort calls *)
Definition fresh (t : thread) : Prop :=
  match t with TStart _ => True | TLoad true _ => True | _ => False end.

Definition set_events (s : shared) : list nat := map fst (shLog s).

(* n batches, none started *)
Definition shared0 (n : nat) : shared := Shared 0 (repeat false n) [].

(* runs with their length *)
Inductive nsteps : nat -> shared * list thread -> shared * list thread -> Prop :=
| nsteps_0 x : nsteps 0 x x
| nsteps_S n x y z : nsteps n x y -> step y z -> nsteps (S n) x z.

(* ---------------- C40 ---------------- *)

Definition launches (ev : list event) : list nat :=
  flat_map (fun e => match e with ELaunch i _ => [i] | _ => [] end) ev.
Definition frees (ev : list event) : list nat :=
  flat_map (fun e => match e with EFree j => [j] | _ => [] end) ev.

(* replaying the events on c slots: a launch needs an idle slot, freeing a batch needs that it is
   not running.  With [strict] only running tasks are awaited. *)
Definition live_step (strict : bool) (c : nat) (st : option (nat -> option nat)) (e : event)
  : option (nat -> option nat) :=
  match st with
  | None => None
  | Some f =>
    match e with
    | ELaunch i s =>
      if Nat.ltb s c then
        match f s with Some _ => None | None => Some (fun x => if Nat.eqb x s then Some i else f x) end
      else None
    | EAwait s =>
      match f s with
      | None => if strict then None else Some f
      | Some _ => Some (fun x => if Nat.eqb x s then None else f x)
      end
    | EFree j =>
      if existsb (fun s => match f s with Some i => Nat.eqb i j | None => false end) (seq 0 c)
      then None else Some f
    end
  end.

Definition replay (strict : bool) (c : nat) (ev : list event) : option (nat -> option nat) :=
  fold_left (live_step strict c) ev (Some (fun _ => None)).

(* the number of running tasks *)
Definition live (c : nat) (f : nat -> option nat) : nat :=
  length (filter (fun s => match f s with Some _ => true | None => false end) (seq 0 c)).

(* ---------------- C41 ---------------- *)

(* the list xs is dealt out as the pieces of the given lengths, in order, with nothing left *)
Definition dealt {A} (xs : list A) (lens : list nat) (pieces : list (list A)) : Prop :=
  concat pieces = xs /\ map (@length A) pieces = lens.
