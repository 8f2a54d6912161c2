(* What a session of the alternating moduli PRF must do (C61): the requests of the two parties
   and the keys, OTs and correlations they may be given. *)
From Verif Require Import Base Words ConvModel ConvSpec KeyMultModel KeyMultSpec PrfModel PrfSpec CorGenModel CorGenSpec SessionModel.

(* n rounded up to a multiple of 128 *)
Definition up128 (n : N) : N := ((n + 127) / 128 * 128)%N.

(* the requests of the sender, in order: the OTs of its key if none were passed, for shared inputs
   the OTs of the receiver's key and 512 trit OTs per input, then 256 F4 OTs or 512 OLEs per input.
   The receiver must make the mirror image. *)
Definition plan (f4 party : bool) (a : sargs) : list (cortype * bool * N) :=
  let given := match aKey a with Some _ => true | None => false end in
  let keyreq (r : bool) : list (cortype * bool * N) := if given then [] else [(COt, r, 512%N)] in
  let n := up128 (aSize a) in
  keyreq false ++
  (match aK a, aI a with KShared, IShared => keyreq true ++ [(CTrit, true, 512 * n)%N] | _, _ => [] end) ++
  [if f4 then (CF4, true, 256 * n)%N else (COle, party, 512 * n)%N].

(* two generators with the same limits after the requests qs of one party, mirrored by the other *)
Definition gens_at (dbg : bool) (bs : N) (qs : list (cortype * bool * N)) (g g' : gen) : Prop :=
  (bs mod 128 = 0)%N /\ Forall (fun q => (snd q <= 2 ^ 64 - 256)%N) qs /\
  exists c g0 segss, gen_init c bs = Ok g0 /\ requests dbg qs g0 = Ok (g, segss) /\
    requests dbg (map mirror_q qs) g0 = Ok (g', segss).

(* OTs: the receiver holds the message its choice bit selects *)
Definition ots_match {A} (so : list (A * A)) (ro : list A) (ch : list bool) : Prop :=
  length so = length ch /\ length ro = length ch /\
  forall i d, i < length ch -> nth i ro d = if nth i ch false then snd (nth i so (d, d)) else fst (nth i so (d, d)).

(* what both sides pass in fits together: either nothing, or a key and matching OTs on both sides *)
Definition args_ok (a : sargs) : Prop :=
  (0 < aSize a <= 2 ^ 54)%N /\
  match aKey a with
  | None => aRots a = [] /\ aSots' a = [] /\ aShare a = None /\ aI a = IReceiverOnly
  | Some k => length k = 512 /\ ots_match (aSots' a) (aRots a) k /\
     match aI a with
     | IReceiverOnly => True
     | IShared => aK a = KShared /\
        match aShare a with Some k' => length k' = 512 /\ ots_match (aSots a) (aRots' a) k' | None => False end
     end
  end.

(* the generators deliver what they promise: in every segment as many correlations as the segment
   has, and the two parties' parts match *)
Definition cors_ok (cs cr : cors) : Prop := forall s,
  (length (snd (cOtR cs s)) = N.to_nat (sSize s) /\ ots_match (cOtS cr s) (fst (cOtR cs s)) (snd (cOtR cs s))) /\
  (length (cF4R cr s) = N.to_nat (sSize s / 128) /\ Forall2 f4_ot (cF4S cs s) (cF4R cr s)) /\
  (length (cOle cr s) = N.to_nat (sSize s / 128) /\ Forall2 bin_ole (cOle cs s) (cOle cr s)) /\
  (length (cTrR cr s) = N.to_nat (sSize s / 128) /\ Forall2 trit_ot (cTrS cs s) (cTrR cr s)).

(* 512 OTs fit into the open batch, if there is one *)
Definition key_room (g : gen) : Prop :=
  match gOpen g COt false with
  | None => True
  | Some b => (batch_size (gBatches g) b + 512 <= gBatchSize g)%N
  end.

(* no old key request is around where keys are passed in *)
Definition no_stale (a : sargs) (s : sender) (r : recver) : Prop :=
  aKey a <> None -> mrReq (sdKR s) = None /\ msReq (rvKS r) = None /\
    (aI a = IShared -> msReq (sdKS s) = None /\ mrReq (rvKR r) = None).

(* the inputs: the receiver's, or shares *)
Definition inputs_ok (a : sargs) (xs xr : list N) : Prop :=
  length xr = N.to_nat (aSize a) /\ length xs = match aI a with IReceiverOnly => 0 | IShared => N.to_nat (aSize a) end.
Definition joint_input (a : sargs) (xs xr : list N) (i : nat) : N :=
  match aI a with IReceiverOnly => nth i xr 0%N | IShared => N.lxor (nth i xs 0%N) (nth i xr 0%N) end.

(* the outputs share the PRF of the inputs under the key *)
Definition outputs_ok G M B (key : list bool) (a : sargs) (xs xr : list N) (y : list N * list N) : Prop :=
  length (fst y) = N.to_nat (aSize a) /\ length (snd y) = N.to_nat (aSize a) /\
  forall i, i < N.to_nat (aSize a) ->
    is_prf G M B key (joint_input a xs xr i) (N.lxor (nth i (fst y) 0%N) (nth i (snd y) 0%N)).

(* the key of a session whose keys were passed in *)
Definition given_key (a : sargs) : list bool :=
  match aI a, aKey a, aShare a with
  | IReceiverOnly, Some k, sh => joint_key sh k
  | IShared, Some k, Some k' => joint_key (Some k) k'
  | _, _, _ => []
  end.

(* the key of any session: passed in, or the choice bits of the OTs of its first request *)
Definition session_key (cs : cors) (a : sargs) (ksegs : list segment) : list bool :=
  match aKey a, ksegs with
  | None, sg :: _ => joint_key None (snd (cOtR cs sg))
  | _, _ => given_key a
  end.

(* batches and requests of OLEs never end within a pair of blocks *)
Definition ole_even (bs : N) (qs : list (cortype * bool * N)) : Prop :=
  (bs mod 256 = 0)%N /\ Forall (fun q => fst (fst q) = COle -> (snd q mod 256 = 0)%N) qs.

(* ---------------- lists of sessions ---------------- *)

Definition args_of (x : bool * sargs * (list N * list N)) : sargs := snd (fst x).

(* sessions that generate their key only come after those that are given one *)
Fixpoint keygen_last (l : list (bool * sargs * (list N * list N))) : Prop :=
  match l with
  | [] => True
  | x :: l' => (aKey (args_of x) = None -> Forall (fun y => aKey (args_of y) = None) l') /\ keygen_last l'
  end.

(* the 512 key OTs always fit into the open batch *)
Fixpoint rooms (dbg f4 party : bool) (l : list (bool * sargs * (list N * list N))) (g : gen) : Prop :=
  match l with
  | [] => True
  | x :: l' => (aKey (args_of x) = None -> key_room g) /\
      forall g1 segss, requests dbg (plan f4 party (args_of x)) g = Ok (g1, segss) -> rooms dbg f4 party l' g1
  end.

(* every session's outputs share the PRF of its inputs under its key *)
Fixpoint all_outputs G M B (dbg f4 party : bool) (cs : cors) (l : list (bool * sargs * (list N * list N))) (g : gen)
    (ys : list (list N * list N)) : Prop :=
  match l, ys with
  | [], [] => True
  | (_, a, (xs, xr)) :: l', y :: ys' => exists g1 segss, requests dbg (plan f4 party a) g = Ok (g1, segss) /\
      outputs_ok G M B (session_key cs a (hd [] segss)) a xs xr y /\ all_outputs G M B dbg f4 party cs l' g1 ys'
  | _, _ => False
  end.
