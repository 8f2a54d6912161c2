(* What the delivery of correlations must do (C62) and what comparing the requests of the two
   parties must find out (C63). *)
From Verif Require Import Base Words ConvModel ConvSpec CorGenModel CorGenSpec SessionSpec DeliverModel.
From Coq Require Import Permutation.

(* the positions begin .. begin+size-1 of a batch: OTs one by one, the others in blocks of 128 *)
Definition part (o : bout) (begin size : N) : bout :=
  let f {A} (l : list A) := slice l (N.to_nat begin) (N.to_nat size) in
  let g (l : list N) := slice l (N.to_nat (begin / 128)) (N.to_nat (size / 128)) in
  match o with
  | OutOtS m => OutOtS (f m)
  | OutOtR m c => OutOtR (f m) (f c)
  | OutOle a m => OutOle (g a) (g m)
  | OutF4S a b c d => OutF4S (g a) (g b) (g c) (g d)
  | OutF4R a b c => OutF4R (g a) (g b) (g c)
  | OutTrS a b c d => OutTrS (g a) (g b) (g c) (g d)
  | OutTrR a b c => OutTrR (g a) (g b) (g c)
  end.

(* an output of n correlations *)
Definition holds (n : N) (o : bout) : Prop :=
  let k := N.to_nat (n / 128) in
  match o with
  | OutOtS m => length m = N.to_nat n
  | OutOtR m c => length m = N.to_nat n /\ length c = N.to_nat n
  | OutOle a m => k <= length a /\ k <= length m
  | OutF4S a b c d => k <= length a /\ k <= length b /\ k <= length c /\ k <= length d
  | OutF4R a b c => k <= length a /\ k <= length b /\ k <= length c
  | OutTrS a b c d => k <= length a /\ k <= length b /\ k <= length c /\ k <= length d
  | OutTrR a b c => k <= length a /\ k <= length b /\ k <= length c
  end.

(* the outputs of the two parties are n correlations, valid in every position *)
Definition v0 (l : list N) (i : nat) : N := nth i l 0%N.
Definition f4_pair (k : nat) (a b c d o l m : list N) : Prop :=
  forall i, i < k -> f4_ot (F4S (v0 a i) (v0 b i) (v0 c i) (v0 d i)) (F4R (v0 l i) (v0 m i) (v0 o i)).
Definition tr_pair (k : nat) (l0 m0 l1 m1 c l m : list N) : Prop :=
  forall i, i < k -> trit_ot (TritS (v0 l0 i) (v0 m0 i) (v0 l1 i) (v0 m1 i)) (TritR (v0 c i) (v0 l i) (v0 m i)).
Definition pair_ok (n : N) (x y : bout) : Prop :=
  holds n x /\ holds n y /\
  let k := N.to_nat (n / 128) in
  match x, y with
  | OutOtS m, OutOtR m' c | OutOtR m' c, OutOtS m => ots_match m m' c
  | OutOle a m, OutOle a' m' => forall i, i < k -> bin_ole (v0 a i, v0 m i) (v0 a' i, v0 m' i)
  | OutF4S a b c d, OutF4R o l m | OutF4R o l m, OutF4S a b c d => f4_pair k a b c d o l m
  | OutTrS a b c d, OutTrR o l m | OutTrR o l m, OutTrS a b c d => tr_pair k a b c d o l m
  | _, _ => False
  end.

(* the outputs of all batches of the two parties are valid *)
Definition store_ok (bs : list batch) (outs outs' : list bout) : Prop :=
  length outs = length bs /\ length outs' = length bs /\
  forall i b, nth_error bs i = Some b -> exists o o', nth_error outs i = Some o /\ nth_error outs' i = Some o' /\
    fits (bType b) (bSender b) o = true /\ fits (bType b) (negb (bSender b)) o' = true /\ pair_ok (bSize b) o o'.

(* calls of get on the requests: none more often than it has segments *)
Definition within (ord : list nat) (segss : list (list segment)) : Prop :=
  forall i, count_occ Nat.eq_dec ord i <= length (nth i segss []).

(* the segment the k-th call must get: of its request the one after those already fetched *)
Definition turn (segss : list (list segment)) (ord : list nat) (k : nat) : option segment :=
  match nth_error ord k with
  | Some i => nth_error (nth i segss []) (count_occ Nat.eq_dec (firstn k ord) i)
  | None => None
  end.

(* the session's correlations are the parts of the batches' outputs *)
Definition cors_part (cs : SessionModel.cors) (outs : list bout) (s : segment) : Prop :=
  forall o, nth_error outs (sBatch s) = Some o ->
  match part o (sBegin s) (sSize s) with
  | OutOtS m => SessionModel.cOtS cs s = m
  | OutOtR m c => SessionModel.cOtR cs s = (m, c)
  | OutOle a m => map fst (SessionModel.cOle cs s) = a /\ map snd (SessionModel.cOle cs s) = m
  | OutF4S a b c d => map fs0 (SessionModel.cF4S cs s) = a /\ map fs1 (SessionModel.cF4S cs s) = b /\
      map fs2 (SessionModel.cF4S cs s) = c /\ map fs3 (SessionModel.cF4S cs s) = d
  | OutF4R o l m => map frO (SessionModel.cF4R cs s) = o /\ map frL (SessionModel.cF4R cs s) = l /\ map frM (SessionModel.cF4R cs s) = m
  | OutTrS a b c d => map tsL0 (SessionModel.cTrS cs s) = a /\ map tsM0 (SessionModel.cTrS cs s) = b /\
      map tsL1 (SessionModel.cTrS cs s) = c /\ map tsM1 (SessionModel.cTrS cs s) = d
  | OutTrR c l m => map trC (SessionModel.cTrR cs s) = c /\ map trL (SessionModel.cTrR cs s) = l /\ map trM (SessionModel.cTrR cs s) = m
  end.

(* ---------------- C63 ---------------- *)

(* the requests fit: the other party's with the roles exchanged *)
Definition reqs_match (a b : list req) : Prop := map mirror_q a = b.

(* nothing more can happen *)
Definition stuck (a b : list req) (x : dparty * dparty) : Prop :=
  dstep a b (dSent (snd x)) (fst x) = None /\ dstep b a (dSent (fst x)) (snd x) = None.
