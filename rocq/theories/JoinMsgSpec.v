(* What the statements about the messages of a join with the runs of its circuits speak of. *)
From Verif Require Import Base GmwModel GmwSpec GmwPrivSpec AggModel AggRunModel AggViewModel AggViewSpec JoinViewModel JoinRunModel JoinRunSpec.

(* The randomness r of the honest party is one of those with ok r; view x r is what the other party gets to see when the
   input is x.  A relation that pairs each randomness for x with exactly one for x', and the other way round, so that the
   view is the same; each view is then as likely for x as for x'. *)
Definition paired {X R V} (ok : R -> Prop) (view : X -> R -> outcome V) (x x' : X) : Prop :=
  exists rel : R -> R -> Prop,
    (forall r r', rel r r' -> ok r /\ ok r' /\ exists v, view x r = Ok v /\ view x' r' = Ok v) /\
    (forall r, ok r -> exists r', rel r r') /\ (forall r', ok r' -> exists r, rel r r') /\
    (forall r a b, rel r a -> rel r b -> a = b) /\ (forall r' a b, rel a r' -> rel b r' -> a = b).

(* the tapes of one party for all runs of a join *)
Record side := Sd { sdC : tape; sdU : list tape; sdD : list tape; sdL : tape; sdF : tape }.
(* the correlations of one party for all runs of a join: control bits, tree (up, down, leaves), flags *)
Notation cors := (list (list triple) * ((list (list (list triple)) * list (list (list triple))) * list (list triple)) * list (list triple))%type.
(* with other correlations *)
Definition side_with (o : side) (r : cors) : side :=
  Sd (with_cor (sdC o) (fst (fst r))) (map2 with_cor (sdU o) (fst (fst (snd (fst r))))) (map2 with_cor (sdD o) (snd (fst (snd (fst r))))) (with_cor (sdL o) (snd (snd (fst r)))) (with_cor (sdF o) (snd r)).
(* the tapes of both parties; party 0 (true) or party 1 (false) is the one that looks *)
Definition both (b : bool) (m o : side) : join_tapes :=
  let p := fun A (x y : A) => if b then (x, y) else (y, x) in
  JT (p _ (sdC m) (sdC o)) (p _ (sdU m) (sdU o)) (p _ (sdD m) (sdD o)) (p _ (sdL m) (sdL o)) (p _ (sdF m) (sdF o)).
(* memory holds blocks, the unused bits of an output byte are zero; the party that looks has the correlations asked for *)
Definition side_looks (n : nat) (jl : join_levels) (m o : side) : Prop :=
  pad_zero (sdC m) /\ pad_zero (sdC o) /\ pad_zero (sdF m) /\ pad_zero (sdF o) /\
  looks n (jlCtrl jl) (sdC m) (sdC o) /\ looks n (jlFlag jl) (sdF m) (sdF o) /\
  exists sh, tree_sizes n = Ok sh /\ tapes_for (jlUp jl) (jlDown jl) (jlLeaf jl) sh (sdU m) (sdU o) (sdD m) (sdD o) (sdL m) (sdL o).
(* the correlations of the other party fit those of the one that looks *)
Definition side_fits (m : side) (r : cors) : Prop :=
  triples_for (tpCor (sdC m)) (fst (fst r)) /\ (AggViewSpec.fits (sdU m) (fst (fst (snd (fst r)))) /\ AggViewSpec.fits (sdD m) (snd (fst (snd (fst r)))) /\ triples_for (tpCor (sdL m)) (snd (snd (fst r)))) /\
  triples_for (tpCor (sdF m)) (snd r).
(* the messages of the circuits that a party receives *)
Definition cir_got (b : bool) (t : cir_msgs) := (got b (fst (fst t)), tree_got b (snd (fst t)), got b (snd t)).
(* what party 0, or party 1, sees in a whole join, without the messages of validate (see C70): the messages of the sort,
   the permutation and the circuits, its shares in between and its output *)
Definition run_see0 (x : join_tr * cir_msgs) := (sort_see0 (jtSort (fst x)), chain_see0 (jtChain (fst x)), cir_got true (snd x), fst (jtOut (fst x))).
Definition run_see1 (x : join_tr * cir_msgs) := (sort_see1 (jtSort (fst x)), chain_see1 (jtChain (fst x)), cir_got false (snd x), snd (jtOut (fst x))).
