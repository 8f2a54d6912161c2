(* Which randomness of a whole sort fits what the other party holds. *)
From Verif Require Import Base PermCorModel PermCorSpec KeyMultModel BitInjModel RadixModel RadixSpec PrivSpec PermPrivSpec ShuffleSpec ExtractSpec SortPrivSpec.

(* the randomness of a sort: that of the first round, then for each pass two fresh composed permutations with cap
   bytes and the randomness of a round *)
Definition pass_fits (L n cap : nat) (x : (comp * comp) * radix_round) : Prop :=
  comps_ok n cap (fst x) /\ comp_bytes (fst (fst x)) /\ comp_bytes (snd (fst x)) /\ round_fits L n (snd x).
Definition sort_fits (L n cap : nat) (R : radix_round * list ((comp * comp) * radix_round)) : Prop :=
  round_fits L n (fst R) /\ Forall (pass_fits L n cap) (snd R).

(* party 1 (party 0) holds the same as in R0 *)
Definition same_sort1 (R0 R : radix_round * list ((comp * comp) * radix_round)) : Prop :=
  same_half1 (fst R0) (fst R) /\ Forall2 (fun x0 x => snd (fst x) = snd (fst x0) /\ same_half1 (snd x0) (snd x)) (snd R0) (snd R).
Definition same_sort0 (R0 R : radix_round * list ((comp * comp) * radix_round)) : Prop :=
  same_half0 (fst R0) (fst R) /\ Forall2 (fun x0 x => fst (fst x) = fst (fst x0) /\ same_half0 (snd x0) (snd x)) (snd R0) (snd R).
