(* What privacy of the GMW run means, stated without the model's helpers. *)
From Verif Require Import Base GmwModel GmwSpec.

(* 128 bit blocks *)
Definition block128 (x : N) : Prop := (x < 2 ^ 128)%N.
Definition blocks_mem (mem : list (list N)) : Prop := Forall (Forall block128) mem.
Definition blocks_segs (s : list (list triple)) : Prop :=
  Forall (Forall (fun p => block128 (fst p) /\ block128 (snd p))) s.

(* the triples one party may hold, given those of the other *)
Definition triples_for (s t : list (list triple)) : Prop := ole_segs s t /\ blocks_segs t.
