(* What the statements about the messages of the aggregation tree speak of. *)
From Verif Require Import Base GmwModel GmwSpec GmwPrivSpec AggModel AggRunModel AggViewModel.

(* what party 0 (true) or party 1 (false) holds, and receives *)
Definition own {A} (b : bool) (p : A * A) : A := if b then fst p else snd p.
Definition got (b : bool) (m : messages) : list (list (list N)) := if b then map snd m else map fst m.
(* uninitialised memory holds 128-bit blocks *)
Definition junk_blocks (junk : nat -> nat -> nat -> N) : Prop := forall r j c, block128 (junk r j c).
(* the same party with other correlations *)
Definition with_cor (t : tape) (s : list (list triple)) : tape := Tape (tpJunk t) (tpJunk2 t) (tpPast t) (tpOutPad t) s.
(* memory holds blocks; the party that looks has the correlations the run asks for *)
Definition tape_mem (t : tape) : Prop := junk_blocks (tpJunk t) /\ junk_blocks (tpJunk2 t).
Definition looks (n : nat) (lvs : list level) (me ot : tape) : Prop :=
  tape_mem me /\ tape_mem ot /\ blocks_segs (tpCor me) /\ even_segs (tpCor me) /\ demand ((n + 127) / 128) lvs = length (concat (tpCor me)).
(* the correlations of the party that is not looking fit those of the one that does *)
Notation fits := (Forall2 (fun t r => triples_for (tpCor t) r)).
(* what party 0 (true) or party 1 (false) receives in the whole tree *)
Definition tree_got (b : bool) (t : list messages * list messages * messages) := (map (got b) (fst (fst t)), map (got b) (snd (fst t)), got b (snd t)).
(* the tapes of both parties for all runs of the tree: those of the party that looks first *)
Definition tapes_for (lu ld ll : list level) (sh : shape) (upm upo dnm dno : list tape) (lfm lfo : tape) : Prop :=
  let top := length (sSizes sh) - 1 in
  let sz := fun lvl => nth lvl (sSizes sh) 0 / 2 in
  length upm = top /\ length upo = top /\ length dnm = top /\ length dno = top /\
  (forall lvl m o, nth_error upm lvl = Some m -> nth_error upo lvl = Some o -> looks (sz lvl) lu m o) /\
  (forall i m o, nth_error dnm i = Some m -> nth_error dno i = Some o -> looks (sz (top - i - 1)) ld m o) /\
  looks (sN16 sh / 2) ll lfm lfo.
