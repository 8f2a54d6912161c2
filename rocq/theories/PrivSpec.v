(* What it means that the messages of a party tell nothing about its inputs. *)
From Verif Require Import Base Words Mod3Model ConvModel ConvSpec KeyMultModel.

(* The randomness r of the honest party is drawn uniformly among the r with ok r (those that fit
   what the other party holds); view x r is what the other party gets to see when the input is x.
   A bijection of that randomness carries the views for x to the views for x', so both inputs give
   each view with the same probability, whatever the other party holds. *)
Definition hides {X R V} (ok : R -> Prop) (view : X -> R -> V) (x x' : X) : Prop :=
  exists f g : R -> R,
    (forall r, ok r -> ok (f r) /\ g (f r) = r /\ view x' (f r) = view x r) /\
    (forall r, ok r -> ok (g r) /\ f (g r) = r).

(* the fields are words of 128 bits *)
Definition blk (x : N) : Prop := forall i, (128 <= i)%N -> N.testbit x i = false.
Definition blk_ts (s : trit_s) : Prop := blk (tsL0 s) /\ blk (tsM0 s) /\ blk (tsL1 s) /\ blk (tsM1 s).
Definition blk_tr (r : trit_r) : Prop := blk (trC r) /\ blk (trL r) /\ blk (trM r).
Definition blk_fs (s : f4_s) : Prop := blk (fs0 s) /\ blk (fs1 s) /\ blk (fs2 s) /\ blk (fs3 s).
Definition blk_fr (r : f4_r) : Prop := blk (frL r) /\ blk (frM r) /\ blk (frO r).
Definition blk_ole (o : ole) : Prop := blk (fst o) /\ blk (snd o).
Definition blk2 (p : N * N) : Prop := blk (fst p) /\ blk (snd p).

(* the correlations one party may hold, given those of the other *)
Definition fits {A B} (R : A -> B -> Prop) (blkA : A -> Prop) (b : list (list B)) (a : list (list A)) : Prop :=
  segs_rel R a b /\ Forall (Forall blkA) a.

(* the messages of a function that returns its messages and its output *)
Definition sent {M O} (r : outcome (M * O)) : outcome M := do x <- r; Ok (fst x).

(* ---- one row of the key multiplication ---- *)
(* a vector of trits, cols words of 128 lanes *)
Definition trits_ok (cols : nat) (t : list N * list N) : Prop :=
  length (fst t) = cols /\ length (snd t) = cols /\ Forall blk (fst t) /\ Forall blk (snd t) /\
  forall c l, c < cols -> tvalid (nth c (fst t) 0%N) (nth c (snd t) 0%N) l.

(* the input of a row: bits or trits, cols words *)
Definition row_fits (cols : nat) (s : srow) : Prop :=
  length (srLsb s) = cols /\
  match srMsb s with
  | Some xm => length xm = cols /\ forall c l, tvalid (nth c xm 0%N) (nth c (srLsb s) 0%N) l
  | None => True
  end.
(* the words have 128 bits *)
Definition row_blk (s : srow) : Prop :=
  Forall blk (srLsb s) /\ match srMsb s with Some xm => Forall blk xm | None => True end.

(* a pad for one row *)
Definition pad_ok (cols : nat) (pad : list N) : Prop := length pad = 2 * cols /\ Forall blk pad.

(* the next n blocks of a generator *)
Definition stream (g : prng) (n : nat) : list N := map (fun i => pRnd g (pIdx g + N.of_nat i)%N) (seq 0 n).

(* trits and pad of one row, of which the receiver with key bit k holds one half, that of kn *)
Definition tp_ok (cols : nat) (k : bool) (kn tp : (list N * list N) * list N) : Prop :=
  trits_ok cols (fst tp) /\ pad_ok cols (snd tp) /\ if k then snd tp = snd kn else fst tp = fst kn.

(* those of all rows *)
Definition tps_ok (cols : nat) (key : list bool) (known tps : list ((list N * list N) * list N)) : Prop :=
  length tps = KeySize /\
  forall i, i < KeySize -> tp_ok cols (nth i key false) (nth i known (([], []), [])) (nth i tps (([], []), [])).

(* they are what the OT strings of the sender expand to *)
Definition tps_from (fuel cols : nat) (ots : list (prng * prng)) (tps : list ((list N * list N) * list N)) : Prop :=
  length tps = KeySize /\
  forall i, i < KeySize -> let ot := nth i ots (Prng (fun _ => 0%N) 0, Prng (fun _ => 0%N) 0) in
    exists g, sample_prng fuel (fst ot) cols = Ok (g, fst (nth i tps (([], []), []))) /\
      snd (nth i tps (([], []), [])) = stream (snd ot) (2 * cols).
