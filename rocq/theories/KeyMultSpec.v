(* Specification of the key multiplication: shares of x*k mod 3. *)
From Verif Require Import Base Words Mod3Spec KeyMultModel.

(* the receiver's PRNG is the one of the sender's pair that its key bit selects (base OT),
   with the same counter *)
Definition ot_ok (s : prng * prng) (r : prng) (k : bool) : Prop := r = if k then snd s else fst s.

(* the word of row i, block c *)
Definition wrd (M : list (list N)) (i c : nat) : N := nth c (nth i M []) 0%N.

(* the value of x in row i, block c, lane l: a trit, or a bit when xMsb is empty *)
Definition xval (xLsb xMsb : list (list N)) (i c : nat) (l : N) : nat :=
  if length xMsb =? 0 then b2n (N.testbit (wrd xLsb i c) l)
  else trit (wrd xMsb i c) (wrd xLsb i c) l.

Definition xdims (M : list (list N)) (rows cols : nat) : Prop :=
  length M = rows /\ forall r, In r M -> length r = cols.

(* an input matrix of one call: cols blocks per row, xMsb absent or a valid encoding *)
Definition km_input (cols : nat) (xLsb xMsb : list (list N)) : Prop :=
  xdims xLsb KeySize cols /\
  (xMsb = [] \/ (xdims xMsb KeySize cols /\ forall i c l, tvalid (wrd xMsb i c) (wrd xLsb i c) l)).

(* the outputs are shares of x times the key, lane by lane *)
Definition km_shares {P Q : Type} (k0 k1 : nat -> bool) (cols : nat) (xLsb xMsb : list (list N))
    (os : list (P * (list N * list N))) (or : list (Q * (list N * list N))) : Prop :=
  length os = KeySize /\ length or = KeySize /\
  forall i s r, nth_error os i = Some s -> nth_error or i = Some r ->
    let s1 := fst (snd s) in let s0 := snd (snd s) in
    let r1 := fst (snd r) in let r0 := snd (snd r) in
    length s1 = cols /\ length s0 = cols /\ length r1 = cols /\ length r0 = cols /\
    forall c l, c < cols ->
      tvalid (nthN s1 c) (nthN s0 c) l /\ tvalid (nthN r1 c) (nthN r0 c) l /\
      (trit (nthN s1 c) (nthN s0 c) l + trit (nthN r1 c) (nthN r0 c) l) mod 3 =
        if xorb (k0 i) (k1 i) then xval xLsb xMsb i c l else 0.

(* a history of calls of mult between the same two parties: each call's input is the number n of
   inputs (bits per row) and the matrices; the PRNGs carry over *)
Fixpoint km_run (fuel : nat) (so : list (prng * prng)) (share : option (list bool))
    (ro : list prng) (key : list bool) (calls : list (nat * (list (list N) * list (list N))))
  : outcome (list (list ((prng * prng) * (list N * list N)) * list (prng * (list N * list N)))) :=
  match calls with
  | [] => Ok []
  | (n, (xl, xm)) :: rest =>
    do s <- km_send fuel so share ((n + 127) / 128) xl xm;
    do r <- km_recv fuel ro key n (fst s);
    do t <- km_run fuel (map fst (snd s)) share (map fst r) key rest;
    Ok ((snd s, r) :: t)
  end.

(* base OTs of all key bits: the receiver holds the PRNG its key bit selects *)
Definition d_prng := Prng (fun _ => 0%N) 0.
Definition ots_ok (so : list (prng * prng)) (ro : list prng) (key : list bool) : Prop :=
  length so = KeySize /\ length ro = KeySize /\
  forall i, i < KeySize -> ot_ok (nth i so (d_prng, d_prng)) (nth i ro d_prng) (nth i key false).

Definition share_bit (share : option (list bool)) (i : nat) : bool :=
  match share with Some k => nth i k false | None => false end.
