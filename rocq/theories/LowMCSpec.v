(* Independent description of LowMC on vectors of bits, for C58. *)
From Verif Require Import Base LowMCModel.

(* a vector of bits; the bits of a number *)
Definition bvec := nat -> bool.
Definition bitv (x : N) : bvec := fun i => N.testbit x (N.of_nat i).

(* f 0 + ... + f (n-1) over GF(2) *)
Fixpoint xsum (n : nat) (f : nat -> bool) : bool :=
  match n with 0 => false | S k => xorb (xsum k f) (f k) end.

(* the substitution of LowMC on three bits: a + bc, a + b + ac, a + b + c + ab *)
Definition sb_a (a b c : bool) : bool := xorb a (b && c).
Definition sb_b (a b c : bool) : bool := xorb (xorb a b) (a && c).
Definition sb_c (a b c : bool) : bool := xorb (xorb (xorb a b) c) (a && b).

(* it acts on m triples, where c, b, a are the bits 3q, 3q+1, 3q+2; the other bits are kept *)
Definition slayer (m : nat) (x : bvec) : bvec := fun i =>
  if i <? 3 * m then
    let q := 3 * (i / 3) in
    let c := x q in let b := x (q + 1) in let a := x (q + 2) in
    match i mod 3 with 0 => sb_c a b c | 1 => sb_b a b c | _ => sb_a a b c end
  else x i.

(* the product of a matrix given by its rows with a vector *)
Definition matvec (n : nat) (mat : list N) (x : bvec) : bvec := fun i =>
  xsum n (fun j => bitv (nth i mat 0%N) j && x j).

(* the cipher with k rounds: whitening by the first round key, then per round substitution,
   matrix, constant and round key *)
Fixpoint cipher (m n : nat) (mats : list (list N)) (consts : list bvec) (keys : nat -> bvec) (k : nat) (x : bvec) : bvec :=
  match k with
  | 0 => fun i => xorb (x i) (keys 0 i)
  | S r => fun i =>
      let y := cipher m n mats consts keys r x in
      xorb (xorb (matvec n (nth r mats []) (slayer m y) i) (nth r consts (fun _ => false) i)) (keys (S r) i)
  end.

(* a square matrix of n rows of n bits *)
Definition square (n : nat) (mat : list N) : Prop :=
  length mat = n /\ Forall (fun x => (x < 2 ^ N.of_nat n)%N) mat.

(* only the zero vector is sent to zero *)
Definition regular (n : nat) (mat : list N) : Prop :=
  forall x : bvec, (forall i, i < n -> matvec n mat x i = false) -> forall i, i < n -> x i = false.

(* the two matrices are inverse to each other *)
Definition inverse_of (n : nat) (mat inv : list N) : Prop :=
  forall (x : bvec) i, i < n ->
    matvec n inv (matvec n mat x) i = x i /\ matvec n mat (matvec n inv x) i = x i.

(* the shape of an instance: what instantiate_LowMC leaves behind *)
Definition shaped (p : lparams) (l : lowmc) : Prop :=
  3 * lpBoxes p <= lpBits p /\
  length (lmLin l) = lpRounds p /\ Forall (square (lpBits p)) (lmLin l) /\
  length (lmConst l) = lpRounds p /\ Forall (fun x => (x < 2 ^ N.of_nat (lpBits p))%N) (lmConst l).
(* round keys of the right number and size *)
Definition keyed (p : lparams) (l : lowmc) : Prop :=
  length (lmKeys l) = lpRounds p + 1 /\ Forall (fun x => (x < 2 ^ N.of_nat (lpBits p))%N) (lmKeys l).
(* the inverse matrices belong to the matrices *)
Definition inverted (p : lparams) (l : lowmc) : Prop :=
  lmInvertable l = true /\ Forall2 (inverse_of (lpBits p)) (lmLin l) (lmInv l) /\
  Forall (square (lpBits p)) (lmInv l).

(* every row of the matrices has two ones *)
Definition two_ones (n : nat) (row : N) : Prop :=
  exists i j, i < j < n /\ bitv row i = true /\ bitv row j = true.

(* the constants and round keys of an instance as vectors *)
Definition const_vecs (l : lowmc) : list bvec := map bitv (lmConst l).
Definition key_vecs (l : lowmc) : nat -> bvec := fun r => bitv (nth r (lmKeys l) 0%N).
(* the round keys are the products of the key matrices with the key *)
Definition scheduled (p : lparams) (l : lowmc) (key : N) : Prop := forall r i, r <= lpRounds p -> i < lpBits p ->
  bitv (nth r (lmKeys l) 0%N) i = matvec (lpKey p) (nth r (lmKeyMat l) []) (bitv key) i.

(* the text of a matrix: a line of n characters 0 and 1 for every row *)
Definition line_text (n : nat) (x : N) : list N := map (fun j => if bitv x j then 49%N else 48%N) (seq 0 n) ++ [10%N].
Definition mat_text (n : nat) (mat : list N) : list N := concat (map (line_text n) mat).
