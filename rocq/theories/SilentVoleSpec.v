(* Specification vocabulary for the silent F4 VOLE; no code of /repo here. *)
From Verif Require Import Base Words GF4Spec CompressSpec SilentVoleModel.

(* the value programmed at position x *)
Fixpoint at_point {A} (d : A) (pts : list nat) (vs : list A) (x : nat) : A :=
  match pts, vs with
  | p :: pts', v :: vs' => if Nat.eqb p x then v else at_point d pts' vs' x
  | _, _ => d
  end.

(* what a programmable punctured PRF promises: the expansions agree but at the points, where
   they differ by the programmed values; element 0 of the sender's expansion is zero *)
Definition pprf_rel (noise : nat) (pts : list nat) (vs : list N) (outS outR : list N) : Prop :=
  length outS = noise /\ length outR = noise /\
  (forall x, In x outS -> gelem x 0 = g0) /\
  (forall x, x < noise -> nth x outR 0%N = N.lxor (nth x outS 0%N) (at_point 0%N pts vs x)).

(* a VOLE with the receiver's values apart: a = b + c * delta off element 0 *)
Definition base_vole (delta : N) (c a b : list N) : Prop :=
  length a = length c /\ length b = length c /\
  forall i t, i < length c -> (1 <= t < 64)%N ->
   gelem (nth i a 0%N) t = gadd (gelem (nth i b 0%N) t) (gmul (gelem (nth i c 0%N) 0) (gelem delta t)).

(* a straight line program keeps within n cells *)
Definition lin_in (n : nat) (p : list lin) : Prop :=
  forall i, In i p -> match i with
    | LPlus d x y => d < n /\ x < n /\ y < n
    | LMul d x => d < n /\ x < n
    | LCopy d x => d < n /\ x < n
    | LZero d => d < n
    end.

(* the same program over the field with four elements; mulConst multiplies by 1 + w *)
Definition g3 : gf4 := (true, true).
Definition glin_step (s : list gf4) (i : lin) : list gf4 :=
  match i with
  | LPlus d x y => upd s d (gadd (nth x s g0) (nth y s g0))
  | LMul d x => upd s d (gmul g3 (nth x s g0))
  | LCopy d x => upd s d (nth x s g0)
  | LZero d => upd s d g0
  end.
Definition glin_run (p : list lin) (s : list gf4) : list gf4 := fold_left glin_step p s.

(* the sparse noise vector with tmp further zero cells *)
Definition noise_vec (noise tmp : nat) (pts : list nat) (c : list N) : list gf4 :=
  map (fun x => gelem (at_point 0%N pts c x) 0) (seq 0 noise) ++ repeat g0 tmp.

(* the first n nonzero values among the low two bits of the drawn blocks *)
Definition drawn (n : nat) (rnd : list N) : list N :=
  firstn n (filter (fun v => negb (v =? 0)%N) (map (fun b => b mod 4)%N rnd)).

(* the dimension the code is set up with: Tungsten works on multiples of eight *)
Definition code_dim (m : mult) (req : nat) : nat :=
  match m with Tungsten => (req + 7) / 8 * 8 | _ => req end.
