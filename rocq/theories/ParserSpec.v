(* Specification of the where clauses: values and operators. *)
From Verif Require Import Base Words ShuffleSpec TableModel TableIOModel ParserModel.
Local Open Scope Z_scope.

(* a value: an integer of a width, a boolean, a string, bits *)
Inductive value := VInt (w : nat) (z : Z) | VBool (b : bool) | VStr (s : list N) | VBin (l : list bool).
Definition v_width (v : value) : nat :=
  match v with VInt w _ => w | VBool _ => 1 | VStr s => 8 * length s | VBin l => length l end%nat.
(* the number: strings and bits with the lowest first *)
Fixpoint bits_num (l : list bool) : Z := match l with [] => 0 | b :: l => Z.b2z b + 2 * bits_num l end.
Fixpoint str_num (s : list N) : Z := match s with [] => 0 | c :: s => Z.of_N c + 256 * str_num s end.
Definition v_num (v : value) : Z :=
  match v with VInt _ z => z | VBool b => Z.b2z b | VStr s => str_num s | VBin l => bits_num l end.
Definition is_int (v : value) : bool := match v with VInt _ _ => true | _ => false end.
Definition is_bin (v : value) : bool := match v with VBin _ => true | _ => false end.

(* the values of w bits in two's complement *)
Definition fits (w : nat) (z : Z) : Prop := - 2 ^ (Z.of_nat w - 1) <= z < 2 ^ (Z.of_nat w - 1).
(* the one congruent to z *)
Definition wrap (w : nat) (z : Z) : Z := (z + 2 ^ (Z.of_nat w - 1)) mod 2 ^ Z.of_nat w - 2 ^ (Z.of_nat w - 1).

(* operands that have a common width: bits are not extended *)
Definition widen (a b : value) : bool :=
  ((negb (is_bin a) || (v_width b <=? v_width a)) && (negb (is_bin b) || (v_width a <=? v_width b)) && (1 <=? Nat.max (v_width a) (v_width b)))%nat.
(* and have the same value in it: both integers, none, or an integer and something narrower *)
Definition comparable (a b : value) : bool :=
  widen a b && match is_int a, is_int b with
  | true, false => v_width b <? v_width a
  | false, true => v_width a <? v_width b
  | _, _ => true
  end%nat.

Definition v_op (t : nat) (a b : value) : option value :=
  match t with
  | 1%nat => if comparable a b then Some (VBool (v_num a =? v_num b)) else None
  | 2%nat => if comparable a b then Some (VBool (negb (v_num a =? v_num b))) else None
  | 3%nat => match a, b with VBool x, VBool y => Some (VBool (x && y)) | _, _ => None end
  | 4%nat => match a, b with VBool x, VBool y => Some (VBool (x || y)) | _, _ => None end
  | 8%nat => match a, b with VBool x, VBool y => Some (VBool (xorb x y)) | _, _ => None end
  | 5%nat => let w := Nat.max (v_width a) (v_width b) in if widen a b then Some (VInt w (wrap w (v_num a + v_num b))) else None
  | 6%nat => if comparable a b && (is_int a || is_int b) then Some (VBool (v_num a <? v_num b)) else None
  | 7%nat => if comparable a b && (is_int a || is_int b) then Some (VBool (v_num b <=? v_num a)) else None
  | _ => None
  end.
(* the same for any widths: the values are compared modulo 2 to the common width, as signed numbers *)
Definition v_op_mod (t : nat) (a b : value) : option value :=
  let w := Nat.max (v_width a) (v_width b) in
  match t with
  | 1%nat => if widen a b then Some (VBool (wrap w (v_num a) =? wrap w (v_num b))) else None
  | 2%nat => if widen a b then Some (VBool (negb (wrap w (v_num a) =? wrap w (v_num b)))) else None
  | 6%nat => if widen a b && (is_int a || is_int b) then Some (VBool (wrap w (v_num a) <? wrap w (v_num b))) else None
  | 7%nat => if widen a b && (is_int a || is_int b) then Some (VBool (wrap w (v_num b) <=? wrap w (v_num a))) else None
  | _ => v_op t a b
  end.
(* the gates in order: each takes two values known so far *)
Fixpoint v_runs (f : nat -> value -> value -> option value) (vs : list value) (gs : list agate) : option (list value) :=
  match gs with
  | [] => Some vs
  | g :: gs =>
    match nth_error vs (aIn0 g), nth_error vs (aIn1 g), (aOut g =? length vs)%nat with
    | Some a, Some b, true => match f (aType g) a b with Some v => v_runs f (vs ++ [v]) gs | None => None end
    | _, _, _ => None
    end
  end.
Definition v_run := v_runs v_op.
Definition v_run_mod := v_runs v_op_mod.

(* the value of a column in a row, given its bits *)
Definition two_comp (l : list bool) : Z := bits_num l - if last l false then 2 ^ Z.of_nat (length l) else 0.
Definition col_value (ty : nat) (l : list bool) (v : value) : Prop :=
  match ty with
  | 0%nat => l <> [] /\ v = VInt (length l) (two_comp l)
  | 1%nat => exists b, l = [b] /\ v = VBool b
  | 2%nat => exists s, bytes s /\ l = row_bits (length s * 8) s /\ v = VStr s
  | _ => v = VBin l
  end.
(* the value of a literal; an integer has the least width it fits in, but at least 2 *)
Definition lit_value (ty : nat) (s : list N) (v : value) : Prop :=
  match ty with
  | 0%nat => exists z w, stoll s = Ok z /\ v = VInt w z /\ (2 <= w <= 64)%nat /\ fits w z /\ forall w', (2 <= w')%nat -> fits w' z -> (w <= w')%nat
  | 1%nat => (s = [49]%N \/ s = [116; 114; 117; 101]%N) /\ v = VBool true \/ (s = [48]%N \/ s = [102; 97; 108; 115; 101]%N) /\ v = VBool false
  | 2%nat => bytes s /\ v = VStr s
  | _ => False
  end.
(* the column a name stands for *)
Definition first_named (st : list cinfo) (name : list N) (c : cinfo) : Prop :=
  exists p q, st = p ++ c :: q /\ iName c = name /\ Forall (fun d => iName d <> name) p.
(* the gates only use what is there and number their results in order *)
Definition gates_in_order (n : nat) (gs : list agate) : Prop :=
  forall i g, nth_error gs i = Some g -> (aIn0 g < n + i /\ aIn1 g < n + i /\ aOut g = n + i /\ 1 <= aType g <= 8)%nat.
(* the operands have the types the gates need: and, or, xor take single bits, < and >= an integer, the
   last gate is not an addition.  ks: type and width of the values so far *)
Fixpoint well_typed (ks : list (nat * nat)) (gs : list agate) : Prop :=
  match gs with
  | [] => True
  | g :: gs => exists a b, nth_error ks (aIn0 g) = Some a /\ nth_error ks (aIn1 g) = Some b /\
      match aType g with
      | 3 | 4 | 8 => snd a = 1 /\ snd b = 1
      | 5 => gs <> []
      | 6 | 7 => fst a = 0 \/ fst b = 0
      | _ => True
      end%nat /\
      well_typed (ks ++ [match aType g with 5%nat => (0, Nat.max (snd a) (snd b)) | _ => (1, 1) end]%nat) gs
  end.
