(* Segmented scans.  Row i starts a new block when its control bit is 0. *)
From Verif Require Import Base.

(* the first row of the block of row i *)
Fixpoint blk_start (c : list bool) (i : nat) : nat :=
  match i with
  | 0 => 0
  | S j => if nth (S j) c false then blk_start c j else S j
  end.

(* the rows after row i belonging to its block: c are the control bits after row i *)
Fixpoint run_len (c : list bool) : nat :=
  match c with
  | true :: c' => S (run_len c')
  | _ => 0
  end.
Definition blk_end (c : list bool) (i : nat) : nat := i + 1 + run_len (skipn (i + 1) c).

(* rows [a, b) combined from left to right; z only for an empty range *)
Definition agg_range {V} (op : V -> V -> V) (z : V) (x : list V) (a b : nat) : V :=
  match slice x a (b - a) with
  | [] => z
  | y :: l => fold_left op l y
  end.

Definition assoc_op {V} (op : V -> V -> V) : Prop := forall a b c, op a (op b c) = op (op a b) c.

(* a tree given by its level sizes, leaves first: every parent has two children *)
Definition tree_shape (n16 : nat) (sz : list nat) : Prop :=
  let s := fun i => nth i sz 0 in
  2 <= length sz /\
  s (length sz - 1) = 1 /\                                     (* one root *)
  (forall l, l < length sz - 1 -> Nat.even (s l) = true) /\    (* nodes below the root come in pairs *)
  s 0 <= n16 /\ s 1 = s 0 / 2 + (n16 - s 0) /\                 (* level 1: parents, then the other leaves *)
  (forall l, 1 <= l < length sz - 1 -> s (l + 1) = s l / 2).
