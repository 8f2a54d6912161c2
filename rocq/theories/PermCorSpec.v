(* Specification of the permutation correlations and of what a run over them must compute.
   Matrices are row major byte lists. *)
From Verif Require Import Base PermModel PermSpec PermCorModel.

Definition cel (c : nat) (m : list N) (i j : nat) : N := nth (i * c + j) m 0%N.

(* the correlation mDelta ^ mB = pi(mA) over n rows of c bytes, both sides at the same offset *)
Definition cor_rel (n c : nat) (s : cor_s) (r : cor_r) : Prop :=
  is_perm n (csPerm s) /\
  rows (csDelta s) = n /\ cols (csDelta s) = c /\ length (dat (csDelta s)) = n * c /\
  rows (crA r) = n /\ cols (crA r) = c /\ length (dat (crA r)) = n * c /\
  rows (crB r) = n /\ cols (crB r) = c /\ length (dat (crB r)) = n * c /\
  csOff s = crOff r /\
  forall i j, i < n -> j < c ->
    N.lxor (cel c (dat (csDelta s)) i j) (cel c (dat (crB r)) i j) = cel c (dat (crA r)) (nth i (csPerm s) 0) j.

(* y is x permuted: row i of y is row pi[i] of x, or the other way round *)
Definition permuted (op : PermOp) (w : nat) (pi : list nat) (x y : list N) : Prop :=
  match op with Regular => gathered w pi x y | Inverse => scattered w pi x y end.

Definition xors (a b : list N) : list N := map2 N.lxor a b.
Definition in_or_zero (k : nat) (x : option (list N)) : list N := match x with Some l => l | None => repeat 0%N k end.

(* the outputs of a history of operations, starting with the permutation pi *)
Fixpoint hist_spec (n : nat) (pi : list nat) (h : list cop) (outs : list (list N * list N)) : Prop :=
  match h, outs with
  | [], [] => True
  | OApply op w xs xr :: h', (ys, yr) :: outs' =>
    length ys = n * w /\ length yr = n * w /\
    permuted op w pi (xors (in_or_zero (n * w) xs) xr) (xors ys yr) /\ hist_spec n pi h' outs'
  | ODerand p :: h', _ :: outs' => hist_spec n p h' outs'
  | _, _ => False
  end.

(* well formed operations: inputs of the right size, permutations of the right size *)
Definition op_ok (n : nat) (o : cop) : Prop :=
  match o with
  | OApply _ w xs xr => length xr = n * w /\ match xs with Some x => length x = n * w | None => True end
  | ODerand p => is_perm n p
  end.
(* mask bytes per row an operation uses *)
Definition op_width (o : cop) : nat := match o with OApply _ w _ _ => w | ODerand _ => 0 end.
Definition widths (h : list cop) : nat := fold_right (fun o k => op_width o + k) 0 h.
(* the permutation after a history *)
Definition last_perm (pi : list nat) (h : list cop) : list nat :=
  fold_left (fun p o => match o with ODerand q => q | _ => p end) h pi.

(* two correlations have the same masks in byte columns [a, b) of every row *)
Definition same_masks (n c a b : nat) (s s' : cor_s) (r r' : cor_r) : Prop :=
  forall i j, i < n -> a <= j < b ->
    cel c (dat (csDelta s)) i j = cel c (dat (csDelta s')) i j /\
    cel c (dat (crA r)) i j = cel c (dat (crA r')) i j /\
    cel c (dat (crB r)) i j = cel c (dat (crB r')) i j.

(* ---- composed permutations ---- *)
(* the permutation a pair of ComposedPerms stands for: pi[i] = p0[p1[i]] *)
Definition comp_perm (c0 c1 : comp) : list nat := map (fun i => nth i (csPerm (cpS c0)) 0) (csPerm (cpS c1)).

Definition comp_rel (n c : nat) (c0 c1 : comp) : Prop :=
  cpIdx c0 = 0 /\ cpIdx c1 = 1 /\ cor_rel n c (cpS c0) (cpR c1) /\ cor_rel n c (cpS c1) (cpR c0).
