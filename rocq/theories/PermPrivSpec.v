(* Which correlations fit what the other party holds, and which histories look alike from outside. *)
From Verif Require Import Base PermModel PermSpec PermCorModel PermCorSpec ShuffleSpec PrivSpec PermViewModel.

(* what the receiver may hold, given what the sender holds, and the other way round *)
Definition fit_r (n c : nat) (s : cor_s) (r : cor_r) : Prop := cor_rel n c s r /\ bytes (dat (crA r)) /\ bytes (dat (crB r)).
Definition fit_s (n c : nat) (r : cor_r) (s : cor_s) : Prop := cor_rel n c s r /\ bytes (dat (csDelta s)).

(* the same operations, the receiver's inputs may differ *)
Definition same_but_recv (o o' : cop) : Prop :=
  match o, o' with
  | OApply op w xs xr, OApply op' w' xs' xr' => op' = op /\ w' = w /\ xs' = xs /\ bytes xr /\ bytes xr'
  | ODerand p, ODerand p' => p' = p
  | _, _ => False
  end.
(* the same operations, the sender's inputs and permutations may differ *)
Definition same_but_send (o o' : cop) : Prop :=
  match o, o' with
  | OApply op w xs xr, OApply op' w' xs' xr' => op' = op /\ w' = w /\ xr' = xr
  | ODerand _, ODerand _ => True
  | _, _ => False
  end.
Definition derands (h : list cop) : nat := length (filter (fun o => match o with ODerand _ => true | _ => false end) h).

(* ---- composed permutations ---- *)
(* the operations take shares of the right size; a new permutation is shared between the parties *)
Definition mop_ok (n : nat) (o : mop) : Prop :=
  match o with
  | MApply _ w x0 x1 => length x0 = n * w /\ length x1 = n * w /\ bytes x0 /\ bytes x1
  | MDerand a0 a1 => length a0 = n /\ length a1 = n /\
    (forall i, i < n -> (N.lxor (nth i a0 0%N) (nth i a1 0%N) < 2 ^ 32)%N) /\ is_perm n (map N.to_nat (xors a0 a1))
  end.
(* mask bytes used of the correlation of party 0's and of party 1's permutation *)
Definition mwidth0 (h : list mop) : nat := fold_right (fun o k => match o with MApply _ w _ _ => w | MDerand _ _ => 0 end + k) 0 h.
Definition mwidth1 (h : list mop) : nat := fold_right (fun o k => match o with MApply _ w _ _ => w | MDerand _ _ => 4 end + k) 0 h.
(* the same operations, one party's inputs may differ *)
Definition same_for0 (o o' : mop) : Prop :=
  match o, o' with
  | MApply op w x0 _, MApply op' w' x0' _ => op' = op /\ w' = w /\ x0' = x0
  | MDerand a0 _, MDerand a0' _ => a0' = a0
  | _, _ => False
  end.
Definition same_for1 (o o' : mop) : Prop :=
  match o, o' with
  | MApply op w _ x1, MApply op' w' _ x1' => op' = op /\ w' = w /\ x1' = x1
  | MDerand _ a1, MDerand _ a1' => a1' = a1
  | _, _ => False
  end.
Definition mderands (h : list mop) : nat := length (filter (fun o => match o with MDerand _ _ => true | _ => false end) h).
