(* Vocabulary of the property of the aggregation tree run on shares. *)
From Verif Require Import Base GmwModel GmwSpec AggModel AggSpec AggCirModel AggCirSpec AggTwoModel.

(* three lists related position by position: two shares and the value *)
Inductive F3 {A} (R : A -> A -> A -> Prop) : list A -> list A -> list A -> Prop :=
| f3_nil : F3 R [] [] []
| f3_cons a b c la lb lc : R a b c -> F3 R la lb lc -> F3 R (a :: la) (b :: lb) (c :: lc).

(* shares of a bit, of k bits and of a row of bundles with the given sizes *)
Definition bit_shares (a b c : bool) : Prop := c = xorb a b.
Definition word_shares (k : nat) (a b c : list bool) : Prop := length a = k /\ length b = k /\ c = map2 xorb a b.
Definition lane_shares (sizes : list nat) (a b c : list (list bool)) : Prop :=
  map (@length bool) a = sizes /\ map (@length bool) b = sizes /\ c = map2 (map2 xorb) a b.

(* a run on n lanes computes F on shares *)
Definition run_ok (n : nat) (ins outs : list nat) (F : list (list bool) -> list (list bool)) (run : grun) : Prop :=
  forall x0 x1 x, length x = n -> F3 (lane_shares ins) x0 x1 x ->
    exists y0 y1, run x0 x1 = Ok (y0, y1) /\ F3 (lane_shares outs) y0 y1 (map F x).

(* an operator on words of k bits *)
Definition word_op (k : nat) (f : list bool -> list bool -> list bool) : Prop :=
  (forall a b, length a = k -> length b = k -> length (f a b) = k) /\
  (forall a b c, length a = k -> length b = k -> length c = k -> f a (f b c) = f (f a b) c).

(* what an aggregation computes: row i is f over a range of the rows of its block *)
Definition scan (ty : agg_type) (f : list bool -> list bool -> list bool) (z : list bool) (src : list (list bool)) (ctrl : list bool) : list (list bool) :=
  map (fun i => agg_range f z src (match ty with Suffix => i | _ => blk_start ctrl i end) (match ty with Prefix => i + 1 | _ => blk_end ctrl i end)) (seq 0 (length src)).
