(* Vocabulary of the property of the aggregation tree's circuits. *)
From Verif Require Import Base GmwModel GmwSpec AggModel AggCirModel.

(* A builder called on circuit c appends the gates gs and takes m new wires; gs only writes the
   wires outs and the new ones, reads only ins, the new wires and outs, and those only after
   writing them; it writes all of outs *)
Definition appends (c c' : circuit) (gs : list gate) (m : nat) (ins outs writes : list nat) : Prop :=
  c' = Circuit (cWires c + m) (cIns c) (cOuts c) (cGates c ++ gs) /\
  (forall g, In g gs -> gType g <> GOther /\ (gIn0 g < cWires c + m /\ gIn1 g < cWires c + m) /\
     (In (gOut g) writes \/ cWires c <= gOut g < cWires c + m)) /\
  well_def ins ins gs /\
  (forall w, In w outs -> exists g, In g gs /\ gOut g = w).

Definition wires_in (c : circuit) (l : list nat) : Prop := forall w, In w l -> w < cWires c.
Definition apart (l m : list nat) : Prop := forall w, In w l -> ~ In w m.

(* op is an operator circuit for values of k bits that computes f *)
Definition operator_ok (k : nat) (f : list bool -> list bool -> list bool) (op : operator) : Prop :=
  forall c a b out, length a = k -> length b = k -> length out = k ->
    wires_in c a -> wires_in c b -> wires_in c out -> NoDup (a ++ b ++ out) ->
    exists gs m c', op c a b out = Ok c' /\ appends c c' gs m (a ++ b) out out /\
      forall e, map (eval gs e) out = f (map e a) (map e b).

(* a multiplexer of k bits: out = choice ? ifTrue : ifFalse, using the wires temp *)
Definition multiplexer_ok (k : nat) (mux : multiplexer) : Prop :=
  forall c t f ch out temp, length t = k -> length f = k -> length out = k -> length temp = k ->
    wires_in c t -> wires_in c f -> wires_in c [ch] -> wires_in c out -> wires_in c temp ->
    NoDup (t ++ f ++ [ch] ++ out ++ temp) ->
    exists gs m c', mux c t f [ch] out temp = Ok c' /\ appends c c' gs m (t ++ f ++ [ch]) out (out ++ temp) /\
      forall e, map (eval gs e) out = if e ch then map e t else map e f.

(* the circuit computes F: from the values of the input bundles to those of the output bundles *)
Definition computes (c : circuit) (F : list (list bool) -> list (list bool)) : Prop :=
  forall e, map (map (eval (cGates c) e)) (cOuts c) = F (map (map e) (cIns c)).

(* the circuit can be run by Gmw: the input bundles are consecutive, disjoint wires, outputs too,
   only defined wires are read, no input wire is written, all outputs are *)
Definition runnable (c : circuit) (ins outs : list nat) : Prop :=
  map (@length nat) (cIns c) = ins /\ map (@length nat) (cOuts c) = outs /\
  concat (cIns c) ++ concat (cOuts c) = seq 0 (fold_right plus 0 ins + fold_right plus 0 outs) /\
  well_def (concat (cIns c)) (concat (cIns c)) (cGates c) /\
  (forall g, In g (cGates c) -> gType g <> GOther /\ gIn0 g < cWires c /\ gIn1 g < cWires c /\ gOut g < cWires c) /\
  (forall w, In w (concat (cOuts c)) -> exists g, In g (cGates c) /\ gOut g = w).

(* what the circuits compute on the values xs of their input bundles, in terms of the step
   functions of AggModel; f is the operator *)
Section Functions.
Variable f : list bool -> list bool -> list bool.
(* a value bundle and a bit bundle as one entry of a level *)
Definition entry (v b : list bool) : list bool * bool := (v, hd false b).
Definition bundles_of (p : list bool * bool) : list (list bool) := [fst p; [snd p]].
Definition up_pre (lv rv lb rb : list bool) : list (list bool) := bundles_of (cUp (pre_chan f) (entry lv lb) (entry rv rb)).
Definition up_suf (lv rv lb rb : list bool) : list (list bool) := bundles_of (cUp (suf_chan f) (entry lv lb) (entry rv rb)).
Definition up_fun (ty : agg_type) (xs : list (list bool)) : list (list bool) :=
  match ty, xs with
  | Prefix, [lv; rv; lb; rb] => up_pre lv rv lb rb
  | Suffix, [lv; rv; lb; rb] => up_suf lv rv lb rb
  | Full, [lv; rv; lb; rb; lv'; rv'; lb'; rb'] => up_pre lv rv lb rb ++ up_suf lv' rv' lb' rb'
  | _, _ => []
  end.
(* the way down does not look at the value and bit o of the other child *)
Definition down_pre (o : list bool * bool) (v b p : list bool) : list (list bool) :=
  let d := cDown (pre_chan f) (entry v b) o p in [fst d; snd d].
Definition down_suf (o : list bool * bool) (v b p : list bool) : list (list bool) :=
  let d := cDown (suf_chan f) o (entry v b) p in [fst d; snd d].
Definition down_fun (o o' : list bool * bool) (ty : agg_type) (xs : list (list bool)) : list (list bool) :=
  match ty, xs with
  | Prefix, [v; b; p] => down_pre o v b p
  | Suffix, [v; b; p] => down_suf o' v b p
  | Full, [v; b; p; v'; b'; p'] => down_pre o v b p ++ down_suf o' v' b' p'
  | _, _ => []
  end.
Definition leaf_fun (ty : agg_type) (xs : list (list bool)) : list (list bool) :=
  match ty, xs with
  | Prefix, [l; r; lp; rp; lb; rb] => [leaf_pre f (entry l lb) lp; leaf_pre f (entry r rb) rp]
  | Suffix, [l; r; ls; rs; lb; rb] => [leaf_suf f (entry l lb) ls; leaf_suf f (entry r rb) rs]
  | Full, [l; r; lp; rp; lb; rb; ls; rs; lb'; rb'] =>
      [leaf_full f (entry l lb) lp (hd false lb') ls; leaf_full f (entry r rb) rp (hd false rb') rs]
  | _, _ => []
  end.
End Functions.

(* the sizes of the input and output bundles for values of k bits *)
Definition up_ins (k : nat) (ty : agg_type) : list nat := match ty with Full => [k; k; 1; 1; k; k; 1; 1] | _ => [k; k; 1; 1] end.
Definition up_outs (k : nat) (ty : agg_type) : list nat := match ty with Full => [k; 1; k; 1] | _ => [k; 1] end.
Definition down_ins (k : nat) (ty : agg_type) : list nat := match ty with Full => [k; 1; k; k; 1; k] | _ => [k; 1; k] end.
Definition down_outs (k : nat) (ty : agg_type) : list nat := match ty with Full => [k; k; k; k] | _ => [k; k] end.
Definition leaf_ins (k : nat) (ty : agg_type) : list nat :=
  match ty with Full => [k; k; k; k; 1; 1; k; k; 1; 1] | _ => [k; k; k; k; 1; 1] end.
Definition leaf_outs (k : nat) : list nat := [k; k].

(* numbers and their bits, lowest first *)
Fixpoint bnum (l : list bool) : N := match l with [] => 0 | b :: l => N.b2n b + 2 * bnum l end%N.
Definition nbits (k : nat) (x : N) : list bool := map (fun i => N.testbit x (N.of_nat i)) (seq 0 k).
(* an adder for numbers of any size n; it may use 2n temporary wires *)
Definition adder_ok (add : adder) : Prop :=
  forall n c a b out t, length a = n -> length b = n -> length out = n -> length t = n * 2 ->
    wires_in c a -> wires_in c b -> wires_in c out -> wires_in c t -> NoDup (a ++ b ++ out ++ t) ->
    exists gs m c', add c a b out t = Ok c' /\ appends c c' gs m (a ++ b) out (out ++ t) /\
      forall e, map (eval gs e) out = nbits n (bnum (map e a) + bnum (map e b)).
(* fields of the sizes ws, one after the other, added each on its own *)
Fixpoint add_fields (ws : list nat) (x y : list bool) : list bool :=
  match ws with
  | [] => []
  | w :: ws => nbits w (bnum (firstn w x) + bnum (firstn w y)) ++ add_fields ws (skipn w x) (skipn w y)
  end.
