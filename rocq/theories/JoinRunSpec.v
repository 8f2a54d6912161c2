(* What a join with the runs of its circuits needs. *)
From Verif Require Import Base Words ShuffleModel ShuffleSpec GmwModel GmwSpec GmwIoSpec AggModel AggCirModel AggCirSpec AggCirRun AggRunModel AggRunProofs PermCorModel ExtractSpec KeyMultModel RadixModel RadixSpec SortPrivSpec GenPermPrivSpec OmJoinModel OmJoinSpec JoinRunModel.

(* transposing an output leaves zeros in the bits of a byte that are not bits of the output *)
Definition pad_zero (t : tape) : Prop := forall i r j, tpOutPad t i r j = false.
(* the library's circuits: a multiplexer for rows of w bytes, and the and of two bits *)
Definition and_fun (xs : list (list bool)) : list (list bool) := match xs with [a; b] => [[nth 0 a false && nth 0 b false]] | _ => [] end.
Definition lib_ok (w : nat) (lb : join_lib) : Prop :=
  multiplexer_ok (8 * w) (lbMux lb) /\ runnable (lbAnd lb) [1; 1] [1] /\ computes (lbAnd lb) and_fun.
(* the levels list the gates of the circuits of a join of rows of w bytes and keys of bits bits *)
Definition lists_levels (o : outcome circuit) (lvs : list level) : Prop := forall c, o = Ok c -> levels_of c lvs.
Definition levels_fit (lb : join_lib) (w bits : nat) (jl : join_levels) : Prop :=
  lists_levels (control_circuit bits) (jlCtrl jl) /\ lists_levels (upstream_cir dup_circuit (lbMux lb) (8 * w) Prefix) (jlUp jl) /\
  lists_levels (downstream_cir dup_circuit (8 * w) Prefix) (jlDown jl) /\ lists_levels (leaf_cir dup_circuit (lbMux lb) (8 * w) Prefix) (jlLeaf jl) /\
  levels_of (lbAnd lb) (jlFlag jl).
(* both parties have enough correlations in every run; the tree has top levels besides the leaves, and the run at level
   lvl has half as many lanes as there are nodes.  The runs of the way down are listed from the top. *)
Definition tapes_fit (n : nat) (jl : join_levels) (jt : join_tapes) : Prop :=
  pad_zero (fst (jtpCtrl jt)) /\ pad_zero (snd (jtpCtrl jt)) /\ pad_zero (fst (jtpFlag jt)) /\ pad_zero (snd (jtpFlag jt)) /\
  tapes_ok n (jlCtrl jl) (fst (jtpCtrl jt)) (snd (jtpCtrl jt)) /\ tapes_ok n (jlFlag jl) (fst (jtpFlag jt)) (snd (jtpFlag jt)) /\
  exists sh, tree_sizes n = Ok sh /\
    let top := length (sSizes sh) - 1 in
    let sz := fun lvl => nth lvl (sSizes sh) 0 / 2 in
    length (fst (jtpUp jt)) = top /\ length (snd (jtpUp jt)) = top /\ length (fst (jtpDown jt)) = top /\ length (snd (jtpDown jt)) = top /\
    (forall lvl a b, nth_error (fst (jtpUp jt)) lvl = Some a -> nth_error (snd (jtpUp jt)) lvl = Some b -> tapes_ok (sz lvl) (jlUp jl) a b) /\
    (forall i a b, nth_error (fst (jtpDown jt)) i = Some a -> nth_error (snd (jtpDown jt)) i = Some b -> tapes_ok (sz (top - i - 1)) (jlDown jl) a b) /\
    tapes_ok (sN16 sh / 2) (jlLeaf jl) (fst (jtpLeaf jt)) (snd (jtpLeaf jt)).

(* the randomness of a join of n rows: of a sort of bits bits in digits of L bits, and a fresh composed permutation with
   cap bytes per row *)
Definition run_fits (L bits n capS cap : nat) (rd : (radix_round * list ((comp * comp) * radix_round)) * (comp * comp)) : Prop :=
  sort_fits L n capS (fst rd) /\ S (length (snd (fst rd))) * L < bits + L /\ bits <= S (length (snd (fst rd))) * L /\
  comps_ok n cap (snd rd) /\ comp_bytes (fst (snd rd)) /\ comp_bytes (snd (snd rd)).
