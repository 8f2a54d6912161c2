(* Property C72: the aggregation tree of two parties on shares. *)
From Verif Require Import Base GmwModel GmwSpec GmwProofs GmwIoModel GmwIoSpec ShuffleSpec AggModel AggSpec AggCirModel AggCirSpec AggCirProofs AggCirBuild AggCirAdd AggCirExamples AggCirRun AggTwoModel AggTwoSpec AggTwoRel AggTwoTree AggRunModel AggRunProofs AggTwoScan PropsGmw PropsGmwIo PropsAggCir.

(* C72: for any number of rows from two on and any associative operator, if every Gmw run of the
   tree computes the function of its circuit on the xor of the two parties' lanes, then AggTree::apply
   gives shares of the segmented prefix, suffix or full aggregates *)
Theorem C72_shares k f o o' ty src0 src1 src ctrl0 ctrl1 ctrl sh ups downs leaf :
  word_op k f -> 2 <= length src -> length src = length ctrl -> (ty = Suffix \/ nth_error ctrl 0 = Some false) ->
  F3 (word_shares k) src0 src1 src -> F3 bit_shares ctrl0 ctrl1 ctrl -> tree_sizes (length src) = Ok sh ->
  (forall lvl, lvl < length (sSizes sh) - 1 -> run_ok (nth lvl (sSizes sh) 0 / 2) (up_ins k ty) (up_outs k ty) (up_fun f ty) (ups lvl)) ->
  (forall lvl, lvl < length (sSizes sh) - 1 -> run_ok (nth lvl (sSizes sh) 0 / 2) (down_ins k ty) (down_outs k ty) (down_fun f o o' ty) (downs lvl)) ->
  run_ok (sN16 sh / 2) (leaf_ins k ty) (leaf_outs k) (leaf_fun f ty) leaf ->
  exists o0 o1, agg_two ty (repeat false k) ups downs leaf src0 src1 ctrl0 ctrl1 = Ok (o0, o1) /\
    F3 (word_shares k) o0 o1 (scan ty f (repeat false k) src ctrl).
Proof. apply two_scan. Qed.
Print Assumptions C72_shares.

(* a Gmw run on mapped lanes computes its circuit's function on the shares, whatever the
   uninitialised memory holds *)
Theorem C72_lanes mapped c ins outs F lvs n t0 t1 :
  runnable c ins outs -> computes c F -> Forall (fun n => 0 < n) ins -> Forall (fun n => 0 < n) outs -> outs <> [] ->
  levels_of c lvs -> 0 < n -> tapes_ok n lvs t0 t1 -> run_ok n ins outs F (gmw_lanes mapped n c lvs t0 t1).
Proof. apply gmw_lanes_ok. Qed.
Print Assumptions C72_lanes.

(* the tree with its circuits, its Gmw runs and enough correlations *)
Theorem C72_tree k f op mux ty cu cd cl lu ld ll up0 up1 dn0 dn1 lf0 lf1 src0 src1 src ctrl0 ctrl1 ctrl sh :
  0 < k -> operator_ok k f op -> multiplexer_ok k mux -> word_op k f ->
  upstream_cir op mux k ty = Ok cu -> downstream_cir op k ty = Ok cd -> leaf_cir op mux k ty = Ok cl -> levels_of cu lu -> levels_of cd ld -> levels_of cl ll ->
  2 <= length src -> length src = length ctrl -> (ty = Suffix \/ nth_error ctrl 0 = Some false) ->
  F3 (word_shares k) src0 src1 src -> F3 bit_shares ctrl0 ctrl1 ctrl -> tree_sizes (length src) = Ok sh ->
  (forall lvl, lvl < length (sSizes sh) - 1 -> tapes_ok (nth lvl (sSizes sh) 0 / 2) lu (up0 lvl) (up1 lvl)) ->
  (forall lvl, lvl < length (sSizes sh) - 1 -> tapes_ok (nth lvl (sSizes sh) 0 / 2) ld (dn0 lvl) (dn1 lvl)) ->
  tapes_ok (sN16 sh / 2) ll lf0 lf1 ->
  exists o0 o1, agg_gmw ty (repeat false k) cu cd cl lu ld ll up0 up1 dn0 dn1 lf0 lf1 src0 src1 ctrl0 ctrl1 = Ok (o0, o1) /\
    F3 (word_shares k) o0 o1 (scan ty f (repeat false k) src ctrl).
Proof. apply tree_scan. Qed.
Print Assumptions C72_tree.

(* the join's operator is associative, and its prefix aggregate is the first row of the block: the
   values of the left table's row are copied to all matching rows of the right table *)
Theorem C72_dup k z src ctrl : word_op k (fun a b => a) /\
  scan Prefix (fun a b => a) z src ctrl = map (fun i => nth (blk_start ctrl i) src z) (seq 0 (length src)).
Proof. split; [apply dup_word|apply dup_scan]. Qed.
Print Assumptions C72_dup.
(* the group-by's operator is associative on words of its columns *)
Theorem C72_add ws : word_op (fold_right Nat.add 0 ws) (add_fields ws).
Proof. exact (@add_word ws). Qed.
Print Assumptions C72_add.

(* runs that compute F and give party 1 a fixed pattern *)
Definition ideal (outs : list nat) (F : list (list bool) -> list (list bool)) : grun := fun x0 x1 =>
  let pat := map (fun n => map Nat.even (seq 0 n)) outs in
  Ok (map (fun y => map2 (map2 xorb) y pat) (map F (map2 (map2 (map2 xorb)) x0 x1)), map (fun _ => pat) x0).
Definition b2 (x : N) : list bool := nbits 2 x.
Definition add2 : list bool -> list bool -> list bool := add_fields [2].
Definition t_src : list (list bool) := map b2 [1; 1; 3; 2; 1]%N.
Definition t_ctrl : list bool := [false; true; true; false; true].
Definition t_s1 : list (list bool) := map b2 [3; 0; 2; 1; 3]%N.
Definition t_c1 : list bool := [true; true; false; false; true].
Definition t_o : list bool * bool := (b2 0, false).
(* five rows of two bits, sums mod 4 in the blocks {1, 1, 3}, {2, 1} *)
Example C72_shares_ex : word_op 2 add2 /\
  F3 (word_shares 2) (map2 (map2 xorb) t_src t_s1) t_s1 t_src /\ F3 bit_shares (map2 xorb t_ctrl t_c1) t_c1 t_ctrl /\
  (forall ty, match agg_two ty (b2 0) (fun _ => ideal (up_outs 2 ty) (up_fun add2 ty)) (fun _ => ideal (down_outs 2 ty) (down_fun add2 t_o t_o ty))
      (ideal (leaf_outs 2) (leaf_fun add2 ty)) (map2 (map2 xorb) t_src t_s1) t_s1 (map2 xorb t_ctrl t_c1) t_c1 with
    | Ok (o0, o1) => map2 (map2 xorb) o0 o1 = scan ty add2 (b2 0) t_src t_ctrl
    | _ => False end) /\
  scan Prefix add2 (b2 0) t_src t_ctrl = map b2 [1; 2; 1; 2; 3]%N /\ scan Suffix add2 (b2 0) t_src t_ctrl = map b2 [1; 0; 3; 3; 1]%N /\
  scan Full add2 (b2 0) t_src t_ctrl = map b2 [1; 1; 1; 3; 3]%N.
Proof.
  split; [exact (C72_add [2])|]. split; [repeat constructor|]. split; [repeat constructor|].
  split; [intros []; vm_compute; reflexivity|]. vm_compute. repeat split.
Qed.

(* the whole tree for two rows of one bit and the join's operator, with uninitialised memory and
   correlations that are not zero: row 1 continues the block of row 0 and receives its bit *)
Definition w_tape (past : bool) (s : triple) (u : triple) : tape := Tape io_junk io_junk (fun _ _ _ => past) io_pad [flat_map (fun _ => [s; u]) (seq 0 8)].
Definition w0 : tape := w_tape true (5, 1)%N (3, 2)%N.
Definition w1 : tape := w_tape false (6, 5)%N (1, 3)%N.
Definition w_cir (o : outcome circuit) : circuit := match o with Ok c => c | _ => cir_new end.
Definition w_lvs (c : circuit) : list level := map (fun g => ([g], count_nonlinear [g])) (cGates c).
Definition w_u : circuit := w_cir (upstream_cir dup_circuit lib_mux 1 Prefix).
Definition w_d : circuit := w_cir (downstream_cir dup_circuit 1 Prefix).
Definition w_l : circuit := w_cir (leaf_cir dup_circuit lib_mux 1 Prefix).
Example C72_tree_ex :
  (exists sh, tree_sizes 2 = Ok sh /\ sSizes sh = [2; 1] /\ sN16 sh = 2 /\
    tapes_ok 1 (w_lvs w_u) w0 w1 /\ tapes_ok 1 (w_lvs w_d) w0 w1 /\ tapes_ok 1 (w_lvs w_l) w0 w1) /\
  levels_of w_u (w_lvs w_u) /\ levels_of w_d (w_lvs w_d) /\ levels_of w_l (w_lvs w_l) /\
  match agg_gmw Prefix [false] w_u w_d w_l (w_lvs w_u) (w_lvs w_d) (w_lvs w_l) (fun _ => w0) (fun _ => w1) (fun _ => w0) (fun _ => w1) w0 w1
      [[false]; [true]] [[true]; [true]] [true; false] [true; true] with
  | Ok (o0, o1) => map2 (map2 xorb) o0 o1 = [[true]; [true]]
  | _ => False
  end.
Proof.
  split; [|split; [|split; [|split]]].
  - eexists. split; [vm_compute; reflexivity|]. split; [reflexivity|]. split; [reflexivity|]. repeat split; vm_compute; repeat constructor.
  - destruct (@C71_up 1 (fun a b => a) dup_circuit lib_mux Prefix (@dup_ok 1) (@lib_mux_ok 1)) as (c & E & R & _). assert (c = w_u) as <- by (unfold w_u; rewrite E; reflexivity). apply (C71_levels R); [repeat constructor|discriminate].
  - destruct (@C71_down 1 (fun a b => a) dup_circuit Prefix ([false], false) ([false], false) (@dup_ok 1)) as (c & E & R & _). assert (c = w_d) as <- by (unfold w_d; rewrite E; reflexivity). apply (C71_levels R); [repeat constructor|discriminate].
  - destruct (@C71_leaf 1 (fun a b => a) dup_circuit lib_mux Prefix (@dup_ok 1) (@lib_mux_ok 1)) as (c & E & R & _). assert (c = w_l) as <- by (unfold w_l; rewrite E; reflexivity). apply (C71_levels R); [repeat constructor|discriminate].
  - vm_compute. reflexivity.
Qed.
Example C72_lanes_ex : gmw_lanes true 1 w_u (w_lvs w_u) w0 w1 [[[true]; [false]; [true]; [true]]] [[[false]; [false]; [true]; [false]]] =
  gmw_lanes false 1 w_u (w_lvs w_u) w0 w1 [[[true]; [false]; [true]; [true]]] [[[false]; [false]; [true]; [false]]] /\
  match gmw_lanes true 1 w_u (w_lvs w_u) w0 w1 [[[true]; [false]; [true]; [true]]] [[[false]; [false]; [true]; [false]]] with
  | Ok (y0, y1) => map2 (map2 (map2 xorb)) y0 y1 = [up_fun (fun a b => a) Prefix [[true]; [false]; [false]; [true]]]
  | _ => False
  end.
Proof. vm_compute. split; reflexivity. Qed.
(* blocks {0, 1}, {2} *)
Example C72_dup_ex : scan Prefix (fun a b => a) (b2 0) (map b2 [2; 0; 3]%N) [false; true; false] = map b2 [2; 2; 3]%N.
Proof. vm_compute. reflexivity. Qed.
Example C72_add_ex : add_fields [2; 1] (b2 3 ++ [true]) (b2 2 ++ [true]) = b2 1 ++ [false].
Proof. vm_compute. reflexivity. Qed.
