(* Property C71: the circuits of the aggregation tree. *)
From Verif Require Import Base GmwModel GmwSpec GmwProofs GroupByModel GmwIoModel GmwIoSpec ShuffleSpec AggModel AggCirModel AggCirSpec AggCirProofs AggCirBuild AggCirAdd AggCirExamples AggCirRun PropsGmw PropsGmwIo.

(* C71, the way up: for every operator circuit and multiplexer that keep their contracts, every bit
   size and type, upstreamCir builds a circuit that Gmw can run and that computes the step of the tree *)
Theorem C71_up k f op mux ty : operator_ok k f op -> multiplexer_ok k mux ->
  exists c, upstream_cir op mux k ty = Ok c /\ runnable c (up_ins k ty) (up_outs k ty) /\ computes c (up_fun f ty).
Proof. intros OP MX. exact (@up_good k f op mux OP MX ty). Qed.
Print Assumptions C71_up.

(* the way down; the circuit is not given the value and bit (o, o') of the child that is not used *)
Theorem C71_down k f op ty o o' : operator_ok k f op ->
  exists c, downstream_cir op k ty = Ok c /\ runnable c (down_ins k ty) (down_outs k ty) /\ computes c (down_fun f o o' ty).
Proof. intros OP. exact (down_good OP o o' ty). Qed.
Print Assumptions C71_down.

(* the leaves *)
Theorem C71_leaf k f op mux ty : operator_ok k f op -> multiplexer_ok k mux ->
  exists c, leaf_cir op mux k ty = Ok c /\ runnable c (leaf_ins k ty) (leaf_outs k) /\ computes c (leaf_fun f ty).
Proof. intros OP MX. exact (leaf_good OP MX ty). Qed.
Print Assumptions C71_leaf.

(* the operator of the join keeps the left value *)
Theorem C71_dup k : operator_ok k (fun a b => a) dup_circuit.
Proof. exact (@dup_ok k). Qed.
Print Assumptions C71_dup.

(* the operator of the group-by adds every column on its own: it is the padd of C33 *)
Theorem C71_add add ws : adder_ok add ->
  operator_ok (fold_right Nat.add 0 ws) (add_fields ws) (add_circuit add ws) /\
  forall x y, length x = fold_right Nat.add 0 ws -> length y = fold_right Nat.add 0 ws ->
    length (add_fields ws x y) = fold_right Nat.add 0 ws /\ bnum (add_fields ws x y) = padd ws (bnum x) (bnum y).
Proof. intros A. split; [exact (@add_circuit_ok add ws A)|]. apply add_fields_padd. Qed.
Print Assumptions C71_add.

(* a circuit that can be run has a levelling: every gate alone *)
Theorem C71_levels c ins outs : runnable c ins outs -> Forall (fun n => 0 < n) outs -> outs <> [] ->
  levels_of c (map (fun g => ([g], count_nonlinear [g])) (cGates c)).
Proof.
  intros (E1 & E2 & EC & W & HG & HO) P NE. set (lvs := map _ _).
  assert (EQ : concat (map fst lvs) = cGates c) by (unfold lvs; rewrite map_map; cbn [fst]; clear; induction (cGates c) as [|g gs IH]; [reflexivity|]; cbn [map concat app]; f_equal; exact IH).
  split; [|rewrite EQ; split; [|split; [exact W|split; [exact HO|reflexivity]]]].
  - apply Forall_forall. intros lv H. unfold lvs in H. apply in_map_iff in H. destruct H as (g & <- & Hg). destruct (HG g Hg) as (T & R). split; [|split; [reflexivity|]].
    + cbn [fst]. apply levelledb_ok. destruct g as [a b t o]. destruct t; reflexivity.
    + intros h [<-|[]]. tauto.
  - intros H. destruct (cOuts c) as [|l ls] eqn:EO; [cbn [map] in E2; congruence|]. cbn [map] in E2. rewrite <- E2 in P. apply Forall_inv in P.
    destruct l as [|w l]; [cbn in P; lia|]. destruct (HO w) as (g & Hg & _); [left; reflexivity|]. rewrite H in Hg. exact Hg.
Qed.
Print Assumptions C71_levels.

(* the run of any such circuit on shares: the two parties' outputs are shares of the function of
   the xor of their inputs, in every row *)
Theorem C71_run c ins outs F lvs n junk0 junk1 junk0' junk1' pad0 pad1 xs0 xs1 ys0 ys1 s0 s1 :
  runnable c ins outs -> computes c F -> Forall (fun n => 0 < n) ins -> Forall (fun n => 0 < n) outs -> outs <> [] ->
  levels_of c lvs -> 0 < n -> length xs0 = length ins -> length xs1 = length ins ->
  (forall i b x, nth_error (cIns c) i = Some b -> nth_error xs0 i = Some x -> given_ok n (length b) x) ->
  (forall i b x, nth_error (cIns c) i = Some b -> nth_error xs1 i = Some x -> given_ok n (length b) x) ->
  take_ok n (cOuts c) ys0 -> take_ok n (cOuts c) ys1 ->
  ole_segs s0 s1 -> even_segs s0 -> demand ((n + 127) / 128) lvs <= length (concat s0) ->
  exists g0 g1 ids0 ids1 h0 h1,
    prepare junk0 pad0 xs0 ys0 (gmw_init n (cWires c) (cIns c) (cOuts c)) = Ok (g0, ids0) /\
    prepare junk1 pad1 xs1 ys1 (gmw_init n (cWires c) (cIns c) (cOuts c)) = Ok (g1, ids1) /\
    gmw_exec lvs junk0' junk1' s0 s1 g0 g1 = Ok (h0, h1) /\
    forall i k al cols jk0 jk1 pd0 pd1, nth_error outs i = Some k -> 0 < al -> (k + al * 8 - 1) / (al * 8) = cols / al ->
      exists o0 o1, get_output jk0 pd0 i al n cols h0 = Ok (h0, o0) /\ get_output jk1 pd1 i al n cols h1 = Ok (h1, o1) /\
        length o0 = n /\ length o1 = n /\ Forall (fun l => length l = cols) o0 /\ Forall (fun l => length l = cols) o1 /\
        (forall r, r < n -> map (fun j => xorb (sbit (nth r o0 []) j) (sbit (nth r o1 []) j)) (seq 0 k) = nth i (F (row_vals r (cIns c) xs0 xs1)) []) /\
        (forall q, nth_error ids0 i = Some (Some q) -> exists rg, nth_error (gHeap h0) q = Some rg /\
          forall r j, r < n -> j < k -> lane (rgRows rg) r j = sbit (nth r o0 []) j) /\
        (forall q, nth_error ids1 i = Some (Some q) -> exists rg, nth_error (gHeap h1) q = Some rg /\
          forall r j, r < n -> j < k -> lane (rgRows rg) r j = sbit (nth r o1 []) j).
Proof. exact (@run_rows c ins outs F lvs n junk0 junk1 junk0' junk1' pad0 pad1 xs0 xs1 ys0 ys1 s0 s1). Qed.
Print Assumptions C71_run.

(* the way up of the join's tree for values of two bits *)
Definition up2 : outcome circuit := upstream_cir dup_circuit lib_mux 2 Prefix.
Example C71_up_ex : operator_ok 2 (fun a b => a) dup_circuit /\ multiplexer_ok 2 lib_mux /\
  match up2 with
  | Ok c => cIns c = [[0; 1]; [2; 3]; [4]; [5]] /\ cOuts c = [[6; 7]; [8]] /\ cWires c = 13 /\
      cGates c = [Gate 0 0 GCopy 9; Gate 1 1 GCopy 10; Gate 2 9 GXor 11; Gate 3 10 GXor 12; Gate 11 5 GAnd 11; Gate 12 5 GAnd 12;
                  Gate 2 11 GXor 6; Gate 3 12 GXor 7; Gate 4 5 GAnd 8] /\
      (* (10, left bit 0), (01, right bit 1): the left value is kept, the parent's bit is 0 *)
      map (map (eval (cGates c) (env_of [[true; false]; [false; true]; [false]; [true]]))) (cOuts c) = [[true; false]; [false]]
  | _ => False
  end.
Proof. split; [apply dup_ok|split; [apply lib_mux_ok|]]. vm_compute. repeat split. Qed.
(* the group-by's operator for two columns of two and one bits: 3 + 2 = 1 mod 4 and 1 + 1 = 0 mod 2 *)
Example C71_add_ex : adder_ok ripple_adder /\ operator_ok 3 (add_fields [2; 1]) (add_circuit ripple_adder [2; 1]) /\
  add_fields [2; 1] [true; true; true] [false; true; true] = [true; false; false] /\ padd [2; 1] 7 6 = 1%N /\
  match downstream_cir (add_circuit ripple_adder [2; 1]) 3 Prefix with
  | Ok c => map (map (eval (cGates c) (env_of [[true; true; true]; [true]; [false; true; true]]))) (cOuts c) = [[false; true; true]; [true; false; false]] /\
            map (map (eval (cGates c) (env_of [[true; true; true]; [false]; [false; true; true]]))) (cOuts c) = [[false; true; true]; [true; true; true]]
  | _ => False
  end.
Proof. split; [apply ripple_adder_ok|split; [exact (@add_circuit_ok ripple_adder [2; 1] ripple_adder_ok)|]]. vm_compute. repeat split. Qed.
(* the leaves for the whole aggregate of one bit and the operator of the join: the right entry's
   suffix bit is unset, its prefix bit set *)
Example C71_leaf_ex :
  match leaf_cir dup_circuit lib_mux 1 Full with
  | Ok c => map (map (eval (cGates c) (env_of [[true]; [false]; [false]; [true]; [false]; [true]; [true]; [true]; [true]; [false]]))) (cOuts c) = [[true]; [true]] /\
            leaf_fun (fun a b => a) Full [[true]; [false]; [false]; [true]; [false]; [true]; [true]; [true]; [true]; [false]] = [[true]; [true]]
  | _ => False
  end.
Proof. vm_compute. split; reflexivity. Qed.
(* the run of the way up for two bits and two rows, every gate a level of its own.  Row 0 is
   (10, 0), (01, 1), row 1 is (11, 1), (01, 0); the results are (10, 0) and (01, 0) *)
Definition up2_c : circuit := match up2 with Ok c => c | _ => cir_new end.
Definition up2_lvs : list level := map (fun g => ([g], count_nonlinear [g])) (cGates up2_c).
Definition up2_s0 : list (list triple) := [[(5, 1); (3, 2); (7, 0); (2, 4)]; [(5, 1); (3, 2)]]%N.
Definition up2_s1 : list (list triple) := [[(6, 5); (1, 3); (2, 2); (3, 6)]; [(6, 5); (1, 3)]]%N.
Definition up2_x0 : list given := [GMap (TMat 16 2 [[1]; [0]]%N); GMap (TMat 16 2 [[3]; [1]]%N); GZero; GMap (TMat 16 2 [[1]]%N)].
Definition up2_x1 : list given := [GMap (TMat 16 2 [[2]; [2]]%N); GMap (TMat 16 2 [[3]; [2]]%N); GRows 1 1 [[0]; [1]]%N; GZero].
Definition up2_run : outcome (list (list N) * list (list N) * list (list N) * list (list N)) :=
  do p0 <- prepare io_junk io_pad up2_x0 [None; None] (gmw_init 2 (cWires up2_c) (cIns up2_c) (cOuts up2_c));
  do p1 <- prepare io_junk io_pad up2_x1 [None; None] (gmw_init 2 (cWires up2_c) (cIns up2_c) (cOuts up2_c));
  do h <- gmw_exec up2_lvs io_junk io_junk up2_s0 up2_s1 (fst p0) (fst p1);
  do v0 <- get_output io_junk (io_pad 0) 0 1 2 1 (fst h);
  do v1 <- get_output io_junk (io_pad 0) 0 1 2 1 (snd h);
  do b0 <- get_output io_junk (io_pad 0) 1 1 2 1 (fst h);
  do b1 <- get_output io_junk (io_pad 0) 1 1 2 1 (snd h);
  Ok (snd v0, snd v1, snd b0, snd b1).
Lemma up2_hyps : runnable up2_c [2; 2; 1; 1] [2; 1] /\ computes up2_c (up_fun (fun a b => a) Prefix) /\ levels_of up2_c up2_lvs /\
  ole_segs up2_s0 up2_s1 /\ even_segs up2_s0 /\ demand 1 up2_lvs <= length (concat up2_s0) /\
  (forall i b x, nth_error (cIns up2_c) i = Some b -> nth_error up2_x0 i = Some x -> given_ok 2 (length b) x) /\
  (forall i b x, nth_error (cIns up2_c) i = Some b -> nth_error up2_x1 i = Some x -> given_ok 2 (length b) x).
Proof.
  destruct (@C71_up 2 (fun a b => a) dup_circuit lib_mux Prefix (@dup_ok 2) (@lib_mux_ok 2)) as (c & E & R & F).
  assert (EC : c = up2_c) by (unfold up2_c, up2; rewrite E; reflexivity). subst c.
  split; [exact R|]. split; [exact F|]. split; [apply (C71_levels R); [repeat constructor|discriminate]|].
  split; [repeat constructor|]. split; [repeat constructor|]. split; [vm_compute; lia|].
  assert (EI : cIns up2_c = [[0; 1]; [2; 3]; [4]; [5]]) by (vm_compute; reflexivity). rewrite EI.
  split.
  - intros [|[|[|[|i]]]] b x Hb Hx; cbn in Hb, Hx; try (destruct i; discriminate); injection Hb as <-; injection Hx as <-; cbn; repeat split; repeat constructor.
  - intros [|[|[|[|i]]]] b x Hb Hx; cbn in Hb, Hx; try (destruct i; discriminate); injection Hb as <-; injection Hx as <-; cbn; repeat split; repeat constructor.
Qed.
Example C71_run_ex :
  match up2_run with
  | Ok (v0, v1, b0, b1) =>
    map (fun r => map (fun j => xorb (sbit (nth r v0 []) j) (sbit (nth r v1 []) j)) [0; 1]) [0; 1] = [[true; false]; [false; true]] /\
    map (fun r => xorb (sbit (nth r b0 []) 0) (sbit (nth r b1 []) 0)) [0; 1] = [false; false] /\
    map (fun r => up_fun (fun a b => a) Prefix (row_vals r (cIns up2_c) up2_x0 up2_x1)) [0; 1] = [[[true; false]; [false]]; [[false; true]; [false]]]
  | _ => False
  end.
Proof. vm_compute. repeat split. Qed.
