(* Properties C19-C23: the GMW protocol and the circuit helpers. *)
From Verif Require Import Base ConvModel GmwModel GmwSpec GmwProofs CircuitProofs.
From Coq Require Import Permutation.

(* C19: whatever the circuit, the widths, the shares and the (even) segmentation of the
   triples, the run ends and in every lane of every wire the XOR of the parties' shares is
   the plain evaluation of all the gates on the XOR of the initial shares. *)
Theorem C19_correct wires w lvs mem0 mem1 s0 s1 : 0 < w ->
  Forall (level_ok wires) lvs -> concat (map fst lvs) <> [] ->
  mem_ok wires w mem0 -> mem_ok wires w mem1 ->
  ole_segs s0 s1 -> even_segs s0 -> demand w lvs <= length (concat s0) ->
  exists m0 m1 c0 c1 r0 r1 tr,
    gmw_run w lvs mem0 mem1 s0 s1 = Ok ((m0, c0, r0), (m1, c1, r1), tr) /\
    mem_ok wires w m0 /\ mem_ok wires w m1 /\
    forall c k, c < w -> (k < 128)%N -> forall i,
      shared m0 m1 c k i = eval (concat (map fst lvs)) (shared mem0 mem1 c k) i.
Proof.
  intros Hw HL Hne M0 M1 HS He Hd.
  destruct (gmw_run_ok Hw HL Hne M0 M1 HS He Hd) as (m0 & m1 & c0 & c1 & r0 & r1 & tr & H).
  exists m0, m1, c0, c1, r0, r1, tr. tauto.
Qed.
Print Assumptions C19_correct.

(* a two-level circuit with a copy, a linear and three kinds of nonlinear gates *)
Definition ex_lvs : list level :=
  [([Gate 0 1 GnbAnd 2; Gate 0 1 GNxor 3; Gate 3 0 GCopy 4], 1); ([Gate 2 4 GOr 5], 1)].
Definition ex_s0 : list (list triple) := [[(5, 1); (3, 2)]; [(7, 0); (2, 4)]]%N.
Definition ex_s1 : list (list triple) := [[(6, 5); (1, 3)]; [(2, 2); (3, 6)]]%N.
Definition ex_m0 : list (list N) := [[12]; [10]; [0]; [0]; [0]; [0]]%N.
Definition ex_m1 : list (list N) := [[5]; [3]; [9]; [9]; [9]; [9]]%N.
Lemma ex_levels : Forall (level_ok 6) ex_lvs.
Proof. apply level_okb_ok. reflexivity. Qed.
Definition run_out (r : outcome (pst * pst * list (list (list N) * list (list N)))) :=
  match r with
  | Ok ((m0, c0, r0), (m1, c1, r1), tr) =>
    Some (map2 (map2 N.lxor) m0 m1, c0, r0, map (fun t => (map (@length N) (fst t), map (@length N) (snd t))) tr)
  | _ => None
  end.
(* 12^5 = 9, 10^3 = 9: nb_And = 0, Nxor = ~0, Or = ~0 *)
Example C19_ex : ole_segs ex_s0 ex_s1 /\ even_segs ex_s0 /\ demand 1 ex_lvs <= length (concat ex_s0) /\
  run_out (gmw_run 1 ex_lvs ex_m0 ex_m1 ex_s0 ex_s1) =
  Some ([[9]; [9]; [0]; [N.ones 128]; [N.ones 128]; [N.ones 128]]%N, [], [], [([2], [2]); ([2], [2])]).
Proof.
  split; [repeat constructor|]. split; [repeat constructor|]. split; [cbn; lia|].
  vm_compute. reflexivity.
Qed.

(* C20: loading over all rounds, with any even segmentation: terminates; every round gets the
   number it needs; the triples used by the rounds together with the leftovers are a
   rearrangement of the request (nothing used twice, nothing lost); the other party loads the
   matching halves; the leftover count is the request minus the demand. *)
(* Missing: odd segments, for which the loop hangs (C20_odd_segment_refuted). *)
Theorem C20_loading_partial needs s0 s1 : ole_segs s0 s1 -> even_segs s0 ->
  2 * fold_right Nat.add 0 needs <= length (concat s0) ->
  exists qs0 qs1 c0 c1 r0 r1,
    load_rounds false needs [] s0 = Ok (qs0, c0, r0) /\
    load_rounds true needs [] s1 = Ok (qs1, c1, r1) /\
    Forall2 (fun n q => length (qA q) = n /\ length (qB q) = n /\ length (qC q) = n /\ length (qD q) = n) needs qs0 /\
    Permutation (concat (map (fun q => combine (qA q) (qB q) ++ combine (qC q) (qD q)) qs0) ++ c0 ++ concat r0) (concat s0) /\
    length c0 + length (concat r0) + 2 * fold_right Nat.add 0 needs = length (concat s0) /\
    Forall2 (fun q0 q1 => forall j,
      N.land (nth j (qA q0) 0%N) (nth j (qC q1) 0%N) = N.lxor (nth j (qB q0) 0%N) (nth j (qD q1) 0%N) /\
      N.land (nth j (qA q1) 0%N) (nth j (qC q0) 0%N) = N.lxor (nth j (qB q1) 0%N) (nth j (qD q0) 0%N)) qs0 qs1.
Proof.
  intros HS He Hn.
  destruct (@load_rounds_ok false needs [] s0 eq_refl He Hn) as (qs0 & c0 & r0 & E & Q & L & P).
  destruct (@load_rounds_rel needs s0 s1 [] [] _ _ _ HS (Forall2_nil _) E) as (qs1 & c1 & r1 & E1 & R).
  exists qs0, qs1, c0, c1, r0, r1. repeat (split; [assumption|]). exact R.
Qed.
Print Assumptions C20_loading_partial.

(* the run loads exactly like that: w * (number of nonlinear gates) per level *)
(* Missing: odd segments (C20_odd_segment_refuted). *)
Theorem C20_run_loads_partial w lvs mem0 mem1 s0 s1 m0 m1 c0 c1 r0 r1 tr :
  gmw_run w lvs mem0 mem1 s0 s1 = Ok ((m0, c0, r0), (m1, c1, r1), tr) ->
  (exists qs, load_rounds false (map (fun lv => w * snd lv) lvs) [] s0 = Ok (qs, c0, r0)) /\
  (exists qs, load_rounds true (map (fun lv => w * snd lv) lvs) [] s1 = Ok (qs, c1, r1)).
Proof.
  unfold gmw_run. destruct (_ =? 0); [discriminate|]. apply rounds2_loads.
Qed.
Print Assumptions C20_run_loads_partial.

(* within a round the i-th nonlinear gate is masked with the i-th group of w triples *)
Theorem C20_masks role wires w n q gs mem : 0 < w ->
  length (qA q) = n /\ length (qB q) = n /\ length (qC q) = n /\ length (qD q) = n ->
  mem_ok wires w mem ->
  (forall g, In g gs -> gIn0 g < wires /\ gIn1 g < wires /\ gOut g < wires /\ gType g <> GOther) ->
  w * count_nonlinear gs <= n ->
  exists s l, send_gates role w q gs (SSt mem 0 0 [] (w * count_nonlinear gs * 2) []) = Ok s /\
    map (fun p => fst (fst p)) l = map gType (filter (fun g => nonlinear (gType g)) gs) /\
    concat (sMsgs s) =
      concat (map (fun p => mult_send role (fst (fst (snd p))) (slice (qA q) (fst p * w) w) (slice (qC q) (fst p * w) w)
                     (snd (fst (snd p))) (snd (snd p))) (combine (seq 0 (count_nonlinear gs)) l)).
Proof. intros Hw Hq HM Hg Hn. exact (@send_masks role wires w n q gs mem _ Hw Hq HM Hg eq_refl Hn). Qed.
Print Assumptions C20_masks.

(* Refuted in general: a segment with an odd number of blocks makes the loop spin forever,
   although the request holds all the triples the circuit needs. *)
Theorem C20_odd_segment_refuted :
  exists need segs, 2 * need = length (concat segs) /\
    load false need [] segs = Hang /\ load true need [] segs = Hang.
Proof. exists 1, [[(0, 0)]; [(0, 0)]]%N. repeat split. Qed.
Print Assumptions C20_odd_segment_refuted.

Definition load_out (r : outcome (list quad * list triple * list (list triple))) :=
  match r with Ok (qs, c, s) => Some (map (fun q => (qA q, qB q, qC q, qD q)) qs, c, s) | _ => None end.
Example C20_ex : load_out (load_rounds false [1; 1] [] ex_s0) =
    Some ([([3], [2], [5], [1]); ([2], [4], [7], [0])]%N, [], []) /\
  load_out (load_rounds true [1; 1] [] ex_s1) =
    Some ([([6], [5], [1], [3]); ([2], [2], [3], [6])]%N, [], []).
Proof. split; reflexivity. Qed.

(* C21: in every round both parties send messages of the same sizes: chunks of M blocks, the
   last one smaller, 2 blocks per gate and block column in total.  M is 2^14 rounded up to a
   multiple of 2w. *)
Theorem C21_message_sizes wires w lvs mem0 mem1 s0 s1 : 0 < w ->
  Forall (level_ok wires) lvs -> concat (map fst lvs) <> [] ->
  mem_ok wires w mem0 -> mem_ok wires w mem1 ->
  ole_segs s0 s1 -> even_segs s0 -> demand w lvs <= length (concat s0) ->
  exists M p0 p1 tr, gmw_run w lvs mem0 mem1 s0 s1 = Ok (p0, p1, tr) /\
    (exists k, M = 2 * w * k) /\ 2 ^ 14 <= M < 2 ^ 14 + 2 * w /\
    Forall2 (fun lv t => let n := 2 * w * count_nonlinear (fst lv) in
       map (@length N) (fst t) = chunk_sizes (S n) M n /\ map (@length N) (snd t) = chunk_sizes (S n) M n /\
       fold_right Nat.add 0 (map (@length N) (fst t)) = n) lvs tr.
Proof.
  intros Hw HL Hne M0 M1 HS He Hd.
  destruct (gmw_run_ok Hw HL Hne M0 M1 HS He Hd) as (m0 & m1 & c0 & c1 & r0 & r1 & tr & E & _ & _ & _ & _ & F).
  destruct (maxmsg_spec Hw) as [MK MB].
  exists (maxmsg w), (m0, c0, r0), (m1, c1, r1), tr. repeat (split; [assumption|]).
  revert F. apply Forall2_imp. intros lv t [H1 H2]. unfold chunks in *. split; [exact H1|]. split; [exact H2|].
  rewrite H1. apply chunks_sum; [apply maxmsg_pos; auto|lia].
Qed.
Print Assumptions C21_message_sizes.
(* the rounds of C19_ex exchange one message of two blocks each; and with M = 4, 10 blocks
   are sent as 4 + 4 + 2 *)
Example C21_ex : chunk_sizes 11 4 10 = [4; 4; 2].
Proof. reflexivity. Qed.

(* C22: for every width the (logical) output of isZeroCircuit is 1 iff all inputs are 0; from
   width 2 on the output wire carries no pending inversion, so this is its physical value. *)
Theorem C22_is_zero bits : 0 < bits ->
  exists fl gs, is_zero_circuit bits = Ok (fl, gs) /\
    (forall e, xorb (nth 0 fl false) (eval gs e 0) = true <-> forall t, t < bits -> e t = false) /\
    (1 < bits -> nth 0 fl true = false /\ forall e, eval gs e 0 = true <-> forall t, t < bits -> e t = false).
Proof.
  intros H. destruct (is_zero_ok H) as (fl & gs & E & L & A & B). exists fl, gs. split; [exact E|]. split; [exact A|].
  intros H1. specialize (B H1). split; [exact B|]. intros e. rewrite <- A.
  assert (H0 : nth 0 fl false = false).
  { destruct fl as [|f fl]; [reflexivity|exact B]. }
  rewrite H0. destruct (eval gs e 0); simpl; reflexivity.
Qed.
Print Assumptions C22_is_zero.
Definition zero_out (bits : nat) (e : env) :=
  match is_zero_circuit bits with Ok (fl, gs) => Some (nth 0 fl true, length gs, eval gs e 0) | _ => None end.
Example C22_ex : zero_out 5 (fun _ => false) = Some (false, 4, true) /\
  zero_out 5 (fun i => i =? 4) = Some (false, 4, false) /\ zero_out 6 (fun i => i =? 2) = Some (false, 5, false).
Proof. repeat split; reflexivity. Qed.

(* Refuted for width 1 when the circuit is run by Gmw, which ignores pending inversions: the
   circuit has no gate, the wire value is the input itself, and run throws. *)
Theorem C22_width_one_refuted :
  is_zero_circuit 1 = Ok ([true], []) /\ (forall e, eval [] e 0 = e 0) /\
  forall w m0 m1 s0 s1, gmw_run w [([], 0)] m0 m1 s0 s1 = Throw.
Proof. repeat split; reflexivity. Qed.
Print Assumptions C22_width_one_refuted.

(* C23: evaluate inlines: on the parent's wires outside `outs` nothing changes, and the out
   wires carry the sub-circuit's outputs on the in wires' values, whatever the initial values
   of the sub-circuit's other wires. *)
(* Missing: sub-circuits with an input wire among the outputs, for which it is false (C23_in_out_wire_refuted), and inversion flags (cf. C35_inverted_refuted). *)
Theorem C23_inline_partial parent cir ins outs : inlinable cir ->
  same_shape (cIns cir) ins = true -> same_shape (cOuts cir) outs = true ->
  (forall i, In i (concat ins) \/ In i (concat outs) -> i < cWires parent) ->
  NoDup (concat outs) -> (forall i, In i (concat ins) -> ~ In i (concat outs)) ->
  exists r, evaluate parent cir ins outs = Ok r /\
    cIns r = cIns parent /\ cOuts r = cOuts parent /\ cWires parent <= cWires r /\
    forall e, let e1 := eval (cGates parent) e in
      (forall i, i < cWires parent -> ~ In i (concat outs) -> eval (cGates r) e i = e1 i) /\
      (forall s, (forall p, p < length (concat ins) -> s (nth p (concat (cIns cir)) 0) = e1 (nth p (concat ins) 0)) ->
         forall p, p < length (concat outs) ->
           eval (cGates r) e (nth p (concat outs) 0) = eval (cGates cir) s (nth p (concat (cOuts cir)) 0)).
Proof. exact (@evaluate_ok parent cir ins outs). Qed.
Print Assumptions C23_inline_partial.
(* a half adder with a temporary wire, inlined twice-used inputs *)
Definition ex_sub : circuit := Circuit 5 [[0]; [1]] [[2; 3]]
  [Gate 0 1 GNand 4; Gate 0 1 GXor 2; Gate 4 4 GNand 3].
Definition ex_par : circuit := Circuit 4 [[0; 1]] [[2; 3]] [Gate 0 0 GNxor 1].
Example C23_ex : inlinable ex_sub /\
  evaluate ex_par ex_sub [[0]; [1]] [[3; 2]] =
  Ok (Circuit 5 [[0; 1]] [[2; 3]] [Gate 0 0 GNxor 1; Gate 0 1 GNand 4; Gate 0 1 GXor 3; Gate 4 4 GNand 2]).
Proof.
  split; [|reflexivity].
  unfold inlinable; cbn. split; [lia|]. split; [apply Permutation_refl|].
  unfold reads; cbn. split; [|split].
  - repeat split; try (intros i [->|[_ ->]]; auto); try (intros [H|[H|[]]]; lia).
  - intros g [<-|[<-|[<-|[]]]]; cbn; lia.
  - intros o [<-|[<-|[]]]; [exists (Gate 0 1 GXor 2)|exists (Gate 4 4 GNand 3)]; auto.
Qed.

(* Refuted when an output wire of the sub-circuit is also one of its inputs (as in
   isZeroCircuit): the mapping of the input is overwritten, the inlined gate reads the
   parent's output wire; and for isZeroCircuit itself the temporary count wraps. *)
Theorem C23_in_out_wire_refuted :
  (exists parent cir ins outs r e, evaluate parent cir ins outs = Ok r /\
     (forall e', eval (cGates cir) e' 0 = e' 0 && e' 1) /\ cOuts cir = [[0]] /\ cIns cir = [[0; 1]] /\
     ins = [[0; 1]] /\ outs = [[2]] /\
     eval (cGates r) e 2 <> e 0 && e 1) /\
  evaluate (Circuit 3 [] [] []) (Circuit 2 [[0; 1]] [[0]] [Gate 0 1 GNor 0]) [[0; 1]] [[2]] = Throw.
Proof.
  split; [|reflexivity].
  exists (Circuit 3 [] [] []), (Circuit 3 [[0; 1]] [[0]] [Gate 0 1 GAnd 0]), [[0; 1]], [[2]].
  eexists. exists (fun i => i <? 2). split; [reflexivity|]. repeat split. discriminate.
Qed.
Print Assumptions C23_in_out_wire_refuted.
