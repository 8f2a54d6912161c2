(* Property C54: the view of one party of a GMW run hides the other party's wires. *)
From Verif Require Import Base ConvModel ConvProofs GmwModel GmwSpec GmwProofs GmwPrivSpec GmwPrivacy.

Lemma run_rounds w lvs mem0 mem1 s0 s1 : concat (map fst lvs) <> [] ->
  gmw_run w lvs mem0 mem1 s0 s1 = rounds2 w lvs (mem0, [], s0) (mem1, [], s1).
Proof.
  intros H. unfold gmw_run.
  destruct (Nat.eqb_spec (length (concat (map fst lvs))) 0) as [E|_]; [apply length_zero_iff_nil in E; contradiction|reflexivity].
Qed.

(* Party 0 looks.  Fix its wires and triples.  Whatever the wires of party 1 are (mem1 or
   mem1'), for each choice of party 1's triples in the one run there is exactly one in the
   other with which party 0 receives the same messages; it then sends the same messages and
   ends in the same state.  As party 1's triples are uniform among those correlated with
   party 0's, the view of party 0 has the same distribution for mem1 and mem1'. *)
Theorem C54_hides_party1 wires w lvs mem0 mem1 mem1' s0 s1 : 0 < w ->
  Forall (level_ok wires) lvs -> concat (map fst lvs) <> [] ->
  mem_ok wires w mem0 -> mem_ok wires w mem1 -> mem_ok wires w mem1' ->
  blocks_mem mem0 -> blocks_mem mem1 -> blocks_mem mem1' -> blocks_segs s0 ->
  triples_for s0 s1 -> even_segs s0 -> demand w lvs = length (concat s0) ->
  exists s1' p0 p1 p1' tr, triples_for s0 s1' /\
    gmw_run w lvs mem0 mem1 s0 s1 = Ok (p0, p1, tr) /\
    gmw_run w lvs mem0 mem1' s0 s1' = Ok (p0, p1', tr) /\
    forall s2 q0 q1 tr2, triples_for s0 s2 ->
      gmw_run w lvs mem0 mem1' s0 s2 = Ok (q0, q1, tr2) -> map snd tr2 = map snd tr -> s2 = s1'.
Proof.
  intros Hw HL Hne M0 M1 M1' W0 W1 W1' B0 [HS B1] He Hd.
  destruct (@run_priv true wires w lvs mem0 mem1 mem1' s0 s1 Hw HL M0 M1 M1' W0 W1 W1' (olew_of HS B0 B1) He Hd)
    as (s1' & p0 & p1 & p1' & tr & R & E1 & E2 & U).
  destruct (of_olew R) as (R1 & _ & R2).
  exists s1', p0, p1, p1', tr. rewrite !run_rounds by auto. split; [split; assumption|].
  split; [exact E1|]. split; [exact E2|].
  intros s2 q0 q1 tr2 [H2 K2] E V. rewrite run_rounds in E by auto.
  apply (U s2 (q0, q1) tr2); auto. apply olew_of; auto.
Qed.
Print Assumptions C54_hides_party1.

(* the same with the roles exchanged: party 1 looks *)
Theorem C54_hides_party0 wires w lvs mem0 mem0' mem1 s0 s1 : 0 < w ->
  Forall (level_ok wires) lvs -> concat (map fst lvs) <> [] ->
  mem_ok wires w mem0 -> mem_ok wires w mem0' -> mem_ok wires w mem1 ->
  blocks_mem mem0 -> blocks_mem mem0' -> blocks_mem mem1 -> blocks_segs s1 ->
  triples_for s1 s0 -> even_segs s1 -> demand w lvs = length (concat s1) ->
  exists s0' p0 p0' p1 tr, triples_for s1 s0' /\
    gmw_run w lvs mem0 mem1 s0 s1 = Ok (p0, p1, tr) /\
    gmw_run w lvs mem0' mem1 s0' s1 = Ok (p0', p1, tr) /\
    forall s2 q0 q1 tr2, triples_for s1 s2 ->
      gmw_run w lvs mem0' mem1 s2 s1 = Ok (q0, q1, tr2) -> map fst tr2 = map fst tr -> s2 = s0'.
Proof.
  intros Hw HL Hne M0 M0' M1 W0 W0' W1 B1 [HS B0] He Hd.
  destruct (@run_priv false wires w lvs mem1 mem0 mem0' s1 s0 Hw HL M1 M0 M0' W1 W0 W0' (olew_of HS B1 B0) He Hd)
    as (s0' & p1 & p0 & p0' & tr & R & E1 & E2 & U).
  destruct (of_olew R) as (R1 & _ & R2).
  exists s0', p0, p0', p1, tr. rewrite !run_rounds by auto. split; [split; assumption|].
  split; [exact E1|]. split; [exact E2|].
  intros s2 q0 q1 tr2 [H2 K2] E V. rewrite run_rounds in E by auto.
  apply (U s2 (q0, q1) tr2); auto. apply olew_of; auto.
Qed.
Print Assumptions C54_hides_party0.

(* Two gates of one level and one of the next, party 1 holding different wires: the triples
   that make the runs look alike to party 0. *)
Definition ex_lvs : list level :=
  [([Gate 0 1 GnbAnd 2; Gate 0 1 GNxor 3], 1); ([Gate 2 3 GOr 4], 1)].
Definition ex_m0 : list (list N) := [[12]; [10]; [0]; [0]; [0]]%N.
Definition ex_m1 : list (list N) := [[5]; [3]; [0]; [0]; [0]]%N.
Definition ex_m1' : list (list N) := [[9]; [8]; [0]; [0]; [0]]%N.
Definition ex_s0 : list (list triple) := [[(5, 1); (3, 2)]; [(7, 0); (2, 4)]]%N.
Definition ex_s1 : list (list triple) := [[(6, 5); (1, 3)]; [(2, 2); (3, 6)]]%N.
Lemma ex_levels : Forall (level_ok 5) ex_lvs.
Proof. apply level_okb_ok. reflexivity. Qed.
Definition received (r : outcome (pst * pst * list (list (list N) * list (list N)))) :=
  match r with Ok (p0, _, tr) => Some (p0, tr) | _ => None end.
Definition ex_s1' : list (list triple) := [[(10, 1); (10, 0)]; [(7, 7); (4, 4)]]%N.
Example C54_ex : triples_for ex_s0 ex_s1 /\ triples_for ex_s0 ex_s1' /\ even_segs ex_s0 /\
  demand 1 ex_lvs = length (concat ex_s0) /\
  received (gmw_run 1 ex_lvs ex_m0 ex_m1 ex_s0 ex_s1) = received (gmw_run 1 ex_lvs ex_m0 ex_m1' ex_s0 ex_s1') /\
  (exists x, received (gmw_run 1 ex_lvs ex_m0 ex_m1 ex_s0 ex_s1) = Some x) /\
  (* with the old triples party 0 would see a difference *)
  received (gmw_run 1 ex_lvs ex_m0 ex_m1 ex_s0 ex_s1) <> received (gmw_run 1 ex_lvs ex_m0 ex_m1' ex_s0 ex_s1).
Proof.
  split; [split; repeat constructor|]. split; [split; repeat constructor|].
  split; [repeat constructor|]. split; [reflexivity|]. split; [vm_compute; reflexivity|].
  split; [|vm_compute; discriminate].
  destruct (received (gmw_run 1 ex_lvs ex_m0 ex_m1 ex_s0 ex_s1)) eqn:E; [eauto|]. vm_compute in E. discriminate E.
Qed.
