(* C64: the permutations of the rounds of the radix sort are prepared in time, and nobody waits
   forever.  The states are those of PrePermModel.v; the schedule names the coroutine that takes the
   next step and is arbitrary. *)
From Verif Require Import Base ShuffleModel PrePermModel PrePermSpec PrePermProofs.

(* a party that has made a new RadixSort, called init for keys of that many bits, and calls genPerm,
   or genPrePerm and genPerm (OmJoin.cpp:514-523, GroupBy.cpp:365-371) *)
Definition fresh (L bits lead : nat) (role ext : bool) (fail : nat -> bool) : party :=
  call (rs_init L bits (rs_new lead false role true ext fail)).

(* no generation of a permutation fails *)
Definition nofail (_ : nat) : bool := false.

Lemma fresh_run L bits lead0 lead1 ext0 ext1 fail0 fail1 sch s : 1 <= L -> 1 <= bits ->
  run sch (fresh L bits lead0 false ext0 fail0, fresh L bits lead1 true ext1 fail1) = Some s ->
  inv2 (div_ceil bits L) (div_ceil L 8 + 4) lead0 lead1 ext0 ext1 fail0 fail1 s /\
  length sch + weight2 (div_ceil bits L) s <= weight2 (div_ceil bits L) (fresh L bits lead0 false ext0 fail0, fresh L bits lead1 true ext1 fail1).
Proof.
  intros HL Hb E. pose proof (div_ceil_pos Hb HL) as H1. assert (H2 : div_ceil L 8 + 4 <> 0) by lia.
  refine (run_inv2 H1 H2 _ E). split; apply init_inv; assumption.
Qed.

(* ---------------- it ends, whatever the order of the steps ---------------- *)

Theorem C64_ends : forall L bits lead0 lead1 ext0 ext1 fail0 fail1 sch s, 1 <= L -> 1 <= bits ->
  run sch (fresh L bits lead0 false ext0 fail0, fresh L bits lead1 true ext1 fail1) = Some s ->
  length sch <= 14 * div_ceil bits L + 6 /\ (stuck s -> returned s).
Proof.
  intros L bits lead0 lead1 ext0 ext1 fail0 fail1 sch s HL Hb E.
  pose proof (div_ceil_pos Hb HL) as H1. assert (H2 : div_ceil L 8 + 4 <> 0) by lia.
  destruct (fresh_run HL Hb E) as [I W].
  split.
  - pose proof (weight_init lead0 false ext0 fail0 HL Hb). pose proof (weight_init lead1 true ext1 fail1 HL Hb).
    unfold weight2, fresh in W. cbn [fst snd] in W. lia.
  - exact (moves H1 H2 I).
Qed.

(* five rounds of two bits; party 0 lets one permutation be prepared ahead, party 1 none *)
Fixpoint greedy (n : nat) (acts : list (bool * who)) (s : party * party) : party * party :=
  match n with
  | O => s
  | S n => greedy n acts (fold_left (fun s a => match step (fst a) (snd a) s with Some s' => s' | None => s end) acts s)
  end.
Fixpoint trace (n : nat) (acts : list (bool * who)) (s : party * party) : list (bool * who) :=
  match n with
  | O => []
  | S n =>
      let '(s', l) := fold_left (fun x a => match step (fst a) (snd a) (fst x) with Some s' => (s', snd x ++ [a]) | None => x end) acts (s, []) in
      l ++ trace n acts s'
  end.
Definition ex_acts : list (bool * who) :=
  flat_map (fun b => (b, WMain) :: map (fun j => (b, WTask j)) [4; 2; 0; 1; 3]) [true; false].
Definition ex_start : party * party := (fresh 2 9 1 false true nofail, fresh 2 9 0 true false nofail).
Definition ex_end : party * party := greedy 40 ex_acts ex_start.
Definition ex_sch : list (bool * who) := trace 40 ex_acts ex_start.

Example C64_ends_ex : div_ceil 9 2 = 5 /\ length ex_sch = 66 /\
  match run ex_sch ex_start with Some s => (py_pc (fst s), py_pc (snd s)) | None => (MUb, MUb) end = (MDone, MDone).
Proof. repeat split; vm_compute; reflexivity. Qed.

(* ---------------- a permutation is there when it is used ---------------- *)

(* derandomize and apply (MApply) and compose (MComp) of round i use the permutation of round i-1 *)
Theorem C64_prepared : forall L bits lead0 lead1 ext0 ext1 sch s b i, 1 <= L -> 1 <= bits ->
  run sch (fresh L bits lead0 false ext0 nofail, fresh L bits lead1 true ext1 nofail) = Some s ->
  py_pc (if b : bool then snd s else fst s) = MApply i \/ py_pc (if b then snd s else fst s) = MComp i ->
  1 <= i < div_ceil bits L /\
  exists r, nth_error (py_rounds (if b then snd s else fst s)) (i - 1) = Some r /\ rd_ready r = true /\ rd_perm r = true.
Proof.
  intros L bits lead0 lead1 ext0 ext1 sch s b i HL Hb E Hi.
  pose proof (div_ceil_pos Hb HL) as H1. assert (H2 : div_ceil L 8 + 4 <> 0) by lia.
  destruct (fresh_run HL Hb E) as [[I0 I1] W].
  destruct b; [exact (used_ready I1 H2 Hi)|exact (used_ready I0 H2 Hi)].
Qed.

(* after 27 steps party 1 applies the permutation of round 1 *)
Example C64_prepared_ex :
  match run (firstn 27 ex_sch) ex_start with
  | Some s => (py_pc (snd s), map rd_ready (py_rounds (snd s)), map rd_perm (py_rounds (snd s)))
  | None => (MUb, [], []) end = (MApply 2, [true; true; false; false; false], [true; true; false; false; false]).
Proof. vm_compute. reflexivity. Qed.

(* when it has returned to a caller that had called genPrePerm, all the permutations are there; when
   genPerm called it, the rounds are gone *)
Theorem C64_returned : forall L bits lead0 lead1 ext0 ext1 sch s, 1 <= L -> 1 <= bits ->
  run sch (fresh L bits lead0 false ext0 nofail, fresh L bits lead1 true ext1 nofail) = Some s ->
  (py_pc (fst s) = MDone -> (ext0 = true -> all_prepared (div_ceil bits L) (fst s)) /\ (ext0 = false -> py_rounds (fst s) = [])) /\
  (py_pc (snd s) = MDone -> (ext1 = true -> all_prepared (div_ceil bits L) (snd s)) /\ (ext1 = false -> py_rounds (snd s) = [])).
Proof.
  intros L bits lead0 lead1 ext0 ext1 sch s HL Hb E.
  pose proof (div_ceil_pos Hb HL) as H1. assert (H2 : div_ceil L 8 + 4 <> 0) by lia.
  destruct (fresh_run HL Hb E) as [[I0 I1] W].
  split; intros Hd; [exact (proj2 (done_prepared I0 H2 Hd))|exact (proj2 (done_prepared I1 H2 Hd))].
Qed.

Example C64_returned_ex :
  match run ex_sch ex_start with
  | Some s => (map rd_ready (py_rounds (fst s)), map rd_perm (py_rounds (fst s)), length (py_rounds (snd s)))
  | None => ([], [], 1) end = ([true; true; true; true; true], [true; true; true; true; false], 0).
Proof. vm_compute. reflexivity. Qed.

(* ---------------- not more than mPreProLead ahead ---------------- *)

(* a preparation begins only when all but mPreProLead - 1 of the rounds before it have their digits
   sorted *)
Theorem C64_lead : forall L bits lead0 lead1 ext0 ext1 fail0 fail1 sch s j, 1 <= L -> 1 <= bits ->
  run sch (fresh L bits lead0 false ext0 fail0, fresh L bits lead1 true ext1 fail1) = Some s ->
  (task_begun (fst s) j -> j < lead0 + bits_done (div_ceil bits L) (py_pc (fst s))) /\
  (task_begun (snd s) j -> j < lead1 + bits_done (div_ceil bits L) (py_pc (snd s))).
Proof.
  intros L bits lead0 lead1 ext0 ext1 fail0 fail1 sch s j HL Hb E.
  pose proof (div_ceil_pos Hb HL) as H1. assert (H2 : div_ceil L 8 + 4 <> 0) by lia.
  destruct (fresh_run HL Hb E) as [[I0 I1] W].
  split; [exact (lead_bound I0)|exact (lead_bound I1)].
Qed.

(* a lead of one: rounds 0 and 1 have their digits sorted, the task of round 2 has begun, that of
   round 3 waits *)
Example C64_lead_ex :
  match run (firstn 19 ex_sch) ex_start with
  | Some s => (py_pc (fst s), tasks (fst s))
  | None => (MUb, []) end = (MComp 1, [PDone; PGen; PGen; PWait; PWait]).
Proof. vm_compute. reflexivity. Qed.

(* ---------------- the mocked sort ---------------- *)

(* a party that calls genPrePerm and the mocked genPerm (GroupBy.cpp:363-371) *)
Definition mocked (L bits lead : nat) (role : bool) (fail : nat -> bool) : party :=
  call (rs_init L bits (rs_new lead true role true true fail)).

(* with at least as many preparations ahead as there are rounds it ends *)
Theorem C64_mock_partial : forall L bits lead0 lead1 fail0 fail1 sch s, div_ceil bits L <= lead0 -> div_ceil bits L <= lead1 ->
  run sch (mocked L bits lead0 false fail0, mocked L bits lead1 true fail1) = Some s ->
  length sch <= 4 * div_ceil bits L + 6 /\ (stuck s -> returned s).
Proof.
  intros L bits lead0 lead1 fail0 fail1 sch s H0 H1 E. unfold mocked in E.
  destruct (@minv_init L bits lead0 false fail0 H0) as [I0 W0]. destruct (@minv_init L bits lead1 true fail1 H1) as [I1 W1].
  destruct (mrun (s := (_, _)) I0 I1 E) as (J0 & J1 & W). split; [cbn [fst snd] in W; lia|]. intros St.
  assert (R : py_role (fst s) = false).
  { assert (St1 : forall w p o q, py_role p = false -> step1 w p o = Some q -> py_role q = false).
    { intros w p o q X Y. rewrite (role_step Y). exact X. }
    apply (proj1 (run_party St1 E)).
    cbn [fst]. unfold call. cbn [py_ext rs_init rs_new]. rewrite gen_pre_role. reflexivity. }
  destruct s as [p o]. cbn [fst snd] in *.
  assert (N0 : forall w, step1 w p o = None).
  { intros w. specialize (St false w). cbn in St. destruct (step1 w p o); [discriminate St|reflexivity]. }
  assert (N1 : forall w, step1 w o p = None).
  { intros w. specialize (St true w). cbn in St. destruct (step1 w o p); [discriminate St|reflexivity]. }
  assert (Dec : forall c : mpc, c = MDone \/ c <> MDone) by (intros []; auto; right; discriminate).
  assert (D0 : py_pc p = MDone).
  { destruct (Dec (py_pc p)) as [X|X]; [exact X|]. destruct (minv_moves J0 J1 (or_introl R) X) as [w [Y|Y]]; exfalso; apply Y; auto. }
  split; [exact D0|]. cbn. destruct (Dec (py_pc o)) as [X|X]; [exact X|].
  destruct (minv_moves J1 J0 (or_intror (ltac:(rewrite D0; discriminate) : py_pc p <> MStart)) X) as [w [Y|Y]]; exfalso; apply Y; auto.
Qed.

Example C64_mock_partial_ex :
  let s0 := (mocked 2 7 4 false nofail, mocked 2 7 6 true nofail) in
  match run (trace 20 ex_acts s0) s0 with Some s => (length (trace 20 ex_acts s0), py_pc (fst s), py_pc (snd s)) | None => (0, MUb, MUb) end
  = (20, MDone, MDone).
Proof. vm_compute. reflexivity. Qed.

(* with more rounds than that it never returns: the mocked genPerm releases no preparation
   (RadixSort.cpp:1121-1125), and co_await prepro waits for them (GroupBy.cpp:371) *)
Theorem C64_mock_refuted : forall L bits lead role fail other sch s, lead < div_ceil bits L ->
  run sch (mocked L bits lead role fail, other) = Some s -> py_pc (fst s) <> MDone.
Proof.
  intros L bits lead role fail other sch s H E.
  pose proof (proj1 (run_party mock_hang_step E) (mock_hang_init role fail H)) as (_ & _ & A & _).
  destruct A as [A|[A|A]]; rewrite A; discriminate.
Qed.

(* the default lead of four and a key of nine bits, and both parties wait *)
Example C64_mock_refuted_ex :
  let s0 := (mocked 2 9 4 false nofail, mocked 2 9 4 true nofail) in
  match run (trace 20 ex_acts s0) s0 with
  | Some s => (py_pc (fst s), tasks (fst s), forallb (fun a => match step (fst a) (snd a) s with None => true | _ => false end) ex_acts)
  | None => (MUb, [], false) end = (MPre, [PDone; PDone; PDone; PDone; PWait], true).
Proof. vm_compute. reflexivity. Qed.

(* ---------------- the object used again ---------------- *)

(* after a sort that has returned, init and another sort with more than one round never return:
   mPrePermStarted is still set (RadixSort.cpp:1057-1059, 1134; init does not reset it), so the
   permutations are not prepared *)
Theorem C64_again_refuted : forall L bits lead0 lead1 ext0 ext1 sch s L' bits' other sch' s', 1 <= L -> 1 <= bits ->
  run sch (fresh L bits lead0 false ext0 nofail, fresh L bits lead1 true ext1 nofail) = Some s ->
  py_pc (fst s) = MDone -> 2 <= div_ceil bits' L' ->
  run sch' (call (rs_init L' bits' (fst s)), other) = Some s' -> py_pc (fst s') <> MDone.
Proof.
  intros L bits lead0 lead1 ext0 ext1 sch s L' bits' other sch' s' HL Hb E Hd H2 E'.
  pose proof (div_ceil_pos Hb HL) as H1. assert (HB : div_ceil L 8 + 4 <> 0) by lia.
  destruct (fresh_run HL Hb E) as [[I0 I1] W].
  pose proof I0 as ((_ & _ & Cm & Ck & _) & _).
  assert (A : again (call (rs_init L' bits' (fst s)))).
  { apply again_init; auto. exact (proj1 (done_prepared I0 HB Hd)). }
  pose proof (proj1 (run_party again_step E') A) as (_ & _ & _ & _ & _ & X & _).
  destruct X as [X|[X|[X|X]]]; rewrite X; discriminate.
Qed.

(* both parties of the run above sort again: they stay in round 1 *)
Example C64_again_refuted_ex :
  let s0 := (call (rs_init 2 9 (fst ex_end)), call (rs_init 2 9 (snd ex_end))) in
  match run (trace 20 ex_acts s0) s0 with
  | Some s => (py_pc (fst ex_end), py_pc (fst s), py_pc (snd s), forallb (fun a => match step (fst a) (snd a) s with None => true | _ => false end) ex_acts)
  | None => (MUb, MUb, MUb, false) end = (MDone, MWait 1, MWait 1, true).
Proof. vm_compute. reflexivity. Qed.

(* ---------------- other ends ---------------- *)

(* keys of another shape than given to init (RadixSort.cpp:1114-1117) make genPerm throw first *)
Theorem C64_keys : forall p o, py_pc p = MStart -> py_keys p = false -> mstep p o = Some (with_pc p MThrow).
Proof. intros p o H1 H2. unfold mstep. rewrite H1, H2. reflexivity. Qed.

Example C64_keys_ex : option_map py_pc (mstep (call (rs_init 2 9 (rs_new 4 false false false true nofail))) (fresh 2 9 4 true true nofail)) = Some MThrow.
Proof. vm_compute. reflexivity. Qed.

(* keys of no bits: there is no round 0 (RadixSort.cpp:1139) *)
Theorem C64_no_bits_refuted : forall L lead role ext fail o, 1 <= L ->
  option_map py_pc (mstep (fresh L 0 lead role ext fail) o) = Some MUb.
Proof.
  intros L lead role ext fail o H. unfold fresh, rs_init.
  assert (Z : div_ceil 0 L = 0) by (unfold div_ceil; apply Nat.div_small; lia). rewrite Z. destruct ext; reflexivity.
Qed.

(* a generation that ends with an exception is announced like one that did not
   (AltModComposedPerm.cpp:44), and genPerm goes on with no permutation *)
Theorem C64_failed_refuted : exists fail sch s,
  run sch (fresh 2 4 4 false true fail, fresh 2 4 4 true true fail) = Some s /\
  py_pc (fst s) = MApply 1 /\ map rd_ready (py_rounds (fst s)) = [true; true] /\ map rd_perm (py_rounds (fst s)) = [false; false].
Proof.
  set (s0 := (fresh 2 4 4 false true (fun j => j =? 0), fresh 2 4 4 true true (fun j => j =? 0))).
  exists (fun j => j =? 0), (firstn 14 (trace 20 ex_acts s0)), (match run (firstn 14 (trace 20 ex_acts s0)) s0 with Some s => s | None => s0 end).
  split; [|split; [|split]]; vm_compute; reflexivity.
Qed.

Print Assumptions C64_ends.
Print Assumptions C64_prepared.
Print Assumptions C64_returned.
Print Assumptions C64_lead.
Print Assumptions C64_mock_partial.
Print Assumptions C64_mock_refuted.
Print Assumptions C64_again_refuted.
Print Assumptions C64_keys.
Print Assumptions C64_no_bits_refuted.
Print Assumptions C64_failed_refuted.
