(* C35: Where.  Sub-protocols as described in WhereModel.v. *)
From Verif Require Import Base Words PermModel PermSpec PermProofs PermCorModel PermCorSpec PropsPermCor KeyMultModel ShuffleModel ShuffleSpec GmwModel GmwSpec GmwProofs CircuitProofs TableModel TableSpec BitInjProofs TrimProofs TableProofs OmJoinModel OmJoinSpec OmJoinProofs ExtractModel ExtractSpec ExtractProofs PropsExtract WhereModel WhereSpec WhereProofs.
From Coq Require Import Permutation.

(* Whatever selection of columns: when the run returns, the columns are those of the input and the
   flag of every row is the old flag and the value of the clause on the selected columns.  Partial:
   the run does not return for every selection (C35_selection_refuted), and a clause with a
   inverted output wire is evaluated wrongly (C35_inverted_refuted). *)
Theorem C35_where_partial n cols sel cl rem w mask t0 t1 o0 o1 : inlinable (clCir cl) -> clFlag cl = FWire ->
  where_init n cols sel cl rem = Ok w -> shared_table n t0 t1 -> length mask = n ->
  where_run w mask t0 t1 = Ok (o0, o1) ->
  tCols o0 = tCols t0 /\ tCols o1 = tCols t1 /\ shared_table n o0 o1 /\
  map2 N.lxor (tAct o0) (tAct o1) = map (fun r => N.b2n (is_active t0 t1 r && clause_on cl (selected sel t0 t1 r))) (seq 0 n).
Proof.
  intros HI HF HW HT Hm E. destruct (where_run_inv HI HW HT Hm E) as (_ & _ & E0 & E1 & L0 & L1 & EV). split; [exact E0|]. split; [exact E1|].
  split; [destruct HT as (C0 & C1 & CI & _); unfold shared_table; rewrite E0, E1; auto|]. rewrite EV. apply map_ext. intros r.
  replace (raw cl) with cl by (destruct cl as [c f]; cbn [clFlag] in HF; subst f; reflexivity). rewrite andb_comm. reflexivity.
Qed.
Print Assumptions C35_where_partial.

(* with the table the object was set up for, it returns if and only if the selection lists the
   columns in order *)
Theorem C35_returns_iff n cols sel cl rem w mask t0 t1 : 0 < n -> runnable cl -> where_init n cols sel cl rem = Ok w ->
  shared_table n t0 t1 -> length mask = n -> infos t0 = cols -> cols <> [] ->
  ((exists o, where_run w mask t0 t1 = Ok o) <-> map (fun i => nth i cols (Info [] 0 0)) sel = cols).
Proof.
  intros Hn (HI & Hw & _ & HG) HW HT Hm ET Hne. split.
  - intros ((o0, o1) & E). destruct (where_run_inv HI HW HT Hm E) as (EI & _). unfold i0 in EI. congruence.
  - intros ES. apply (where_run_total HI HW mask Hn HT); auto. intros H. apply Hne. rewrite <- ET. unfold infos. rewrite H. reflexivity.
Qed.
Print Assumptions C35_returns_iff.

(* the identity selection: set up and run always return *)
Theorem C35_identity n cl rem t0 t1 mask : 0 < n -> runnable cl -> clFlag cl = FWire -> shared_table n t0 t1 -> tCols t0 <> [] -> length mask = n ->
  let sel := seq 0 (length (tCols t0)) in
  fits (infos t0) sel cl ->
  exists w o0 o1, where_init n (infos t0) sel cl rem = Ok w /\ where_run w mask t0 t1 = Ok (o0, o1) /\
    tCols o0 = tCols t0 /\ tCols o1 = tCols t1 /\ shared_table n o0 o1 /\
    map2 N.lxor (tAct o0) (tAct o1) = map (fun r => N.b2n (is_active t0 t1 r && clause_on cl (selected sel t0 t1 r))) (seq 0 n).
Proof.
  intros Hn HR HF HT Hne Hm sel HB. pose proof HR as (HI & Hw & (o & Ho) & HG).
  assert (HW : exists w, where_init n (infos t0) sel cl rem = Ok w).
  { unfold where_init. unfold fits in HB. pose proof (Forall2_length HB) as HL. rewrite HL, Nat.eqb_refl. cbn [negb throw_if bind]. rewrite Ho. cbn [length Nat.eqb negb throw_if bind].
    apply (check_ok (infos t0) (eq_sym HL)) in HB. destruct HB as (u & ->). cbn [bind]. destruct (make_where_total HI Ho) as (c & ->). cbn [bind].
    assert (EG : forall k, k <= length (infos t0) -> mapM (get (infos t0)) (seq 0 k) = Ok (map (fun i => nth i (infos t0) i0) (seq 0 k))).
    { intros k Hk. apply mapM_ok. intros i Hi. apply in_seq in Hi. apply get_ok. lia. }
    assert (L : length (infos t0) = length (tCols t0)) by (unfold infos; apply map_length).
    unfold sel at 1. rewrite EG by lia. cbn [bind]. destruct rem; [|cbn [bind]; eauto]. rewrite <- HL. unfold sel at 1. rewrite seq_length, EG by lia. cbn [bind]. eauto. }
  destruct HW as (w & HW). assert (Hne' : infos t0 <> []) by (unfold infos; destruct (tCols t0); [congruence|discriminate]).
  destruct (proj2 (C35_returns_iff Hn HR HW HT Hm eq_refl Hne')) as ((o0, o1) & E).
  { unfold sel. replace (length (tCols t0)) with (length (infos t0)) by (unfold infos; apply map_length). apply map_nth_seq. }
  exists w, o0, o1. split; [exact HW|]. split; [exact E|]. exact (C35_where_partial HI HF HW HT Hm E).
Qed.
Print Assumptions C35_identity.

(* Refuted: "every selection allowed by the interface".  With the table it was set up for and columns
   of different names, every selection other than all columns in order throws. *)
Theorem C35_selection_refuted n cols sel cl rem w mask t0 t1 : where_init n cols sel cl rem = Ok w ->
  shared_table n t0 t1 -> infos t0 = cols -> NoDup cols -> sel <> seq 0 (length cols) -> where_run w mask t0 t1 = Throw.
Proof.
  intros HW (C0 & _) ET ND HS. destruct (where_init_ok HW) as (HF & _ & _ & _ & E3 & _). unfold where_run.
  assert (EX : where_inputs w t0 = Throw); [|rewrite EX; reflexivity]. unfold where_inputs. rewrite (t_info_ok C0). change (map info_of (tCols t0)) with (infos t0).
  destruct (negb (length _ =? _)); [reflexivity|]. cbn [throw_if bind]. destruct (negb (t_rows t0 =? _)); [reflexivity|]. cbn [throw_if bind].
  destruct (infos_eq (infos t0) (wCols w)) eqn:EI; [|reflexivity]. exfalso. apply infos_eq_iff in EI. apply HS.
  apply (@nth_sel_id _ i0); [exact ND| |congruence]. clear - HF. unfold fits in HF. induction HF as [|i l s ins (H & _) HF IH]; constructor; auto.
Qed.
Print Assumptions C35_selection_refuted.

(* Refuted: a clause whose output wire is marked inverted, as addInvert leaves it (WhereParser.cpp:175-176
   for a final NOT_EQUALS).  evaluate does not copy the marks: the negation is lost. *)
Theorem C35_inverted_refuted n cols sel cl rem w mask t0 t1 o0 o1 : inlinable (clCir cl) -> clFlag cl = FInv ->
  where_init n cols sel cl rem = Ok w -> shared_table n t0 t1 -> length mask = n ->
  where_run w mask t0 t1 = Ok (o0, o1) ->
  map2 N.lxor (tAct o0) (tAct o1) = map (fun r => N.b2n (is_active t0 t1 r && negb (clause_on cl (selected sel t0 t1 r)))) (seq 0 n).
Proof.
  intros HI HF HW HT Hm E. destruct (where_run_inv HI HW HT Hm E) as (_ & _ & _ & _ & _ & _ & EV). rewrite EV. apply map_ext. intros r.
  unfold clause_on, raw. rewrite HF. cbn [clFlag clCir flag_val]. rewrite negb_involutive, andb_comm. reflexivity.
Qed.
Print Assumptions C35_inverted_refuted.

(* with the removal of the inactive rows: exactly the active rows meeting the clause are revealed *)
Theorem C35_extract n cols sel cl w mask c c0 c1 t0 t1 o0 o1 f0 f1 : 0 < n -> inlinable (clCir cl) -> clFlag cl = FWire ->
  where_init n cols sel cl true = Ok w -> shared_table n t0 t1 -> length mask = n -> tCols t0 <> [] -> NoDup (map cName (tCols t0)) ->
  (N.of_nat c < 2 ^ 64)%N -> comp_rel n c c0 c1 -> comp_bytes c0 ->
  csOff (cpS c0) + row_bytes t0 <= c -> csOff (cpS c1) + row_bytes t0 <= c ->
  where_extract w mask c0 c1 t0 t1 = Ok ((o0, f0), (o1, f1)) ->
  exists q, Permutation q (where_rows n cl sel t0 t1) /\ t_reveal o0 o1 false = Ok (Tab (repeat 1%N (length q)) (picked q t0 t1)).
Proof.
  intros Hn HI HF HW HT Hm Hne ND Hc HR HB O0 O1 E. unfold where_extract in E. destruct (where_run w mask t0 t1) as [(a0, a1)| | |] eqn:EW; cbn [bind] in E; try discriminate. cbn [fst snd] in E.
  destruct (where_init_ok HW) as (_ & _ & ER & _). rewrite ER in E.
  destruct (C35_where_partial HI HF HW HT Hm EW) as (E0 & E1 & HS & EV). pose proof HS as (_ & _ & CI & L0 & L1).
  assert (RB : row_bytes a0 = row_bytes t0) by (unfold row_bytes; rewrite E0; reflexivity).
  assert (B : bytes (tAct a0) /\ bytes (tAct a1)).
  { unfold where_run in EW. destruct (where_inputs w t0); cbn [bind] in EW; try discriminate. destruct (where_inputs w t1); cbn [bind] in EW; try discriminate. destruct (gmw_runs _ _); cbn [bind] in EW; try discriminate.
    injection EW as <- <-. cbn [tAct]. split; apply Forall_forall; intros x Hx; apply in_map_iff in Hx; destruct Hx as (b & <- & _); destruct b; reflexivity. }
  assert (F : forall t, out_fits t t). { intros t. right. induction (tCols t) as [|x l IH]; constructor; [repeat split|exact IH]. }
  destruct (@C34_reveal n c c0 c1 a0 a1 a0 a1 o0 o1 f0 f1 Hn Hc HR HB HS) as (q & HP & EQ); try (rewrite ?RB, ?E0; tauto); try apply F; try exact E.
  exists q. split.
  - rewrite HP. unfold active_rows, where_rows. replace (filter (is_active a0 a1) (seq 0 n)) with (filter (fun r => is_active t0 t1 r && clause_on cl (selected sel t0 t1 r)) (seq 0 n)); [reflexivity|].
    apply filter_ext_in. intros r Hr. apply in_seq in Hr. unfold is_active at 2. apply (f_equal (fun l => N.odd (nth r l 0%N))) in EV. rewrite map2_nth with (da := 0%N) (db := 0%N) in EV by lia. rewrite EV.
    rewrite nth_map_seq' by lia. cbn [Nat.add]. destruct (_ && _); reflexivity.
  - rewrite EQ. f_equal. f_equal. unfold picked. rewrite E0, E1. reflexivity.
Qed.
Print Assumptions C35_extract.
(* the bytes asked for are those of a row *)
Theorem C35_asked n cl w t : Forall (col_ok n) (tCols t) -> where_init n (infos t) (seq 0 (length (tCols t))) cl true = Ok w -> wBytes w = row_bytes t.
Proof.
  intros HC HW. destruct (where_init_ok HW) as (_ & _ & _ & _ & _ & H). destruct (H eq_refl) as (_ & ->). rewrite seq_length. replace (length (tCols t)) with (length (infos t)) by (unfold infos; apply map_length). rewrite firstn_all.
  unfold infos, row_bytes. clear - HC. induction HC as [|c l ((_ & Ec) & _ & Eb & _) HC IH]; [reflexivity|]. cbn [map fold_right iBits]. rewrite IH, Ec, Eb. reflexivity.
Qed.
Print Assumptions C35_asked.

(* ---------------- examples ---------------- *)
(* a or: (bit 0 of a xor bit 0 of b) or bit 7 of b, on columns of 9 and 8 bits *)
Definition ex_cl : clause := Clause (Circuit 19 [seq 0 9; seq 9 8] [[17]] [Gate 0 9 GXor 18; Gate 18 16 GOr 17]) FWire.
Lemma ex_runnable : runnable ex_cl.
Proof.
  split; [|split; [repeat constructor; discriminate|split; [exists 17; reflexivity|]]].
  - unfold inlinable. split; [cbn; lia|]. split; [apply Permutation_refl|]. split.
    + cbn. unfold reads; cbn. intuition (subst; try discriminate; try lia; auto 30).
    + split; [intros g Hg; cbn in Hg; intuition (subst; cbn; lia)|]. intros o' Ho. cbn in Ho. destruct Ho as [<-|[]]. exists (Gate 18 16 GOr 17). split; [right; left; reflexivity|reflexivity].
  - intros g Hg. cbn in Hg. intuition (subst; discriminate).
Qed.
(* shares of flags 1 1 0, a = 273, 258, 67, b = 6, 6, 133 *)
Definition ex_u1 : table := Tab [0; 0; 0]%N [xcol [97]%N 9 [[16; 1]; [0; 0]; [64; 0]]%N; xcol [98]%N 8 [[1]; [1]; [130]]%N].
Example C35_ex : runnable ex_cl /\ fits (infos ex_t0) [0; 1] ex_cl /\ shared_table 3 ex_t0 ex_u1 /\ row_bytes ex_t0 = 4 /\
  map (fun r => clause_on ex_cl (selected [0; 1] ex_t0 ex_u1 r)) [0; 1; 2] = [true; false; true] /\
  map (is_active ex_t0 ex_u1) [0; 1; 2] = [true; true; false] /\
  (do w <- where_init 3 (infos ex_t0) [0; 1] ex_cl true; do o <- where_run w [true; false; true] ex_t0 ex_u1; Ok (wBytes w, map2 N.lxor (tAct (fst o)) (tAct (snd o)))) = Ok (4, [1; 0; 0]%N) /\
  (do w <- where_init 3 (infos ex_t0) [0; 1] ex_cl true; do r <- where_extract w [true; false; true] ex_c0 ex_c1 ex_t0 ex_u1; t_reveal (fst (fst r)) (fst (snd r)) false) =
  Ok (Tab [1]%N [xcol [97]%N 9 [[17; 1]]%N; xcol [98]%N 8 [[6]]%N]).
Proof.
  split; [apply ex_runnable|]. split; [repeat constructor|]. split; [unfold shared_table; col_ok|]. vm_compute. repeat split.
Qed.
(* an inverted output: bit 0 of a differs from bit 0 of b, written as not equal.  The run gives equality. *)
Definition ex_ne : clause := Clause (Circuit 18 [seq 0 9; seq 9 8] [[17]] [Gate 0 9 GNxor 17]) FInv.
Example C35_inverted_ex : inlinable (clCir ex_ne) /\
  map (fun r => clause_on ex_ne (selected [0; 1] ex_t0 ex_u1 r)) [0; 1; 2] = [true; false; false] /\
  (do w <- where_init 3 (infos ex_t0) [0; 1] ex_ne false; do o <- where_run w [true; false; true] ex_t0 ex_u1; Ok (map2 N.lxor (tAct (fst o)) (tAct (snd o)))) = Ok [0; 1; 0]%N.
Proof.
  split; [|split; vm_compute; reflexivity]. unfold inlinable. split; [cbn; lia|]. split; [apply Permutation_refl|]. split.
  - cbn. unfold reads; cbn. intuition (subst; try discriminate; try lia; auto 30).
  - split; [intros g Hg; cbn in Hg; intuition (subst; cbn; lia)|]. intros o' Ho. cbn in Ho. destruct Ho as [<-|[]]. exists (Gate 0 9 GNxor 17). split; [left; reflexivity|reflexivity].
Qed.
(* selections: one column of two, and the two columns swapped, throw for the table they were set up
   for; with the table reduced to the selected column the index of the selection is out of range *)
Definition ex_one : clause := Clause (Circuit 9 [seq 0 8] [[8]] [Gate 0 7 GXor 8]) FWire.
Definition ex_sw : clause := Clause (Circuit 19 [seq 0 8; seq 8 9] [[17]] [Gate 0 8 GXor 18; Gate 18 7 GOr 17]) FWire.
Example C35_selection_ex : NoDup (infos ex_t0) /\
  (do w <- where_init 3 (infos ex_t0) [1] ex_one false; where_run w [true; false; true] ex_t0 ex_u1) = Throw /\
  (do w <- where_init 3 (infos ex_t0) [1; 0] ex_sw false; where_run w [true; false; true] ex_t0 ex_u1) = Throw /\
  (do w <- where_init 3 (infos ex_t0) [1] ex_one false; where_run w [true; false; true] (Tab [1; 1; 0]%N (skipn 1 (tCols ex_t0))) (Tab [0; 0; 0]%N (skipn 1 (tCols ex_u1)))) = UB.
Proof.
  split; [|vm_compute; repeat split]. unfold infos. cbn. repeat constructor; cbn; intuition discriminate.
Qed.
