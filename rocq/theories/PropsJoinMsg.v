(* C75: what a party sees in a whole join with the runs of its circuits. *)
From Verif Require Import Base Words PermModel PermSpec PermCorModel PermCorSpec PermViewModel ShuffleModel ShuffleSpec ExtractSpec KeyMultModel RadixModel RadixSpec SortViewModel SortPrivSpec GenPermViewModel GenPermPrivSpec GenPermPrivacy GmwModel GmwSpec GmwPrivSpec GmwIoModel.
From Verif Require Import AggModel AggSpec AggProofs AggCirModel AggCirSpec AggTwoTree AggRunModel AggViewModel AggViewSpec TableModel TableSpec TableProofs OmJoinModel OmJoinSpec JoinViewModel JoinPrivSpec JoinPrivacy JoinHides JoinLeak JoinRunModel JoinRunSpec JoinRunTop JoinMsgSpec JoinMsgTop PropsSortPriv PropsAggCir PropsAggView PropsOmJoin PropsJoinPriv PropsJoinRun.

(* ---------- what paired means ---------- *)
Lemma match_le {A B} (rel : A -> B -> Prop) : (forall a a' b, rel a b -> rel a' b -> a = a') -> forall l1 l2, NoDup l1 -> (forall a, In a l1 -> exists b, In b l2 /\ rel a b) -> length l1 <= length l2.
Proof.
  intros I. induction l1 as [|a l1 IH]; intros l2 N H; [cbn; lia|]. inversion N as [|? ? Na N1]; subst. destruct (H a (or_introl eq_refl)) as (b & Hb & R). apply in_split in Hb. destruct Hb as (u & v & ->).
  rewrite app_length. cbn [length]. rewrite Nat.add_succ_r, <- app_length. apply le_n_S, IH; [exact N1|]. intros a' Ha'. destruct (H a' (or_intror Ha')) as (b' & Hb' & R'). exists b'. split; [|exact R'].
  apply in_app_or in Hb'. apply in_or_app. destruct Hb' as [?|[->|?]]; [left; assumption| |right; assumption]. exfalso. apply Na. rewrite (I a a' b' R R'). exact Ha'.
Qed.
Lemma paired_sym {X R V} (ok : R -> Prop) (view : X -> R -> outcome V) x x' : paired ok view x x' -> paired ok view x' x.
Proof.
  intros (rel & H1 & H2 & H3 & H4 & H5). exists (fun a b => rel b a). split; [|split; [exact H3|]; split; [exact H2|]; split; [exact H5|exact H4]].
  intros r r' H. destruct (H1 _ _ H) as (A & B & v & E & E'). split; [exact B|]. split; [exact A|]. exists v. split; assumption.
Qed.
Lemma paired_le {X R V} (ok : R -> Prop) (view : X -> R -> outcome V) x x' (l : list R) (P : outcome V -> bool) : paired ok view x x' -> NoDup l -> (forall r, In r l <-> ok r) ->
  length (filter (fun r => P (view x r)) l) <= length (filter (fun r => P (view x' r)) l).
Proof.
  intros (rel & H1 & H2 & _ & _ & H5) N HI. apply (match_le (rel := rel)); [intros a a' b; apply H5|apply NoDup_filter, N|]. intros a Ha. apply filter_In in Ha. destruct Ha as [Ha HP]. destruct (H2 a (proj1 (HI a) Ha)) as (b & Rab). exists b. split; [|exact Rab].
  destruct (H1 _ _ Rab) as (_ & B & v & E & E'). apply filter_In. split; [apply HI, B|]. rewrite E', <- E. exact HP.
Qed.
(* Each set of views is as likely for x as for x', the randomness being uniform. *)
Theorem C75_counts {X R V} (ok : R -> Prop) (view : X -> R -> outcome V) x x' (l : list R) (P : outcome V -> bool) : paired ok view x x' -> NoDup l -> (forall r, In r l <-> ok r) ->
  length (filter (fun r => P (view x r)) l) = length (filter (fun r => P (view x' r)) l).
Proof. intros H N HI. apply Nat.le_antisymm; apply (paired_le (ok := ok)); try assumption. apply paired_sym, H. Qed.
Print Assumptions C75_counts.

Lemma paired_map {X Y R V W} (ok ok' : R -> Prop) (view : X -> R -> outcome V) (view' : Y -> R -> outcome W) (g : V -> W) x x' y y' : (forall r, ok r <-> ok' r) ->
  (forall r v, view x r = Ok v -> view' y r = Ok (g v)) -> (forall r v, view x' r = Ok v -> view' y' r = Ok (g v)) -> paired ok view x x' -> paired ok' view' y y'.
Proof.
  intros HO G G' (rel & H1 & H2 & H3 & H4 & H5). exists rel. split; [|split; [intros r Hr; apply H2, HO, Hr|]; split; [intros r Hr; apply H3, HO, Hr|]; split; [exact H4|exact H5]].
  intros r r' H. destruct (H1 _ _ H) as (A & B & v & E & E'). split; [apply HO, A|]. split; [apply HO, B|]. exists (g v). split; [apply G, E|apply G', E'].
Qed.

(* party 0 (party 1) holds the same randomness of the sort and the permutation as in R0 *)
Definition same_run0 (R0 R : (radix_round * list ((comp * comp) * radix_round)) * (comp * comp)) : Prop := same_sort0 (fst R0) (fst R) /\ fst (snd R) = fst (snd R0).
Definition same_run1 (R0 R : (radix_round * list ((comp * comp) * radix_round)) * (comp * comp)) : Prop := same_sort1 (fst R0) (fst R) /\ snd (snd R) = snd (snd R0).

(* Without validate, party 0 sees the same over party 1's randomness and correlations, whatever the shares that party 1
   holds of the tables: every message of the whole join, the circuits included, all its shares and its output table. *)
Theorem C75_party0 L capS cap nL nR kb enc lb q0 q1 q1' rd0 jl me ot : enc_ok enc kb nL nR -> join_sizes L capS cap nL nR kb q0 -> queries_ok nL nR kb q0 q1 -> queries_ok nL nR kb q0 q1' ->
  lib_ok (om_width q0 + div_ceil kb 8) lb -> levels_fit lb (om_width q0 + div_ceil kb 8) (key_bits kb nL nR) jl -> side_looks (nL + nR) jl me ot ->
  paired (fun x => run_fits L (key_bits kb nL nR) (nL + nR) capS cap (fst x) /\ same_run0 rd0 (fst x) /\ side_fits me (snd x))
    (fun q x => do y <- om_join_run lb L enc q0 q (fst x) jl (both true me (side_with ot (snd x))); Ok (run_see0 y)) q1 q1'.
Proof.
  intros HE HS HQ HQ' HL HV Hs. set (view := fun t : join_tr => (sort_see0 (jtSort t), chain_see0 (jtChain t), fst (jtOut t))).
  assert (MV : forall a b, queries_ok nL nR kb q0 a -> queries_ok nL nR kb q0 b -> moves L capS cap nL nR kb enc lb jl view same_run0 q0 a q0 b (Jmv0 L capS cap nL nR kb enc q0 a b) (Jmv0 L capS cap nL nR kb enc q0 b a)).
  { intros a b A B. split; [exact HS|]. split; [exact A|]. split; [exact HS|]. split; [exact B|]. split; [reflexivity|]. split; [reflexivity|]. split; [exact HL|]. split; [exact HV|]. intros rd F.
    destruct (join0 HE HS A B F) as (F' & (S1 & S2 & _) & I' & V'). split; [exact F'|]. split; [split; [exact S1|exact S2]|]. split; [exact I'|]. intros tr E. unfold join_view0 in V'. rewrite E in V'. cbn [bind] in V'.
    destruct (om_join_v L enc q0 b (Jmv0 L capS cap nL nR kb enc q0 a b rd)) as [tr'| | |]; try discriminate V'. exists tr'. split; [reflexivity|]. cbn [bind] in V'. apply Ok_inj' in V'. unfold view.
    apply pair_equal_spec in V'. destruct V' as [V' V4]. apply pair_equal_spec in V'. destruct V' as [V' V3]. apply pair_equal_spec in V'. destruct V' as [V1 _]. rewrite V1, V3, V4. reflexivity. }
  refine (paired_map (g := fun v => (fst (fst (fst v)), snd (fst (fst v)), snd v, snd (fst v))) _ _ _ (@side_paired L capS cap nL nR kb enc HE lb jl true me ot rd0 _ view same_run0 _ _ Hs q0 q1 q0 q1' _ _ (MV q1 q1' HQ HQ') (MV q1' q1 HQ' HQ))).
  - intros r. reflexivity.
  - intros r v E. cbn [fst snd] in E. destruct (om_join_run lb L enc q0 q1 (fst r) jl (both true me (side_with ot (snd r)))) as [y| | |]; try discriminate E. cbn [bind] in E |- *. apply Ok_inj' in E. subst v. reflexivity.
  - intros r v E. cbn [fst snd] in E. destruct (om_join_run lb L enc q0 q1' (fst r) jl (both true me (side_with ot (snd r)))) as [y| | |]; try discriminate E. cbn [bind] in E |- *. apply Ok_inj' in E. subst v. reflexivity.
  - intros t t' E. unfold view in E. apply (f_equal (fun v => snd (fst v))) in E. cbn [fst snd] in E. unfold chain_see0 in E. cbn [own].
    split; [exact (f_equal (fun v => snd (fst (fst (fst (fst (fst v)))))) E)|]. split; [exact (f_equal (fun v => snd (fst (fst (fst (fst v))))) E)|]. split; [exact (f_equal (fun v => snd (fst (fst (fst v)))) E)|exact (f_equal (fun v => snd (fst (fst v))) E)].
  - intros x y z [A B] [C D]. split; [apply (same_sort0_trans A C)|congruence].
Qed.
Print Assumptions C75_party0.

(* and party 1, whatever the shares that party 0 holds *)
Theorem C75_party1 L capS cap nL nR kb enc lb q0 q0' q1 rd0 jl me ot : enc_ok enc kb nL nR -> join_sizes L capS cap nL nR kb q0 -> queries_ok nL nR kb q0 q1 -> queries_ok nL nR kb q0' q1 ->
  lib_ok (om_width q0 + div_ceil kb 8) lb -> levels_fit lb (om_width q0 + div_ceil kb 8) (key_bits kb nL nR) jl -> side_looks (nL + nR) jl me ot ->
  paired (fun x => run_fits L (key_bits kb nL nR) (nL + nR) capS cap (fst x) /\ same_run1 rd0 (fst x) /\ side_fits me (snd x))
    (fun q x => do y <- om_join_run lb L enc q q1 (fst x) jl (both false me (side_with ot (snd x))); Ok (run_see1 y)) q0 q0'.
Proof.
  intros HE HS HQ HQ' HL HV Hs. set (view := fun t : join_tr => (sort_see1 (jtSort t), chain_see1 (jtChain t), snd (jtOut t))).
  assert (MV : forall a b, join_sizes L capS cap nL nR kb a -> queries_ok nL nR kb a q1 -> queries_ok nL nR kb b q1 -> lib_ok (jw kb a) lb -> levels_fit lb (jw kb a) (key_bits kb nL nR) jl ->
     moves L capS cap nL nR kb enc lb jl view same_run1 a q1 b q1 (Jmv1 L capS cap nL nR kb enc a b q1) (Jmv1 L capS cap nL nR kb enc b a q1)).
  { intros a b HSa A B La Va. destruct (same_width A B) as [Ef Ew]. split; [exact HSa|]. split; [exact A|]. split; [exact (same_sizes A B HSa)|]. split; [exact B|]. split; [exact Ef|]. split; [exact Ew|]. split; [exact La|]. split; [exact Va|]. intros rd F.
    destruct (join1 HE HSa A B F) as (F' & (S1 & S2) & I' & _ & V'). split; [exact F'|]. split; [split; [exact S1|exact S2]|]. split; [exact I'|]. intros tr E. unfold join_view1 in V'. rewrite E in V'. cbn [bind] in V'.
    destruct (om_join_v L enc b q1 (Jmv1 L capS cap nL nR kb enc a b q1 rd)) as [tr'| | |]; try discriminate V'. exists tr'. split; [reflexivity|]. cbn [bind] in V'. apply Ok_inj' in V'. unfold view.
    apply pair_equal_spec in V'. destruct V' as [V' V4]. apply pair_equal_spec in V'. destruct V' as [V' V3]. apply pair_equal_spec in V'. destruct V' as [V1 _]. rewrite V1, V3, V4. reflexivity. }
  pose proof (same_sizes HQ HQ' HS) as HS'. destruct (same_width HQ HQ') as [_ Ew].
  assert (HL' : lib_ok (jw kb q0') lb) by (rewrite Ew; exact HL). assert (HV' : levels_fit lb (jw kb q0') (key_bits kb nL nR) jl) by (rewrite Ew; exact HV).
  refine (paired_map (g := fun v => (fst (fst (fst v)), snd (fst (fst v)), snd v, snd (fst v))) _ _ _ (@side_paired L capS cap nL nR kb enc HE lb jl false me ot rd0 _ view same_run1 _ _ Hs q0 q1 q0' q1 _ _ (MV q0 q0' HS HQ HQ' HL HV) (MV q0' q0 HS' HQ' HQ HL' HV'))).
  - intros r. reflexivity.
  - intros r v E. cbn [fst snd] in E. destruct (om_join_run lb L enc q0 q1 (fst r) jl (both false me (side_with ot (snd r)))) as [y| | |]; try discriminate E. cbn [bind] in E |- *. apply Ok_inj' in E. subst v. reflexivity.
  - intros r v E. cbn [fst snd] in E. destruct (om_join_run lb L enc q0' q1 (fst r) jl (both false me (side_with ot (snd r)))) as [y| | |]; try discriminate E. cbn [bind] in E |- *. apply Ok_inj' in E. subst v. reflexivity.
  - intros t t' E. unfold view in E. apply (f_equal (fun v => snd (fst v))) in E. cbn [fst snd] in E. unfold chain_see1 in E. cbn [own].
    split; [exact (f_equal (fun v => snd (fst (fst (fst (fst (fst v)))))) E)|]. split; [exact (f_equal (fun v => snd (fst (fst (fst (fst v))))) E)|]. split; [exact (f_equal (fun v => snd (fst (fst (fst v)))) E)|exact (f_equal (fun v => snd (fst (fst v))) E)].
  - intros x y z [A B] [C D]. split; [apply (same_sort1_trans A C)|congruence].
Qed.
Print Assumptions C75_party1.

(* The same run with the messages of validate, which the code sends (OmJoin.cpp:546): party 1 reads all keys. *)
Theorem C75_party1_reads_keys L capS cap nL nR kb enc lb q0 q1 rd jl jt : enc_ok enc kb nL nR -> join_sizes L capS cap nL nR kb q0 -> queries_ok nL nR kb q0 q1 ->
  run_fits L (key_bits kb nL nR) (nL + nR) capS cap rd -> lib_ok (om_width q0 + div_ceil kb 8) lb -> levels_fit lb (om_width q0 + div_ceil kb 8) (key_bits kb nL nR) jl -> tapes_fit (nL + nR) jl jt ->
  exists y, om_join_run lb L enc q0 q1 rd jl jt = Ok y /\
    read1 (nL + nR) (om_width q0 + div_ceil kb 8) cap (om_width q0) (div_ceil (key_bits kb nL nR) 8) (own_keys enc kb nL nR q1)
      (sort_see1 (jtSort (fst y)), Some (snd (jtVal (fst y))), chain_see1 (jtChain (fst y)), snd (jtOut (fst y))) = all_keys enc kb nL nR q0 q1.
Proof.
  intros HE HS HQ HF HL HV HT. destruct (C74_run HE HS HQ HF HL HV HT) as (m & tr & msgs & F & E & ER). exists (tr, msgs). split; [exact ER|]. cbn [fst].
  destruct (C70_party1_reads_keys HE HS HQ F) as (v & V & RV). unfold join_view1 in V. rewrite E in V. cbn [bind] in V. apply Ok_inj' in V. subst v. exact RV.
Qed.
Print Assumptions C75_party1_reads_keys.

(* and party 0 reads them in the order of party 1's permutation *)
Theorem C75_party0_reads_keys L capS cap nL nR kb enc lb q0 q1 rd jl jt : enc_ok enc kb nL nR -> join_sizes L capS cap nL nR kb q0 -> queries_ok nL nR kb q0 q1 ->
  run_fits L (key_bits kb nL nR) (nL + nR) capS cap rd -> lib_ok (om_width q0 + div_ceil kb 8) lb -> levels_fit lb (om_width q0 + div_ceil kb 8) (key_bits kb nL nR) jl -> tapes_fit (nL + nR) jl jt ->
  exists y, om_join_run lb L enc q0 q1 rd jl jt = Ok y /\
    Permutation (read0 (nL + nR) (om_width q0 + div_ceil kb 8) cap (om_width q0) (div_ceil (key_bits kb nL nR) 8) (dat (crA (cpR (fst (snd rd)))))
      (sort_see0 (jtSort (fst y)), Some (fst (jtVal (fst y))), chain_see0 (jtChain (fst y)), fst (jtOut (fst y)))) (all_keys enc kb nL nR q0 q1).
Proof.
  intros HE HS HQ HF HL HV HT. destruct (C74_run HE HS HQ HF HL HV HT) as (m & tr & msgs & F & E & ER). exists (tr, msgs). split; [exact ER|]. cbn [fst].
  destruct (C70_party0_reads_keys HE HS HQ F) as (v & V & RV). unfold join_view0 in V. rewrite E in V. cbn [bind] in V. apply Ok_inj' in V. subst v. exact RV.
Qed.
Print Assumptions C75_party0_reads_keys.

(* The join of C74_ex; the party that looks has exactly the correlations that its circuits use. *)
Definition jm_tape (k : nat) (past : bool) (s u : triple) : tape := Tape v_junk v_junk (fun _ _ _ => past) (fun _ _ _ => false) [flat_map (fun _ => [s; u]) (seq 0 k)].
Definition jm_side (past : bool) (s u : triple) : side :=
  let t k := jm_tape k past s u in Sd (t 1) [t 25; t 25] [t 24; t 24] (t 48) (t 1).
Definition jm_0 : side := jm_side true (5, 1)%N (3, 2)%N.
Definition jm_1 : side := jm_side false (6, 5)%N (1, 3)%N.
Definition jm_cors (s : side) : cors := ((tpCor (sdC s), ((map tpCor (sdU s), map tpCor (sdD s)), tpCor (sdL s))), tpCor (sdF s)).
Definition jm_q1 := jr_q 200 4 3 0.   Definition jm_q0 := jr_q 14 0 7 5.
Lemma jm_queries a b : a = jr_q0 \/ a = jm_q0 -> b = jr_q1 \/ b = jm_q1 -> queries_ok 1 2 3 a b.
Proof.
  intros Ha Hb. assert (Q : forall x, x = jr_q0 \/ x = jm_q0 \/ x = jr_q1 \/ x = jm_q1 -> query_ok 1 2 3 x).
  { intros x [->|[->|[->| ->]]]; (split; [col_ok|]; split; [col_ok|]; split; [reflexivity|]; split; [reflexivity|]; constructor; [col_ok|]; constructor; [col_ok|constructor]). }
  split; [apply Q; tauto|]. split; [apply Q; tauto|]. destruct Ha as [->| ->], Hb as [->| ->]; repeat constructor.
Qed.
Lemma jm_len k s u : length (flat_map (fun _ : nat => [s; u] : list triple) (seq 0 k)) = 2 * k.
Proof. rewrite <- (seq_length k 0) at 2. induction (seq 0 k) as [|i l IH]; [reflexivity|]. cbn [flat_map app length]. rewrite IH. lia. Qed.
Lemma jm_looks n lvs k p p' s u s' u' : block128 (fst s) -> block128 (snd s) -> block128 (fst u) -> block128 (snd u) -> demand ((n + 127) / 128) lvs = 2 * k -> looks n lvs (jm_tape k p s u) (jm_tape k p' s' u').
Proof.
  intros B1 B2 B3 B4 D. split; [split; exact v_junk_ok|]. split; [split; exact v_junk_ok|]. unfold jm_tape. cbn [tpCor]. split; [|split].
  - constructor; [|constructor]. induction (seq 0 k) as [|i l IH]; [constructor|]. constructor; [split; assumption|]. constructor; [split; assumption|exact IH].
  - constructor; [|constructor]. rewrite jm_len. apply Nat.even_spec. exists k. reflexivity.
  - cbn [concat]. rewrite app_nil_r, jm_len. exact D.
Qed.
Lemma jm_side_looks p p' s u s' u' : block128 (fst s) -> block128 (snd s) -> block128 (fst u) -> block128 (snd u) -> side_looks 3 jr_jl (jm_side p s u) (jm_side p' s' u').
Proof.
  intros B1 B2 B3 B4. do 4 (split; [intros i r j; reflexivity|]). split; [apply jm_looks; try assumption; vm_compute; reflexivity|]. split; [apply jm_looks; try assumption; vm_compute; reflexivity|].
  destruct (tree_sizes 3) as [sh| | |] eqn:E; [|vm_compute in E; discriminate E..]. exists sh. split; [reflexivity|].
  vm_compute in E. assert (ES : sh = Shape 3 4 true 0 [4; 2; 1]) by congruence. subst sh. unfold tapes_for. cbv zeta. cbn [sSizes sN16 length jm_side sdU sdD sdL].
  do 4 (split; [reflexivity|]).
  split; [|split; [|apply jm_looks; try assumption; vm_compute; reflexivity]];
    (intros [|[|l]] a b; cbn [nth_error]; [intros Ea Eb|intros Ea Eb|destruct l; discriminate]; injection Ea as <-; injection Eb as <-; apply jm_looks; try assumption; vm_compute; reflexivity).
Qed.
Lemma jm_fits p p' s u s' u' : triples_for [[s; u]] [[s'; u']] -> side_fits (jm_side p s u) (jm_cors (jm_side p' s' u')).
Proof.
  intros T. assert (K : forall k, triples_for (tpCor (jm_tape k p s u)) (tpCor (jm_tape k p' s' u'))).
  { intros k. destruct T as [T1 T2]. unfold ole_segs, blocks_segs in *. inversion T1 as [|? ? ? ? Q _]; subst. inversion T2 as [|? ? Q' _]; subst. inversion Q as [|? ? ? ? Qa Qb]; subst. inversion Qb as [|? ? ? ? Qc _]; subst. inversion Q' as [|? ? Qd Qe]; subst. inversion Qe as [|? ? Qf _]; subst.
    split; (constructor; [|constructor]); cbn [tpCor jm_tape]; (induction (seq 0 k) as [|i l IH]; [constructor|]); cbn [flat_map app]; (constructor; [assumption|]); (constructor; [assumption|exact IH]). }
  split; [apply K|]. split; [|apply K]. split; [|split; [|apply K]]; (constructor; [apply K|]; constructor; [apply K|constructor]).
Qed.
Definition jm_x (o : side) := ((jrSort jp_rd, jrPerm jp_rd), jm_cors o).
(* party 0's share of the sorted rows, and what party 1 receives in the round of the control bits that has a gate to multiply *)
Definition jm_got (q0 q1 : om_query) : outcome (list (list N) * list (list N)) :=
  do y <- om_join_run jr_lib 2 (fun x => x) q0 q1 (jrSort jp_rd, jrPerm jp_rd) jr_jl (both true jm_0 (side_with jm_1 (jm_cors jm_1))); Ok (fst (ctZ (jtChain (fst y))), nth 3 (got false (fst (fst (snd y)))) []).
(* With the same randomness the other shares show, so the pairing is not the identity. *)
Example C75_ex : enc_ok (fun x => x) 3 1 2 /\ join_sizes 2 16 16 1 2 3 jr_q0 /\
  queries_ok 1 2 3 jr_q0 jr_q1 /\ queries_ok 1 2 3 jr_q0 jm_q1 /\ queries_ok 1 2 3 jm_q0 jr_q1 /\
  lib_ok (om_width jr_q0 + div_ceil 3 8) jr_lib /\ levels_fit jr_lib (om_width jr_q0 + div_ceil 3 8) (key_bits 3 1 2) jr_jl /\
  side_looks 3 jr_jl jm_0 jm_1 /\ side_looks 3 jr_jl jm_1 jm_0 /\
  (let x := jm_x jm_1 in run_fits 2 (key_bits 3 1 2) 3 16 16 (fst x) /\ same_run0 (fst x) (fst x) /\ side_fits jm_0 (snd x)) /\
  (let x := jm_x jm_0 in run_fits 2 (key_bits 3 1 2) 3 16 16 (fst x) /\ same_run1 (fst x) (fst x) /\ side_fits jm_1 (snd x)) /\
  all_keys (fun x => x) 3 1 2 jr_q0 jr_q1 = [[6]; [6]; [5]]%N /\ all_keys (fun x => x) 3 1 2 jr_q0 jm_q1 = [[1]; [2]; [2]]%N /\ all_keys (fun x => x) 3 1 2 jm_q0 jr_q1 = [[3]; [0]; [2]]%N /\
  jm_got jr_q0 jr_q1 = Ok ([[101; 103; 96]; [155; 166; 163]; [101; 103; 99]], [[1; 7]])%N /\
  jm_got jr_q0 jm_q1 = Ok ([[90; 166; 164]; [101; 103; 103]; [101; 103; 103]], [[1; 7]])%N /\
  jm_got jm_q0 jr_q1 = Ok ([[101; 103; 101]; [101; 103; 103]; [162; 166; 166]], [[6; 7]])%N.
Proof.
  destruct C74_ex as (A & B & C & D & E & F & _). split; [exact A|]. split; [exact B|]. split; [exact C|]. split; [apply jm_queries; tauto|]. split; [apply jm_queries; tauto|]. split; [exact E|]. split; [exact F|].
  split; [apply jm_side_looks; reflexivity|]. split; [apply jm_side_looks; reflexivity|].
  split; [split; [exact D|]; split; [split; [apply same_sort0_refl|reflexivity]|]; apply jm_fits; split; [|]; repeat constructor|].
  split; [split; [exact D|]; split; [split; [apply same_sort1_refl|reflexivity]|]; apply jm_fits; split; [|]; repeat constructor|].
  split; [vm_compute; reflexivity|]. split; [vm_compute; reflexivity|]. split; [vm_compute; reflexivity|].
  split; [vm_compute; reflexivity|]. split; vm_compute; reflexivity.
Qed.
