(* C34: Extract *)
From Verif Require Import Base Words PermModel PermSpec PermProofs PermCorModel PermCorSpec CompPermProofs PropsPermCor ShuffleModel ShuffleSpec TableModel TableSpec TableProofs OmJoinModel OmJoinSpec
  ExtractModel ExtractSpec ExtractProofs ExtractPrivacy.

(* The output is a sharing of the active rows, all columns in the same order, and the order is given
   by the permutation.  Nothing is assumed about the flags but that they are bytes: a row is active
   when the low bits of its shares differ. *)
Theorem C34_extract n c c0 c1 t0 t1 out0 out1 : 0 < n -> (N.of_nat c < 2 ^ 64)%N -> comp_rel n c c0 c1 -> comp_bytes c0 ->
  shared_table n t0 t1 -> bytes (tAct t0) -> bytes (tAct t1) -> out_fits t0 out0 -> out_fits t1 out1 ->
  csOff (cpS c0) + row_bytes t0 <= c -> csOff (cpS c1) + row_bytes t0 <= c ->
  exists o0 o1 f0 f1 q, ex_tables c0 c1 n t0 t1 out0 out1 = Ok ((o0, f0), (o1, f1)) /\
    Permutation q (active_rows n t0 t1) /\ q = filter (is_active t0 t1) (comp_perm c0 c1) /\
    plain_shares (length (active_rows n t0 t1)) o0 o1 (picked q t0 t1) /\
    map2 xorb f0 f1 = opened c0 c1 t0 t1.
Proof.
  intros Hn Hc HR (_ & _ & HB) HT B0 B1 F0 F1 O0 O1. destruct (ex_tables_ok Hn Hc HR HB HT B0 B1 F0 F1 O0 O1) as (o0 & o1 & f0 & f1 & E & HS & EF0 & EF1).
  pose proof (q_perm (is_active t0 t1) HR) as HP. exists o0, o1, f0, f1, (filter (is_active t0 t1) (comp_perm c0 c1)). split; [exact E|]. split; [exact HP|]. split; [reflexivity|].
  unfold active_rows. rewrite <- (Permutation_length HP). split; [exact HS|]. subst f1.
  assert (L : length f0 = length (opened c0 c1 t0 t1)).
  { subst f0. unfold opened. rewrite !map_length, seq_length. destruct HR as (_ & _ & H0 & H1). symmetry. exact (is_perm_length (map_nth_perm (proj1 H0) (proj1 H1))). }
  unfold opened in L |- *. revert L. generalize (map (is_active t0 t1) (comp_perm c0 c1)) as l. clear. induction f0 as [|x f0 IH]; intros [|y l] L; try discriminate L; [reflexivity|].
  cbn [map2]. rewrite IH by (injection L; auto). rewrite <- xorb_assoc, xorb_nilpotent, xorb_false_l. reflexivity.
Qed.
Print Assumptions C34_extract.

(* revealed: the columns restricted to the active rows, in some order *)
Theorem C34_reveal n c c0 c1 t0 t1 out0 out1 o0 o1 f0 f1 : 0 < n -> (N.of_nat c < 2 ^ 64)%N -> comp_rel n c c0 c1 -> comp_bytes c0 ->
  shared_table n t0 t1 -> tCols t0 <> [] -> NoDup (map cName (tCols t0)) -> bytes (tAct t0) -> bytes (tAct t1) -> out_fits t0 out0 -> out_fits t1 out1 ->
  csOff (cpS c0) + row_bytes t0 <= c -> csOff (cpS c1) + row_bytes t0 <= c ->
  ex_tables c0 c1 n t0 t1 out0 out1 = Ok ((o0, f0), (o1, f1)) ->
  exists q, Permutation q (active_rows n t0 t1) /\ t_reveal o0 o1 false = Ok (Tab (repeat 1%N (length q)) (picked q t0 t1)).
Proof.
  intros Hn Hc HR HB HT Hne ND B0 B1 F0 F1 O0 O1 EQ.
  destruct (C34_extract Hn Hc HR HB HT B0 B1 F0 F1 O0 O1) as (o0' & o1' & f0' & f1' & q & E & HP & _ & (D0 & D1 & DI & A0 & A1 & DX) & _).
  rewrite EQ in E. injection E as <- <- <- <-. exists q. split; [exact HP|]. rewrite <- (Permutation_length HP) in *.
  destruct HT as (C0 & C1 & CI & _).
  assert (EN : map cName (tCols o0) = map cName (tCols t0)).
  { apply (f_equal (map cName)) in DX. clear - DX DI CI. unfold picked in DX. replace (map cName (tCols o0)) with (map cName (map2 xor_col (tCols o0) (tCols o1))).
    - rewrite DX. clear DX. induction CI as [|a b l l' H CI IH]; [reflexivity|]. cbn [map map2]. rewrite IH. reflexivity.
    - clear DX. induction DI as [|a b l l' H DI IH]; [reflexivity|]. cbn [map map2]. rewrite IH. reflexivity. }
  assert (TR : forall t, Forall (col_ok (length q)) (tCols t) -> tCols t <> [] -> tAct t = [] -> t_ok (length q) t).
  { intros t HC HN HA. split; [|split; [exact HC|left; exact HA]]. unfold t_rows. destruct (tCols t) as [|x l]; [contradiction|]. apply Forall_cons_iff in HC. apply HC. }
  assert (N0 : tCols o0 <> []) by (intros K; rewrite K in EN; destruct (tCols t0); [apply Hne; reflexivity|discriminate EN]).
  assert (N1 : tCols o1 <> []) by (intros K; rewrite K in DI; inversion DI; congruence).
  rewrite (@t_reveal_ok (length q) o0 o1 false).
  - rewrite A0, A1. cbn [map2 flags_of]. rewrite <- DX. do 2 f_equal.
  - apply TR; assumption.
  - apply TR; assumption.
  - exact DI.
  - rewrite EN. exact ND.
  - rewrite A0, A1. reflexivity.
  - discriminate.
Qed.
Print Assumptions C34_reveal.

(* Nothing else is revealed, party 0: let it have run with party 1's table t1 and correlations c1, and
   let t1' and p1' be any other table and permutation of party 1 for which the same flags are opened.
   Party 0 receives the same with t1', p1' and suitable masks, and these masks are unique: with
   uniform masks what it receives has the same distribution. *)
Theorem C34_private_0 n c c0 c1 t0 t1 t1' p1' : 0 < n -> (N.of_nat c < 2 ^ 64)%N -> comp_rel n c c0 c1 -> comp_bytes c0 -> comp_bytes c1 ->
  shared_table n t0 t1 -> shared_table n t0 t1' -> bytes (tAct t0) -> bytes (tAct t1) -> bytes (tAct t1') ->
  csOff (cpS c0) + row_bytes t0 <= c -> csOff (cpS c1) + row_bytes t0 <= c -> is_perm n p1' ->
  map (fun i => is_active t0 t1' (nth i (csPerm (cpS c0)) 0)) p1' = opened c0 c1 t0 t1 ->
  exists c1', csPerm (cpS c1') = p1' /\ comp_rel n c c0 c1' /\ comp_bytes c1' /\ ex_view0 c0 c1' n t0 t1' = ex_view0 c0 c1 n t0 t1.
Proof. apply private0. Qed.
Theorem C34_private_0_unique n c c0 c1 c1' t0 t1 m1 m2 m2' : 0 < n -> (N.of_nat c < 2 ^ 64)%N -> comp_rel n c c0 c1 -> comp_rel n c c0 c1' ->
  shared_table n t0 t1 -> bytes (tAct t0) -> bytes (tAct t1) ->
  csOff (cpS c0) + row_bytes t0 <= c -> csOff (cpS c1) + row_bytes t0 <= c ->
  ex_msgs c0 c1 t0 t1 = Ok (m1, m2) -> ex_msgs c0 c1' t0 t1 = Ok (m1, m2') -> same_window n c (row_bytes t0) (cpR c1) (cpR c1').
Proof. intros Hn Hc HR HR' HT B0 B1 O0 O1 E E'. apply (private0_unique Hn Hc HR HR' HT B0 B1 O0 O1 E E' eq_refl). Qed.
(* party 1 *)
Theorem C34_private_1 n c c0 c1 t0 t1 t0' p0' : 0 < n -> (N.of_nat c < 2 ^ 64)%N -> comp_rel n c c0 c1 -> comp_bytes c0 -> comp_bytes c1 ->
  shared_table n t0 t1 -> shared_table n t0' t1 -> bytes (tAct t0) -> bytes (tAct t1) -> bytes (tAct t0') ->
  csOff (cpS c0) + row_bytes t0 <= c -> csOff (cpS c1) + row_bytes t0 <= c -> is_perm n p0' ->
  map (fun i => is_active t0' t1 (nth i p0' 0)) (csPerm (cpS c1)) = opened c0 c1 t0 t1 ->
  exists c0', csPerm (cpS c0') = p0' /\ comp_rel n c c0' c1 /\ comp_bytes c0' /\ ex_view1 c0' c1 n t0' t1 = ex_view1 c0 c1 n t0 t1.
Proof. apply private1. Qed.
Theorem C34_private_1_unique n c c0 c0' c1 t0 t1 m1 m1' m2 : 0 < n -> (N.of_nat c < 2 ^ 64)%N -> comp_rel n c c0 c1 -> comp_rel n c c0' c1 -> csPerm (cpS c0') = csPerm (cpS c0) ->
  shared_table n t0 t1 -> bytes (tAct t0) -> bytes (tAct t1) ->
  csOff (cpS c0) + row_bytes t0 <= c -> csOff (cpS c1) + row_bytes t0 <= c ->
  ex_msgs c0 c1 t0 t1 = Ok (m1, m2) -> ex_msgs c0' c1 t0 t1 = Ok (m1', m2) -> same_window n c (row_bytes t0) (cpR c0) (cpR c0').
Proof. intros Hn Hc HR HR' EP HT B0 B1 O0 O1 E E'. apply (private1_unique Hn Hc HR HR' EP HT B0 B1 O0 O1 E E' eq_refl). Qed.
Print Assumptions C34_private_0.
Print Assumptions C34_private_0_unique.
Print Assumptions C34_private_1.
Print Assumptions C34_private_1_unique.

(* a table without flags is rejected *)
Theorem C34_no_flags c0 c1 n t0 t1 out0 out1 : length (tAct t0) <> n -> ex_tables c0 c1 n t0 t1 out0 out1 = Throw.
Proof. intros H. unfold ex_tables. rewrite (proj2 (Nat.eqb_neq _ _) H). reflexivity. Qed.
(* too few bytes in the correlation: an exception *)
Theorem C34_exhausted n c c0 c1 t0 t1 out0 out1 : (N.of_nat c < 2 ^ 64)%N -> comp_rel n c c0 c1 -> shared_table n t0 t1 ->
  csOff (cpS c0) <= c -> csOff (cpS c1) <= c -> c < csOff (cpS c0) + row_bytes t0 -> ex_tables c0 c1 n t0 t1 out0 out1 = Throw.
Proof. apply ex_tables_exhausted. Qed.
Print Assumptions C34_no_flags.
Print Assumptions C34_exhausted.

(* the bytes init(rows, colInfos) asks for lack the flag *)
Theorem C34_asked n t : Forall (col_ok n) (tCols t) -> row_bytes t = 1 + ex_asked (tCols t).
Proof.
  intros H. unfold row_bytes, ex_asked. induction H as [|c l ((_ & Ec) & _ & Eb & _) H IH]; [reflexivity|]. cbn [fold_right]. rewrite IH, Ec. unfold byte_count. rewrite Eb. lia.
Qed.
(* the rounding to whole blocks makes up for it unless the columns fill the blocks *)
Theorem C34_init_enough n t : Forall (col_ok n) (tCols t) -> (row_bytes t <= ex_capacity (ex_asked (tCols t)) <-> ex_asked (tCols t) mod 16 <> 0).
Proof. intros H. rewrite (C34_asked H). unfold ex_capacity. generalize (ex_asked (tCols t)) as k. intros k. pose proof (Nat.div_mod_eq k 16). pose proof (Nat.div_mod_eq (k + 15) 16). pose proof (Nat.mod_upper_bound k 16). pose proof (Nat.mod_upper_bound (k + 15) 16). lia. Qed.
(* finding: with columns of 16, 32, ... bytes in all, Extract set up with the column infos always throws *)
Theorem C34_init_refuted n c0 c1 t0 t1 out0 out1 : shared_table n t0 t1 -> ex_asked (tCols t0) mod 16 = 0 ->
  (N.of_nat (ex_capacity (ex_asked (tCols t0))) < 2 ^ 64)%N ->
  comp_rel n (ex_capacity (ex_asked (tCols t0))) c0 c1 -> csOff (cpS c0) = 0 -> csOff (cpS c1) = 0 -> ex_tables c0 c1 n t0 t1 out0 out1 = Throw.
Proof.
  intros HT HM Hc HR O0 O1. apply (ex_tables_exhausted _ _ Hc HR HT); [lia|lia|]. rewrite O0. destruct HT as (C0 & _). pose proof (C34_init_enough C0) as H.
  assert (~ row_bytes t0 <= ex_capacity (ex_asked (tCols t0))) by (rewrite H; lia). lia.
Qed.
Print Assumptions C34_asked.
Print Assumptions C34_init_enough.
Print Assumptions C34_init_refuted.

(* ---------------- examples ---------------- *)
Ltac col_ok := repeat first [ split | intros; discriminate | reflexivity | constructor | intro ].
Definition xcol (nm : list N) (bits : nat) (rows : list (list N)) : column := Col nm 0 bits (BM bits (div_ceil bits 8) rows).
(* shares of: flags 1 0 1; columns a (9 bits) and b (8 bits) *)
Definition ex_t0 : table := Tab [1; 1; 0]%N [xcol [97]%N 9 [[1; 0]; [2; 1]; [3; 0]]%N; xcol [98]%N 8 [[7]; [7]; [7]]%N].
Definition ex_t1 : table := Tab [0; 1; 1]%N [xcol [97]%N 9 [[16; 1]; [0; 0]; [64; 0]]%N; xcol [98]%N 8 [[0]; [1]; [2]]%N].
Lemma ex_comp_rel : comp_rel 3 16 ex_c0 ex_c1 /\ comp_perm ex_c0 ex_c1 = [1; 2; 0] /\ csOff (cpS ex_c0) = 0 /\ csOff (cpS ex_c1) = 0.
Proof.
  destruct (@C07_genPerm 3 16 [1; 2; 0] [0; 2; 1] (map N.of_nat (seq 1 48)) (map N.of_nat (seq 100 48)) (map N.of_nat (seq 50 48)) (map N.of_nat (seq 200 48))) as (a & b & E & H);
    try reflexivity; [apply (perm_validate_iff [1; 2; 0]); reflexivity|apply (perm_validate_iff [0; 2; 1]); reflexivity|].
  unfold ex_c0, ex_c1, ex_pair. rewrite E. exact H.
Qed.
Lemma ex_bytes0 : comp_bytes ex_c0 /\ comp_bytes ex_c1.
Proof.
  assert (H : forall l, forallb (fun x => (x <? 256)%N) l = true -> bytes l).
  { intros l Hl. apply Forall_forall. intros x Hx. apply N.ltb_lt. rewrite forallb_forall in Hl. apply Hl, Hx. }
  repeat split; apply H; vm_compute; reflexivity.
Qed.
Lemma ex_shared : shared_table 3 ex_t0 ex_t1.
Proof. unfold shared_table. col_ok. Qed.
(* rows 2 and 0 are active; in the order 1, 2, 0 of the permutation the flags are 0 1 1 *)
Example C34_ex : comp_rel 3 16 ex_c0 ex_c1 /\ comp_bytes ex_c0 /\ shared_table 3 ex_t0 ex_t1 /\ bytes (tAct ex_t0) /\ bytes (tAct ex_t1) /\ row_bytes ex_t0 <= 16 /\
  (do r <- ex_tables ex_c0 ex_c1 3 ex_t0 ex_t1 ex_t0 ex_t1; do t <- t_reveal (fst (fst r)) (fst (snd r)) false; Ok (t, map2 xorb (snd (fst r)) (snd (snd r)))) =
  Ok (Tab [1; 1]%N [xcol [97]%N 9 [[67; 0]; [17; 1]]%N; xcol [98]%N 8 [[5]; [7]]%N], [false; true; true]).
Proof.
  split; [apply ex_comp_rel|]. split; [apply ex_bytes0|]. split; [apply ex_shared|]. split; [repeat constructor|]. split; [repeat constructor|]. split; [cbn; lia|]. vm_compute. reflexivity.
Qed.
(* another table of party 1 and another permutation with the same opened flags *)
Definition ex_t1' : table := Tab [1; 1; 1]%N [xcol [97]%N 9 [[16; 1]; [9; 1]; [64; 0]]%N; xcol [98]%N 8 [[0]; [99]; [200]]%N].
Example C34_private_ex : csPerm (cpS ex_c0) = [0; 2; 1] /\ csPerm (cpS ex_c1) = [2; 1; 0] /\ shared_table 3 ex_t0 ex_t1' /\
  map (fun i => is_active ex_t0 ex_t1' (nth i (csPerm (cpS ex_c0)) 0)) [2; 1; 0] <> opened ex_c0 ex_c1 ex_t0 ex_t1 /\
  shared_table 3 ex_t0 (Tab [1; 0; 0]%N (tCols ex_t1')) /\
  map (fun i => is_active ex_t0 (Tab [1; 0; 0]%N (tCols ex_t1')) (nth i (csPerm (cpS ex_c0)) 0)) [0; 1; 2] <> opened ex_c0 ex_c1 ex_t0 ex_t1 /\
  shared_table 3 ex_t0 (Tab [0; 0; 0]%N (tCols ex_t1')) /\
  map (fun i => is_active ex_t0 (Tab [0; 0; 0]%N (tCols ex_t1')) (nth i (csPerm (cpS ex_c0)) 0)) [1; 2; 0] = opened ex_c0 ex_c1 ex_t0 ex_t1.
Proof.
  split; [vm_compute; reflexivity|]. split; [vm_compute; reflexivity|]. split; [unfold shared_table; col_ok|]. split; [vm_compute; discriminate|].
  split; [unfold shared_table; col_ok|]. split; [vm_compute; discriminate|]. split; [unfold shared_table; col_ok|]. vm_compute. reflexivity.
Qed.
(* a column of 16 bytes *)
Definition ex_w0 : table := Tab [1]%N [xcol [97]%N 128 [repeat 3%N 16]].
Example C34_init_ex : shared_table 1 ex_w0 ex_w0 /\ ex_asked (tCols ex_w0) mod 16 = 0 /\ ex_capacity (ex_asked (tCols ex_w0)) = 16 /\ row_bytes ex_w0 = 17 /\
  ex_capacity (ex_asked (tCols ex_t0)) = 16 /\ row_bytes ex_t0 = 4.
Proof. split; [unfold shared_table; col_ok|]. repeat split. Qed.
