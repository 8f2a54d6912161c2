(* C16, C17, C18: the plaintext join, average and where *)
From Coq Require Import Sorted.
From Verif Require Import Base PermModel PermSpec PermProofs KeyMultModel BitInjProofs ShuffleModel ShuffleSpec ShuffleSpanProofs RadixModel RadixSpec TableModel TableSpec TableProofs TableSortProofs
  TableOpsModel TableOpsSpec JoinProofs AverageProofs.

(* ================= C16 ================= *)
(* The result has one row per right row, in the stable order of the right keys.  A row is active iff
   its key is a left key; it then holds the selected columns of the right row and of the (first) left
   row with that key, and zeros otherwise. *)
(* Missing from C16: the rejection of every repeated left key, which is false (C16_repeated_refuted). *)
Theorem C16_join_partial lt l rt r select nl nr : col_ok nl l -> col_ok nr r -> cBits l = cBits r ->
  Forall (fun s => (fst s = rt /\ col_ok nr (snd s)) \/ (fst s <> rt /\ fst s = lt /\ col_ok nl (snd s))) select ->
  NoDup (map (fun s => cName (snd s)) select) -> ~ low_duplicate nl nr l r ->
  exists p, order_of nr r p /\
    t_join lt l rt r select = Ok (Tab (map (join_flag l r) p) (map (fun s => with_rows (snd s) (map (join_row l r rt s) p)) select)).
Proof. intros CL CR EB HS ND LD. exists (col_sort r). split; [now apply order_eq|]. now apply t_join_ok with nl nr. Qed.
(* distinct left keys always qualify, and then the matching left row is the only one *)
Theorem C16_distinct nl nr l r : col_ok nl l -> NoDup (bRows (cDat l)) -> ~ low_duplicate nl nr l r.
Proof.
  intros CL ND [j [j' [i [Hj [Hj' [NE [_ [E _]]]]]]]]. pose proof (proj1 (col_rows_ok CL)) as LL. apply NE. apply (proj1 (NoDup_nth (bRows (cDat l)) []) ND); try lia. exact E.
Qed.
Theorem C16_match nl l x : col_ok nl l -> NoDup (bRows (cDat l)) ->
  (forall j, first_eq (bRows (cDat l)) x = Some j <-> j < nl /\ key l j = x) /\ (first_eq (bRows (cDat l)) x = None <-> forall j, j < nl -> key l j <> x).
Proof.
  intros CL ND. pose proof (proj1 (col_rows_ok CL)) as LL. split.
  - intro j. rewrite first_eq_some, LL. unfold key. split; [tauto|]. intros [H E]. split; [easy|]. split; [easy|]. intros i Hi E'. assert (i = j); [|lia]. apply (proj1 (NoDup_nth (bRows (cDat l)) []) ND); try lia. congruence.
  - rewrite first_eq_none. unfold key. split.
    + intros H j Hj E. apply H. rewrite <- E. apply nth_In. lia.
    + intros H I. apply In_nth with (d := []) in I. destruct I as [j [Hj E]]. apply (H j); [lia|easy].
Qed.
(* a repeated left key is rejected when it is below some right key *)
Theorem C16_rejects lt l rt r select nl nr : col_ok nl l -> col_ok nr r -> cBits l = cBits r -> low_duplicate nl nr l r -> t_join lt l rt r select = Throw.
Proof. apply t_join_dup. Qed.
Theorem C16_widths lt l rt r select : cBits l <> cBits r -> t_join lt l rt r select = Throw.
Proof. intro H. unfold t_join. apply Nat.eqb_neq in H. now rewrite H. Qed.
Theorem C16_stranger lt l rt r select nl nr : col_ok nl l -> col_ok nr r -> cBits l = cBits r -> (exists s, In s select /\ fst s <> lt /\ fst s <> rt) -> t_join lt l rt r select = Throw.
Proof. apply t_join_stranger. Qed.
Theorem C16_names lt l rt r select nl nr : col_ok nl l -> col_ok nr r -> cBits l = cBits r -> ~ NoDup (map (fun s => cName (snd s)) select) -> t_join lt l rt r select = Throw.
Proof. apply t_join_names. Qed.
Print Assumptions C16_join_partial.
Print Assumptions C16_distinct.
Print Assumptions C16_match.
Print Assumptions C16_rejects.
Print Assumptions C16_widths.
Print Assumptions C16_stranger.
Print Assumptions C16_names.

Definition ex_col (name : N) (bits : nat) (rows : list (list N)) : column := Col [name] 0 bits (BM bits (div_ceil bits 8) rows).
Ltac col_ok := split; [split; [split; [reflexivity|repeat constructor]|reflexivity]|split; [reflexivity|split; [reflexivity|split; [cbn; lia|discriminate]]]].
Definition ex_l := ex_col 1 8 [[7]; [3]; [9]]%N.
Definition ex_r := ex_col 2 8 [[9]; [3]; [4]; [3]]%N.
Definition ex_s : list (nat * column) := [(0, ex_col 3 16 [[70; 1]; [30; 1]; [90; 1]]%N); (1, ex_r)].
Example C16_ex_l : col_ok 3 ex_l. Proof. col_ok. Qed.
Example C16_ex_r : col_ok 4 ex_r. Proof. col_ok. Qed.
Example C16_ex_hyp : ~ low_duplicate 3 4 ex_l ex_r /\ NoDup (map (fun s => cName (snd s)) ex_s) /\
  Forall (fun s => (fst s = 1 /\ col_ok 4 (snd s)) \/ (fst s <> 1 /\ fst s = 0 /\ col_ok 3 (snd s))) ex_s.
Proof.
  split; [apply C16_distinct; [apply C16_ex_l|]|split].
  - repeat constructor; cbn; intuition discriminate.
  - repeat constructor; cbn; intuition discriminate.
  - constructor; [|constructor; [|constructor]]; cbn [fst snd].
    + right. split; [discriminate|]. split; [easy|col_ok].
    + left. split; [easy|apply C16_ex_r].
Qed.
Example C16_ex_run : t_join 0 ex_l 1 ex_r ex_s =
  Ok (Tab [1; 1; 0; 1]%N [ex_col 3 16 [[30; 1]; [30; 1]; [0; 0]; [90; 1]]; ex_col 2 8 [[3]; [3]; [0]; [9]]]%N).
Proof. vm_compute. reflexivity. Qed.
Definition ex_dup := ex_col 1 8 [[3]; [3]; [9]]%N.
Example C16_ex_dup : low_duplicate 3 4 ex_dup ex_r /\ t_join 0 ex_dup 1 ex_r ex_s = Throw.
Proof. split; [exists 0, 1, 0; repeat split; (cbn; lia) || discriminate|vm_compute; reflexivity]. Qed.
Example C16_ex_stranger : t_join 0 ex_l 1 ex_r ((2, ex_r) :: ex_s) = Throw /\ t_join 0 ex_l 1 ex_r (ex_s ++ ex_s) = Throw /\ t_join 0 (ex_col 1 9 []) 1 ex_r ex_s = Throw.
Proof. repeat split; vm_compute; reflexivity. Qed.
(* other repeated left keys go through: two equal left keys which are the largest of all *)
Theorem C16_repeated_refuted : ~ (forall lt l rt r select nl nr, col_ok nl l -> col_ok nr r -> cBits l = cBits r -> ~ NoDup (bRows (cDat l)) -> t_join lt l rt r select = Throw).
Proof.
  intro H. specialize (H 0 (ex_col 1 8 [[5]; [5]]%N) 1 (ex_col 2 8 [[5]]%N) [(1, ex_col 2 8 [[5]]%N)] 2 1).
  assert (E : t_join 0 (ex_col 1 8 [[5]; [5]]%N) 1 (ex_col 2 8 [[5]]%N) [(1, ex_col 2 8 [[5]]%N)] = Ok (Tab [1]%N [ex_col 2 8 [[5]]%N])) by (vm_compute; reflexivity).
  rewrite E in H. discriminate H.
  - col_ok.
  - col_ok.
  - easy.
  - intro N. apply NoDup_cons_iff in N. apply (proj1 N). now left.
Qed.
Print Assumptions C16_repeated_refuted.

(* ================= C17 ================= *)
(* The exact result for every table: a row per key at the first row with it.  See avg_table: the flag
   of that row decides about the whole group, and all rows of the key are added and counted. *)
Theorem C17_average n src g avg gc avgs : t_ok n src -> NoDup (g :: avg) -> nth_error (tCols src) g = Some gc ->
  Forall2 (fun i a => nth_error (tCols src) i = Some a) avg avgs ->
  exists p, order_of n gc p /\ t_average src g avg = Ok (avg_table n (tAct src) gc avgs, left_behind p (g :: avg) src).
Proof.
  intros T ND EG EA. exists (col_sort gc). split; [|now apply t_average_ok]. apply order_eq. destruct T as [_ [C _]]. rewrite Forall_forall in C. apply C. eapply nth_error_In. exact EG.
Qed.
(* when every row is active and the widths are whole bytes it is the sum and the number of the rows *)
Definition sum_row (n : nat) (g a : column) (i : nat) : list N :=
  if is_leader g i then le_bytes (bCols (cDat a)) (total (fun j => le_num (key a j)) (group n g i)) else repeat 0%N (bCols (cDat a)).
Definition count_row (n : nat) (g : column) (i : nat) : list N :=
  if is_leader g i then le_bytes 8 (N.of_nat (length (group n g i))) else repeat 0%N 8.
Definition key_row (g : column) (i : nat) : list N := if is_leader g i then key g i else repeat 0%N (bCols (cDat g)).
(* The statement of C17 when every row is active and the summed widths are whole bytes.  Missing: inactive rows and other widths, for which it is false (C17_inactive_refuted, C17_lost_group_refuted, C17_shift_refuted). *)
Theorem C17_all_active_partial n src g avg gc avgs : t_ok n src -> NoDup (g :: avg) -> nth_error (tCols src) g = Some gc ->
  Forall2 (fun i a => nth_error (tCols src) i = Some a) avg avgs ->
  Forall (fun f => f = 1%N) (tAct src) -> Forall (fun a => cBits a mod 8 = 0) avgs ->
  exists src', t_average src g avg =
    Ok (Tab (map (fun i => if is_leader gc i then 1%N else 0%N) (seq 0 n))
          (byte_col (cName gc) (cType gc) (bCols (cDat gc)) (map (key_row gc) (seq 0 n))
           :: map (fun a => byte_col (cName a) (cType a) (bCols (cDat a)) (map (sum_row n gc a) (seq 0 n))) avgs
           ++ [byte_col count_name 0 8 (map (count_row n gc) (seq 0 n))]), src').
Proof.
  intros T ND EG EA HF HB. destruct (C17_average T ND EG EA) as [p [_ E]]. exists (left_behind p (g :: avg) src). rewrite E. do 2 f_equal. unfold avg_table.
  assert (FL : forall i, i < n -> flag_of (tAct src) i = 1%N).
  { intros i Hi. unfold flag_of. destruct T as [_ [_ [->|L]]]; [easy|]. destruct (tAct src) as [|x l] eqn:EQ; [easy|]. rewrite Forall_forall in HF. apply HF. apply nth_In. lia. }
  assert (AR : forall w v i, i < n -> avg_row (tAct src) gc w v i = if is_leader gc i then v i else repeat 0%N w).
  { intros w v i Hi. unfold avg_row. rewrite FL by easy. cbn [N.eqb Pos.eqb negb]. now rewrite andb_true_r. }
  f_equal; [|f_equal; [|f_equal]].
  - apply map_ext_in. intros i Hi. apply in_seq in Hi. now rewrite FL by lia.
  - f_equal. apply map_ext_in. intros i Hi. apply in_seq in Hi. rewrite AR by lia. easy.
  - apply map_ext_in. intros a Ha. unfold byte_col. do 2 f_equal. apply map_ext_in. intros i Hi. apply in_seq in Hi. rewrite AR by lia. unfold sum_row. destruct (is_leader gc i); [|easy]. f_equal.
    apply total_ext. intros j Hj. unfold addend. rewrite Forall_forall in HB. specialize (HB a Ha).
    assert (CA : col_ok n a).
    { destruct T as [_ [C _]]. rewrite Forall_forall in C. clear - C EA Ha. induction EA as [|k b l l' E _ IH]; [easy|]. destruct Ha as [->|Ha]; [|now apply IH]. apply C. eapply nth_error_In. exact E. }
    assert (EB : cBits a = bCols (cDat a) * 8).
    { destruct CA as [[_ A] [_ [B _]]]. rewrite A, <- B. unfold div_ceil. pose proof (Nat.div_mod (cBits a) 8 ltac:(lia)) as D. rewrite HB, Nat.add_0_r in D. rewrite D at 2. replace (8 * (cBits a / 8) + 8 - 1) with (7 + cBits a / 8 * 8) by lia. rewrite Nat.div_add by lia. change (7 / 8) with 0. lia. }
    rewrite EB, div_ceil_mul8, Nat.sub_diag. change (2 ^ N.of_nat 0)%N with 1%N. rewrite N.mul_1_r. apply N.mod_small.
    unfold group in Hj. apply filter_In in Hj. destruct Hj as [Hj _]. apply in_seq in Hj. destruct (@rows_nth _ _ _ j (col_rows_ok CA) ltac:(lia)) as [LJ BJ]. unfold key. rewrite RadixSortProofs.le_num_load by easy.
    replace (N.of_nat (bCols (cDat a) * 8)) with (8 * N.of_nat (bCols (cDat a)))%N by lia. apply load_lt; [easy|lia].
  - f_equal. unfold byte_col. do 2 f_equal. apply map_ext_in. intros i Hi. apply in_seq in Hi. rewrite AR by lia. easy.
Qed.
(* one active row per distinct key *)
Theorem C17_leader n c i : col_ok n c -> i < n -> (is_leader c i = true <-> forall j, j < i -> key c j <> key c i).
Proof.
  intros C Hi. unfold is_leader. pose proof (proj1 (col_rows_ok C)) as L. destruct (first_eq (bRows (cDat c)) (key c i)) as [j|] eqn:E.
  - apply first_eq_some in E. destruct E as [Hj [Ej Fj]]. rewrite Nat.eqb_eq. split; [intros <-; exact Fj|]. intro H. destruct (Nat.lt_trichotomy j i) as [X|[X|X]]; [|easy|].
    + exfalso. apply (H j X). exact Ej.
    + exfalso. apply (Fj i X). easy.
  - apply first_eq_none in E. exfalso. apply E. apply nth_In. lia.
Qed.
Print Assumptions C17_average.
Print Assumptions C17_all_active_partial.
Print Assumptions C17_leader.

Definition ex_t fl := Tab fl [ex_col 1 8 [[7]; [3]; [7]; [3]; [3]]; ex_col 2 16 [[1; 1]; [2; 0]; [255; 0]; [3; 0]; [255; 255]]]%N.
Lemma ex_t_ok fl : fl = [] \/ length fl = 5 -> t_ok 5 (ex_t fl).
Proof. intro H. split; [reflexivity|]. split; [|exact H]. repeat constructor; cbn; lia || discriminate. Qed.
Example C17_ex_hyp : t_ok 5 (ex_t []) /\ NoDup [0; 1] /\ nth_error (tCols (ex_t [])) 0 = Some (ex_col 1 8 [[7]; [3]; [7]; [3]; [3]])%N /\
  Forall2 (fun i a => nth_error (tCols (ex_t [])) i = Some a) [1] [ex_col 2 16 [[1; 1]; [2; 0]; [255; 0]; [3; 0]; [255; 255]]]%N.
Proof. split; [apply ex_t_ok; now left|]. split; [repeat constructor; cbn; intuition discriminate|]. split; [reflexivity|repeat constructor]. Qed.
(* rows 1, 3, 4: 2 + 3 + 65535 wraps to 4 *)
Example C17_ex_run : t_average (ex_t []) 0 [1] =
  Ok (Tab [1; 1; 0; 0; 0]%N [ex_col 1 8 [[7]; [3]; [0]; [0]; [0]]; ex_col 2 16 [[0; 2]; [4; 0]; [0; 0]; [0; 0]; [0; 0]];
        Col count_name 0 64 (BM 64 8 [[2; 0; 0; 0; 0; 0; 0; 0]; [3; 0; 0; 0; 0; 0; 0; 0]; repeat 0 8; repeat 0 8; repeat 0 8])]%N,
      left_behind [1; 3; 4; 0; 2] [0; 1] (ex_t [])).
Proof. vm_compute. reflexivity. Qed.

(* the claim about active rows fails: inactive rows are added and counted *)
Definition active_group (n : nat) (fl : list N) (g : column) (i : nat) : list nat := filter (fun j => negb (flag_of fl j =? 0)%N) (group n g i).
Definition count_at (t : table) (i : nat) : list N := nth i (bRows (cDat (last (tCols t) col0))) [].
Theorem C17_inactive_refuted : exists n src g avg gc t s i, t_ok n src /\ NoDup (g :: avg) /\ nth_error (tCols src) g = Some gc /\
  t_average src g avg = Ok (t, s) /\ is_leader gc i = true /\ flag_of (tAct src) i = 1%N /\ nth i (tAct t) 0%N = 1%N /\
  length (active_group n (tAct src) gc i) = 1 /\ count_at t i = le_bytes 8 3.
Proof.
  set (fl := [1; 1; 0; 0; 0]%N). exists 5, (ex_t fl), 0, [1], (ex_col 1 8 [[7]; [3]; [7]; [3]; [3]])%N.
  destruct (t_average (ex_t fl) 0 [1]) as [[t s]| | |] eqn:E; [|exfalso; vm_compute in E; discriminate E..]. exists t, s, 1. vm_compute in E. injection E as <- <-.
  split; [apply ex_t_ok; now right|]. split; [repeat constructor; cbn; intuition discriminate|]. split; [reflexivity|]. split; [reflexivity|]. repeat split; vm_compute; reflexivity.
Qed.
(* a group whose first row is inactive disappears though other rows of it are active *)
Theorem C17_lost_group_refuted : exists n src g avg gc t s i, t_ok n src /\ NoDup (g :: avg) /\ nth_error (tCols src) g = Some gc /\
  t_average src g avg = Ok (t, s) /\ is_leader gc i = true /\ length (active_group n (tAct src) gc i) = 2 /\
  forall j, In j (group n gc i) -> nth j (tAct t) 0%N = 0%N.
Proof.
  set (fl := [1; 0; 1; 1; 1]%N). exists 5, (ex_t fl), 0, [1], (ex_col 1 8 [[7]; [3]; [7]; [3]; [3]])%N.
  destruct (t_average (ex_t fl) 0 [1]) as [[t s]| | |] eqn:E; [|exfalso; vm_compute in E; discriminate E..]. exists t, s, 1. vm_compute in E. injection E as <- <-.
  split; [apply ex_t_ok; now right|]. split; [repeat constructor; cbn; intuition discriminate|]. split; [reflexivity|]. split; [reflexivity|]. split; [vm_compute; reflexivity|]. split; [vm_compute; reflexivity|].
  intros j Hj. vm_compute in Hj. repeat destruct Hj as [<-|Hj]; try contradiction; reflexivity.
Qed.
(* widths which are no whole bytes: the sum of 3 and 4 in four bits comes out as 7 * 16 *)
Theorem C17_shift_refuted : exists n src s, t_ok n src /\
  t_average src 0 [1] = Ok (Tab [1; 0]%N [ex_col 1 8 [[5]; [0]]; Col [2] 0 8 (BM 8 1 [[112]; [0]]); Col count_name 0 64 (BM 64 8 [[2; 0; 0; 0; 0; 0; 0; 0]; repeat 0 8])]%N, s) /\
  tCols src = [ex_col 1 8 [[5]; [5]]; ex_col 2 4 [[3]; [4]]]%N.
Proof.
  exists 2, (Tab [] [ex_col 1 8 [[5]; [5]]; ex_col 2 4 [[3]; [4]]])%N. exists (left_behind [0; 1] [0; 1] (Tab [] [ex_col 1 8 [[5]; [5]]; ex_col 2 4 [[3]; [4]]])%N).
  split; [|split; [vm_compute; reflexivity|reflexivity]]. split; [reflexivity|]. split; [|now left]. repeat constructor; cbn; lia || discriminate.
Qed.
(* summing the group by column itself: it is permuted twice and the result has other keys *)
Theorem C17_alias_refuted : exists n src t s, t_ok n src /\ t_average src 0 [0] = Ok (t, s) /\ tCols src = [ex_col 1 8 [[2]; [3]; [1]]]%N /\
  bRows (cDat (nth 0 (tCols t) col0)) = [[1]; [2]; [3]]%N /\ tAct t = [1; 1; 1]%N.
Proof.
  exists 3, (Tab [] [ex_col 1 8 [[2]; [3]; [1]]])%N. destruct (t_average (Tab [] [ex_col 1 8 [[2]; [3]; [1]]])%N 0 [0]) as [[t s]| | |] eqn:E; [|exfalso; vm_compute in E; discriminate E..]. exists t, s. vm_compute in E. injection E as <- <-.
  split; [|repeat split]. split; [reflexivity|]. split; [|now left]. repeat constructor; cbn; lia || discriminate.
Qed.
Print Assumptions C17_inactive_refuted.
Print Assumptions C17_lost_group_refuted.
Print Assumptions C17_shift_refuted.
Print Assumptions C17_alias_refuted.

(* ================= C18 ================= *)
(* Table::where never filters anything: whatever the table, the columns and the clause, it throws or
   goes out of bounds of its vector of inputs *)
Theorem C18_never_refuted t cols ins outs : t_where t cols ins outs = Throw \/ t_where t cols ins outs = UB.
Proof.
  unfold t_where. destruct (negb (outs =? 1)); [now left|]. cbn [throw_if bind]. match goal with |- context [forN 0 _ ?F _] => set (f := F) end.
  assert (L : forall m st, length st = 1 + length cols -> forN 0 m f st = Throw \/ forN 0 m f st = UB \/ exists st', forN 0 m f st = Ok st' /\ length st' = 1 + length cols).
  { induction m as [|m IH]; intros st H; [right; right; exists st; split; [reflexivity|easy]|]. replace (S m) with (m + 1) by lia. rewrite forN_app. cbn [Nat.add].
    destruct (IH st H) as [->|[->|[st' [-> H']]]]; [now left|now right; left|]. cbn [bind forN]. unfold f. destruct (get (ins ++ [1]) m) as [w| | |] eqn:G; cbn [bind]; [|now left|now right; left|].
    2:{ unfold get in G. destruct (nth_error _ _); discriminate. }
    destruct (set st' (1 + m) w) as [st''| | |] eqn:E; cbn [bind]; [|now left|now right; left|].
    2:{ unfold set in E. destruct (_ <? _); discriminate. }
    destruct (get (tCols t) m) as [c| | |] eqn:G'; cbn [bind]; [|now left|now right; left|].
    2:{ unfold get in G'. destruct (nth_error _ _); discriminate. }
    destruct (negb (w =? cBits c)); cbn [throw_if bind]; [now left|]. right. right. exists st''. split; [reflexivity|]. unfold set in E. destruct (1 + m <? length st'); [|discriminate]. injection E as <-. now rewrite upd_length. }
  match goal with |- bind ?X _ = _ \/ _ => assert (E : X = Throw \/ X = UB); [|destruct E as [->| ->]; [now left|now right]] end.
  set (st0 := repeat 0 (1 + length cols)). replace (1 + length cols) with (length cols + 1) by lia. rewrite !forN_app, !Nat.add_0_l. unfold st0.
  destruct (L (length cols) (repeat 0 (1 + length cols)) (repeat_length _ _)) as [->|[->|[st [-> H]]]]; [now left|now right|]. cbn [bind forN]. unfold f.
  destruct (get (ins ++ [1]) (length cols)) as [w| | |] eqn:G; cbn [bind]; [|now left|now right|unfold get in G; destruct (nth_error _ _); discriminate].
  right. unfold set. replace (1 + length cols <? length st) with false by (symmetry; apply Nat.ltb_ge; lia). easy.
Qed.
(* where all the checks pass it is the out of bounds access *)
Theorem C18_out_of_bounds t cols ins : length cols <= length ins -> length cols <= length (tCols t) ->
  (forall i, i < length cols -> nth i ins 0 = cBits (nth i (tCols t) col0)) -> t_where t cols ins 1 = UB.
Proof.
  intros H1 H2 H3. unfold t_where. cbn [Nat.eqb negb throw_if bind]. match goal with |- context [forN 0 _ ?F _] => set (f := F) end.
  replace (1 + length cols) with (length cols + 1) at 1 by lia. rewrite forN_app. cbn [Nat.add].
  destruct (@forN_inv _ (fun _ st => length st = 1 + length cols) f (length cols) 0 (repeat 0 (1 + length cols))) as [st [E H]].
  - apply repeat_length.
  - intros k st Hk Hst. unfold f. rewrite (@get_ok _ _ k 0) by (rewrite app_length; lia). cbn [bind]. rewrite set_lt by lia. cbn [bind]. rewrite (@get_ok _ (tCols t) k col0) by lia. cbn [bind].
    rewrite app_nth1 by lia. rewrite H3 by lia. rewrite Nat.eqb_refl. cbn [negb throw_if bind]. eexists. split; [reflexivity|]. now rewrite upd_length.
  - replace (repeat 0 (S (length cols))) with (repeat 0 (1 + length cols)) by easy. rewrite E. cbn [bind forN]. unfold f. rewrite (@get_ok _ _ (length cols) 0) by (rewrite app_length; cbn [length]; lia). cbn [bind].
    unfold set. replace (1 + length cols <? length st) with false by (symmetry; apply Nat.ltb_ge; lia). easy.
Qed.
Print Assumptions C18_never_refuted.
Print Assumptions C18_out_of_bounds.
Example C18_ex : t_where (ex_t []) [0; 1] [8; 16] 1 = UB /\ t_where (ex_t []) [1; 0] [16; 8] 1 = Throw /\ t_where (ex_t []) [0; 1] [8; 16] 2 = Throw.
Proof. repeat split. Qed.
