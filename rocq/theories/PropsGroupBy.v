(* C33: the group by protocol *)
From Verif Require Import Base Words PermModel KeyMultModel ShuffleModel ShuffleSpec RadixSpec AggModel TableModel TableSpec TableProofs TableOpsSpec
  OmJoinModel OmJoinSpec ExtractModel GroupByModel GroupBySpec GroupByLoad GroupByProofs GroupByTop.

(* ================= C33 ================= *)
(* The full statement: for every table, key width and pattern of active rows, the revealed table has
   one row per key of the active rows, with the sums and the number of the active rows of the key.
   Proved: for at least two rows, columns of whole bytes and keys that what is compared tells apart
   (gb_told).  Missing because it is false: see the theorems named refuted below. *)

(* Both parties' tables are shares of: one row per input row, in order, with its key; active are the
   first active rows of every key; row i holds the sums and the number of the rows from i on with the
   same key and flag. *)
Theorem C33_shares_partial enc n kb q0 q1 rd : 2 <= n -> gb_queries_ok n kb q0 q1 -> gb_enc_ok n kb enc -> gb_rand_ok n q0 rd ->
  Forall (fun s => cBits (snd s) mod 8 = 0) (gAvg q0) ->
  (forall i, i < n -> (le_num (nth i (gb_keys q0 q1) []) < 2 ^ N.of_nat kb)%N) -> gb_told n kb (gb_keys q0 q1) (gb_act q0 q1) enc ->
  exists t0 t1, gb_run enc q0 q1 rd = Ok (t0, t1) /\
    shares_of n t0 t1 (map (fun i => N.b2n (gb_leader (gb_keys q0 q1) (gb_act q0 q1) i)) (seq 0 n))
      (gb_cols (gb_rest n (gb_keys q0 q1) (gb_act q0 q1)) (seq 0 n) q0 q1).
Proof. apply gb_run_ok. Qed.
(* revealed, without the inactive rows: one row per key of the active rows, in the order of their first
   active rows; the sums (modulo the width of the column) and the number of all active rows of the key *)
Theorem C33_reveal_partial enc n kb q0 q1 rd : 2 <= n -> gb_queries_ok n kb q0 q1 -> gb_enc_ok n kb enc -> gb_rand_ok n q0 rd ->
  Forall (fun s => cBits (snd s) mod 8 = 0) (gAvg q0) ->
  (forall i, i < n -> (le_num (nth i (gb_keys q0 q1) []) < 2 ^ N.of_nat kb)%N) -> gb_told n kb (gb_keys q0 q1) (gb_act q0 q1) enc ->
  NoDup (cName (gKey q0) :: map (fun s => cName (snd s)) (gAvg q0) ++ [[67; 111; 117; 110; 116]%N]) ->
  (do t <- gb_run enc q0 q1 rd; t_reveal (fst t) (snd t) true) =
  Ok (Tab [] (gb_cols (gb_members n (gb_keys q0 q1) (gb_act q0 q1)) (gb_leaders n (gb_keys q0 q1) (gb_act q0 q1)) q0 q1)).
Proof. apply gb_reveal. Qed.
(* what the rows of the result are: every active row has exactly one leader with its key *)
Theorem C33_one_per_group n G A i : i < n -> A i = true -> exists! l, In l (gb_leaders n G A) /\ nth l G [] = nth i G [].
Proof.
  intros Hi HA. assert (HR : forall x y, same_key G x y = true <-> nth x G [] = nth y G []) by (intros x y; apply JoinProofs.row_eq_iff).
  assert (HL : forall x, x <= i -> A x = true -> nth x G [] = nth i G [] -> exists l, l <= x /\ gb_leader G A l = true /\ nth l G [] = nth i G []).
  { intros x. induction x as [x IH] using lt_wf_ind. intros Hx Ax Ex. destruct (gb_leader G A x) eqn:EL; [exists x; auto|].
    unfold gb_leader in EL. rewrite Ax in EL. cbn [andb] in EL. apply Bool.not_true_iff_false in EL.
    destruct (existsb (fun j => same_key G j x && A j) (seq 0 x)) eqn:EB.
    - apply existsb_exists in EB. destruct EB as (j & Hj & E). apply in_seq in Hj. apply andb_prop in E. destruct E as [E1 E2]. apply HR in E1.
      destruct (IH j) as (l & Hl & X & Y); [lia|lia|exact E2|congruence|]. exists l. split; [lia|split; assumption].
    - exfalso. apply EL, forallb_forall. intros j Hj. apply Bool.negb_true_iff. apply Bool.not_true_iff_false. intros E.
      apply Bool.not_true_iff_false in EB. apply EB, existsb_exists. exists j. split; assumption. }
  destruct (HL i (le_n i) HA eq_refl) as (l & Hl & E1 & E2). exists l. split.
  - split; [apply filter_In; split; [apply in_seq; lia|exact E1]|exact E2].
  - intros l' [H1 H2]. apply filter_In in H1. destruct H1 as [H1 E1'].
    assert (HN : forall a b, gb_leader G A a = true -> gb_leader G A b = true -> nth a G [] = nth b G [] -> ~ a < b).
    { intros a b Ha Hb E Hab. unfold gb_leader in Ha, Hb. apply andb_prop in Ha, Hb. destruct Ha as [Aa _], Hb as [_ Hb]. rewrite forallb_forall in Hb.
      specialize (Hb a ltac:(apply in_seq; lia)). rewrite (proj2 (HR a b) E), Aa in Hb. discriminate Hb. }
    pose proof (HN l l' E1 E1' ltac:(congruence)). pose proof (HN l' l E1' E1 ltac:(congruence)). lia.
Qed.

(* The condition on the keys always holds when the key with its flag fills a power of two (1, 3, 7, 15,
   31 bits and more while they are not compressed) ... *)
Theorem C33_told_full n kb k G A enc : kb + 1 = 2 ^ k -> kb + 1 <= gb_comp n -> (forall i, i < n -> (le_num (nth i G []) < 2 ^ N.of_nat kb)%N) -> gb_told n kb G A enc.
Proof. apply told_full. Qed.
(* ... and when the key does (2, 4, 8, 16, 32 bits), iff for every inactive row with an active key there is an
   inactive row with a larger key or an active row with a smaller key *)
Theorem C33_told_key n kb k G A enc : kb = 2 ^ S k -> kb + 1 <= gb_comp n -> (forall i, i < n -> (le_num (nth i G []) < 2 ^ N.of_nat kb)%N) ->
  (gb_told n kb G A enc <-> forall i j, i < n -> j < n -> A i = false -> A j = true -> le_num (nth i G []) = le_num (nth j G []) ->
    exists z, z < n /\ if A z then (le_num (nth z G []) < le_num (nth i G []))%N else (le_num (nth i G []) < le_num (nth z G []))%N).
Proof. apply told_key. Qed.
(* in particular when all rows are active *)
Theorem C33_told_all_active n kb k G A enc : kb = 2 ^ S k -> kb + 1 <= gb_comp n -> (forall i, i < n -> (le_num (nth i G []) < 2 ^ N.of_nat kb)%N) ->
  (forall i, i < n -> A i = true) -> gb_told n kb G A enc.
Proof. intros Ek Hc HG HA. apply (told_key A enc Ek Hc HG). intros i j Hi Hj E. rewrite HA in E by exact Hi. discriminate E. Qed.

(* the correlations: without removal of the inactive rows enough is asked for *)
Theorem C33_correlations_enough q : gb_taken q <= gb_asked false q.
Proof. apply gb_asked_enough. Qed.
(* with it the second permutation is not counted: it does not fit when its rows have 16 bytes or more *)
Theorem C33_correlations_refuted q : 16 <= gb_width q + div_ceil (cBits (gKey q)) 8 + 1 -> ex_capacity (gb_asked true q) < gb_taken q.
Proof. apply gb_asked_short_blocks. Qed.
Print Assumptions C33_shares_partial.
Print Assumptions C33_reveal_partial.
Print Assumptions C33_one_per_group.
Print Assumptions C33_told_full.
Print Assumptions C33_told_key.
Print Assumptions C33_told_all_active.
Print Assumptions C33_correlations_enough.
Print Assumptions C33_correlations_refuted.

(* ---- examples ---- *)
Definition gcol (nm : N) (bits : nat) (rows : list (list N)) : column := Col [nm] 0 bits (BM bits (div_ceil bits 8) rows).
Definition gz (bits n : nat) : list (list N) := repeat (repeat 0%N (div_ceil bits 8)) n.
Ltac col_ok := split; [split; [split; [reflexivity|repeat constructor]|reflexivity]|split; [reflexivity|split; [reflexivity|split; [cbn; lia|discriminate]]]].
Definition grows (n c : nat) (x : N) : list (list N) := repeat (repeat x c) n.
Lemma grows_ok n c x : (x < 256)%N -> rows_ok n c (grows n c x).
Proof.
  intros H. split; [apply repeat_length|]. apply Forall_forall. intros r Hr. apply repeat_spec in Hr. subst r. split; [apply repeat_length|]. apply Forall_forall. intros y Hy. apply repeat_spec in Hy. subst y. exact H.
Qed.
Definition g_rd (n w g kc : nat) : gb_rand := GbR (grows n (w + g + kc + 1) 17) (repeat true n) (grows n w 99) (repeat true n) (grows n (w + g + 1) 200).
Ltac query_ok := split; [col_ok|]; split; [reflexivity|]; split; [repeat (constructor; [split; [reflexivity|col_ok]|]); constructor|]; split; [reflexivity|repeat constructor].
Ltac rand_ok := split; [apply grows_ok; reflexivity|]; split; [reflexivity|]; split; [apply grows_ok; reflexivity|]; split; [reflexivity|apply grows_ok; reflexivity].

(* keys 5, 9, 5, 7 (8 bits) with values 200, 1, 100, 60; row 1 is inactive *)
Definition gq0 : gb_query := GbQ (gcol 1 8 [[1]; [9]; [5]; [3]]%N) [(true, gcol 2 8 [[200]; [0]; [100]; [10]]%N)] [1; 1; 0; 1]%N.
Definition gq1 : gb_query := GbQ (gcol 1 8 [[4]; [0]; [0]; [4]]%N) [(true, gcol 2 8 [[0]; [1]; [0]; [54]]%N)] [0; 1; 1; 0]%N.
Example C33_ex_hyp : gb_queries_ok 4 8 gq0 gq1 /\ gb_enc_ok 4 8 (fun x => x) /\ gb_rand_ok 4 gq0 (g_rd 4 9 1 2) /\ Forall (fun s => cBits (snd s) mod 8 = 0) (gAvg gq0) /\
  (forall i, i < 4 -> (le_num (nth i (gb_keys gq0 gq1) []) < 2 ^ N.of_nat 8)%N) /\ gb_told 4 8 (gb_keys gq0 gq1) (gb_act gq0 gq1) (fun x => x) /\
  NoDup (cName (gKey gq0) :: map (fun s => cName (snd s)) (gAvg gq0) ++ [[67; 111; 117; 110; 116]%N]).
Proof.
  assert (HG : forall i, i < 4 -> (le_num (nth i (gb_keys gq0 gq1) []) < 2 ^ N.of_nat 8)%N) by (intros i Hi; do 4 (destruct i as [|i]; [reflexivity|]); lia).
  split; [|split; [|split; [|split; [|split; [|split]]]]].
  - split; [query_ok|]. split; [query_ok|]. split; [repeat split|]. repeat constructor.
  - unfold gb_enc_ok, gb_comp. lia.
  - rand_ok.
  - repeat constructor.
  - exact HG.
  - apply (@C33_told_key 4 8 2); [reflexivity|unfold gb_comp; lia|exact HG|]. intros i j Hi Hj. do 4 (destruct i as [|i]; [do 4 (destruct j as [|j]; [vm_compute; intros; discriminate|]); lia|]). lia.
  - repeat constructor; cbn; intuition discriminate.
Qed.
(* 200 + 100 modulo 256 = 44 *)
Definition gcount (l : list (list N)) : column := Col [67; 111; 117; 110; 116]%N 0 64 (BM 64 8 l).
Example C33_ex : (do t <- gb_run (fun x => x) gq0 gq1 (g_rd 4 9 1 2); t_reveal (fst t) (snd t) true) =
  Ok (Tab [] [gcol 1 8 [[5]; [7]]%N; gcol 2 8 [[44]; [60]]%N; gcount [[2; 0; 0; 0; 0; 0; 0; 0]; [1; 0; 0; 0; 0; 0; 0; 0]]%N]).
Proof. vm_compute. reflexivity. Qed.
Example C33_ex_one : nth 2 (gb_keys gq0 gq1) [] = [5]%N /\ gb_act gq0 gq1 2 = true /\ gb_leaders 4 (gb_keys gq0 gq1) (gb_act gq0 gq1) = [0; 3].
Proof. repeat split; vm_compute; reflexivity. Qed.
(* keys of 7 bits: the flag is compared *)
Example C33_ex_full : 7 + 1 = 2 ^ 3 /\ 7 + 1 <= gb_comp 2 /\ forall i, i < 2 -> (le_num (nth i [[5]; [127]]%N []) < 2 ^ N.of_nat 7)%N.
Proof. split; [reflexivity|]. split; [unfold gb_comp; lia|]. intros i Hi. do 2 (destruct i as [|i]; [reflexivity|]). lia. Qed.
Example C33_ex_all_active : 8 = 2 ^ 3 /\ 8 + 1 <= gb_comp 2 /\ gb_told 2 8 [[5]; [5]]%N (fun _ => true) (fun x => x).
Proof. split; [reflexivity|]. split; [unfold gb_comp; lia|]. apply (@C33_told_all_active 2 8 2); [reflexivity|unfold gb_comp; lia| |reflexivity]. intros i Hi. do 2 (destruct i as [|i]; [reflexivity|]). lia. Qed.
Example C33_ex_asked : gb_asked true gq0 = 17 /\ gb_asked false gq0 = 29 /\ gb_taken gq0 = 28.
Proof. repeat split; vm_compute; reflexivity. Qed.
(* with one column 28 bytes are taken and 16 * 2 = 32 made; three columns of 4 bytes do not fit *)
Definition gq_wide : gb_query := GbQ (gcol 1 32 (gz 32 2)) [(true, gcol 2 32 (gz 32 2)); (true, gcol 3 32 (gz 32 2)); (true, gcol 4 32 (gz 32 2))] [1; 1]%N.
Example C33_ex_refuted : 16 <= gb_width gq_wide + div_ceil (cBits (gKey gq_wide)) 8 + 1 /\ ex_capacity (gb_asked true gq_wide) = 48 /\ gb_taken gq_wide = 59.
Proof. split; [vm_compute; lia|]. split; vm_compute; reflexivity. Qed.

(* ---- the statement is false without the conditions ---- *)
(* the answer the statement asks for *)
Definition gb_answer (n : nat) (q0 q1 : gb_query) : outcome table :=
  Ok (Tab [] (gb_cols (gb_members n (gb_keys q0 q1) (gb_act q0 q1)) (gb_leaders n (gb_keys q0 q1) (gb_act q0 q1)) q0 q1)).
Definition share0 (q : gb_query) (n : nat) : gb_query :=
  GbQ (gcol (hd 0%N (cName (gKey q))) (cBits (gKey q)) (gz (cBits (gKey q)) n)) (map (fun s => (true, gcol (hd 0%N (cName (snd s))) (cBits (snd s)) (gz (cBits (snd s)) n))) (gAvg q)) (repeat 0%N n).
(* 8 bit keys: an inactive row with the only active key.  The active row is taken for a second row of
   the inactive group and the group is lost. *)
Definition gb_lost : gb_query := GbQ (gcol 1 8 [[5]; [5]]%N) [(true, gcol 2 8 [[7]; [9]]%N)] [0; 1]%N.
Theorem C33_inactive_refuted : exists q0 q1 rd, gb_queries_ok 2 8 q0 q1 /\ gb_rand_ok 2 q0 rd /\ (forall i, i < 2 -> (le_num (nth i (gb_keys q0 q1) []) < 2 ^ N.of_nat 8)%N) /\
  gb_answer 2 q0 q1 = Ok (Tab [] [gcol 1 8 [[5]]%N; gcol 2 8 [[9]]%N; gcount [[1; 0; 0; 0; 0; 0; 0; 0]]%N]) /\
  (do t <- gb_run (fun x => x) q0 q1 rd; t_reveal (fst t) (snd t) true) = Ok (Tab [] [gcol 1 8 []; gcol 2 8 []; gcount []]).
Proof.
  exists gb_lost, (share0 gb_lost 2), (g_rd 2 9 1 2). split; [split; [query_ok|]; split; [query_ok|]; split; [repeat split|]; repeat constructor|]. split; [rand_ok|].
  split; [intros i Hi; do 2 (destruct i as [|i]; [reflexivity|]); lia|]. split; vm_compute; reflexivity.
Qed.
(* 12 bit keys: 8 bits are compared, and two active groups are merged *)
Definition gb_merged : gb_query := GbQ (gcol 1 12 [[5; 1]; [5; 2]]%N) [(true, gcol 2 8 [[7]; [9]]%N)] [1; 1]%N.
Theorem C33_widths_refuted : exists q0 q1 rd, gb_queries_ok 2 12 q0 q1 /\ gb_rand_ok 2 q0 rd /\ (forall i, i < 2 -> (le_num (nth i (gb_keys q0 q1) []) < 2 ^ N.of_nat 12)%N) /\
  gb_answer 2 q0 q1 = Ok (Tab [] [byte_col [1]%N 0 2 [[5; 1]; [5; 2]]%N; gcol 2 8 [[7]; [9]]%N; gcount [[1; 0; 0; 0; 0; 0; 0; 0]; [1; 0; 0; 0; 0; 0; 0; 0]]%N]) /\
  (do t <- gb_run (fun x => x) q0 q1 rd; t_reveal (fst t) (snd t) true) = Ok (Tab [] [byte_col [1]%N 0 2 [[5; 1]]%N; gcol 2 8 [[16]]%N; gcount [[2; 0; 0; 0; 0; 0; 0; 0]]%N]).
Proof.
  exists gb_merged, (share0 gb_merged 2), (g_rd 2 9 2 2). split; [split; [query_ok|]; split; [query_ok|]; split; [repeat split|]; repeat constructor|]. split; [rand_ok|].
  split; [intros i Hi; do 2 (destruct i as [|i]; [reflexivity|]); lia|]. split; vm_compute; reflexivity.
Qed.
(* a column of 4 bits before one of 8: the rows hold whole bytes, the sums are taken over packed bits *)
Definition gb_bits4 : gb_query := GbQ (gcol 1 7 [[5]; [5]]%N) [(true, gcol 2 4 [[1]; [2]]%N); (true, gcol 3 8 [[100]; [30]]%N)] [1; 1]%N.
Theorem C33_packed_refuted : exists q0 q1 rd, gb_queries_ok 2 7 q0 q1 /\ gb_rand_ok 2 q0 rd /\ (forall i, i < 2 -> (le_num (nth i (gb_keys q0 q1) []) < 2 ^ N.of_nat 7)%N) /\
  gb_told 2 7 (gb_keys q0 q1) (gb_act q0 q1) (fun x => x) /\
  gb_answer 2 q0 q1 = Ok (Tab [] [byte_col [1]%N 0 1 [[5]]%N; byte_col [2]%N 0 1 [[3]]%N; gcol 3 8 [[130]]%N; gcount [[2; 0; 0; 0; 0; 0; 0; 0]]%N]) /\
  (do t <- gb_run (fun x => x) q0 q1 rd; t_reveal (fst t) (snd t) true) =
  Ok (Tab [] [byte_col [1]%N 0 1 [[5]]%N; byte_col [2]%N 0 1 [[3]]%N; gcol 3 8 [[114]]%N; gcount [[2; 0; 0; 0; 0; 0; 0; 0]]%N]).
Proof.
  assert (HG : forall i, i < 2 -> (le_num (nth i (gb_keys gb_bits4 (share0 gb_bits4 2)) []) < 2 ^ N.of_nat 7)%N) by (intros i Hi; do 2 (destruct i as [|i]; [reflexivity|]); lia).
  exists gb_bits4, (share0 gb_bits4 2), (g_rd 2 10 1 1). split; [split; [query_ok|]; split; [query_ok|]; split; [repeat split|]; repeat constructor|]. split; [rand_ok|].
  split; [exact HG|]. split; [apply (@C33_told_full 2 7 3); [reflexivity|unfold gb_comp; lia|exact HG]|]. split; vm_compute; reflexivity.
Qed.
(* two columns of 4 bits, four groups: the sums have 9 bytes where the rows have 10, and the last byte
   of the fourth count is memory from before the sort, here the value 7 of the fourth row *)
Definition gb_left : gb_query := GbQ (gcol 1 7 [[1]; [2]; [3]; [4]]%N) [(true, gcol 2 4 [[1]; [2]; [3]; [7]]%N); (true, gcol 3 4 [[1]; [1]; [1]; [1]]%N)] [1; 1; 1; 1]%N.
Definition left_rd : gb_rand := GbR (grows 4 13 17) (repeat true 4) (grows 4 9 99) (repeat true 4) (grows 4 12 200).
Theorem C33_leftover_refuted : exists q0 q1 rd, gb_queries_ok 4 7 q0 q1 /\ gb_rand_ok 4 q0 rd /\
  gb_answer 4 q0 q1 = Ok (Tab [] [byte_col [1]%N 0 1 [[1]; [2]; [3]; [4]]%N; byte_col [2]%N 0 1 [[1]; [2]; [3]; [7]]%N; byte_col [3]%N 0 1 [[1]; [1]; [1]; [1]]%N;
    gcount (repeat [1; 0; 0; 0; 0; 0; 0; 0]%N 4)]) /\
  (do t <- gb_run (fun x => x) q0 q1 rd; t_reveal (fst t) (snd t) true) =
  Ok (Tab [] [byte_col [1]%N 0 1 [[1]; [2]; [3]; [4]]%N; byte_col [2]%N 0 1 [[1]; [2]; [3]; [7]]%N; byte_col [3]%N 0 1 [[1]; [1]; [1]; [1]]%N;
    gcount (repeat [1; 0; 0; 0; 0; 0; 0; 0]%N 3 ++ [[1; 0; 0; 0; 0; 0; 0; 7]%N])]).
Proof.
  exists gb_left, (share0 gb_left 4), left_rd. split; [split; [query_ok|]; split; [query_ok|]; split; [repeat split|]; repeat constructor|]. split; [rand_ok|].
  split; vm_compute; reflexivity.
Qed.
Print Assumptions C33_leftover_refuted.
(* one row *)
Definition gb_one : gb_query := GbQ (gcol 1 8 [[5]]%N) [(true, gcol 2 8 [[7]]%N)] [1]%N.
Theorem C33_one_row_refuted : exists q0 q1 rd, gb_queries_ok 1 8 q0 q1 /\ gb_rand_ok 1 q0 rd /\ gb_run (fun x => x) q0 q1 rd = UB.
Proof.
  exists gb_one, (share0 gb_one 1), (g_rd 1 9 1 2). split; [split; [query_ok|]; split; [query_ok|]; split; [repeat split|]; repeat constructor|]. split; [rand_ok|]. vm_compute. reflexivity.
Qed.
Print Assumptions C33_inactive_refuted.
Print Assumptions C33_widths_refuted.
Print Assumptions C33_packed_refuted.
Print Assumptions C33_one_row_refuted.
