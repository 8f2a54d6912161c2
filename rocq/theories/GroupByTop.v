(* The group by protocol: the revealed table, and when the keys are told apart. *)
From Verif Require Import Base Words ShuffleModel ShuffleSpec RadixSpec TableModel TableSpec TableProofs TableOpsSpec JoinProofs
  OmJoinModel OmJoinSpec PackProofs OmJoinProofs OmJoinTop ExtractModel GroupByModel GroupBySpec GroupByArith GroupByLoad GroupByProofs.

Lemma leader_rest n G A i : i < n -> gb_leader G A i = true -> gb_rest n G A i = gb_members n G A i.
Proof.
  intros Hi H. unfold gb_leader in H. apply andb_prop in H. destruct H as [EA HF]. rewrite forallb_forall in HF. unfold gb_members, gb_rest.
  replace (seq 0 n) with (seq 0 i ++ seq i (n - i)) by (rewrite <- seq_app; f_equal; lia). rewrite filter_app.
  replace (filter _ (seq 0 i)) with (@nil nat).
  - cbn [app]. apply filter_ext. intros j. rewrite EA. destruct (A j); reflexivity.
  - symmetry. induction (seq 0 i) as [|x l IH]; [reflexivity|]. cbn [filter]. pose proof (HF x (or_introl eq_refl)) as X. apply Bool.negb_true_iff in X. rewrite X. apply IH. intros y Hy. apply HF. right. exact Hy.
Qed.
Lemma keep_b2n A (f : nat -> bool) (g : nat -> A) l : keep (map (fun r => N.b2n (f r)) l) (map g l) = map g (filter f l).
Proof. rewrite <- keep_map. f_equal. Qed.
Lemma byte_col_keep (f : nat -> bool) nm ty w (g : nat -> list N) l :
  with_rows (byte_col nm ty w (map g l)) (keep (map (fun r => N.b2n (f r)) l) (bRows (cDat (byte_col nm ty w (map g l))))) = byte_col nm ty w (map g (filter f l)).
Proof. unfold with_rows, byte_col. cbn [cName cType cBits cDat bBits bCols bRows]. rewrite keep_b2n. reflexivity. Qed.

Lemma gb_reveal enc n kb q0 q1 rd : 2 <= n -> gb_queries_ok n kb q0 q1 -> gb_enc_ok n kb enc -> gb_rand_ok n q0 rd ->
  Forall (fun s => cBits (snd s) mod 8 = 0) (gAvg q0) ->
  (forall i, i < n -> (le_num (nth i (gb_keys q0 q1) []) < 2 ^ N.of_nat kb)%N) -> gb_told n kb (gb_keys q0 q1) (gb_act q0 q1) enc ->
  NoDup (cName (gKey q0) :: map (fun s => cName (snd s)) (gAvg q0) ++ [[67; 111; 117; 110; 116]%N]) ->
  (do t <- gb_run enc q0 q1 rd; t_reveal (fst t) (snd t) true) =
  Ok (Tab [] (gb_cols (gb_members n (gb_keys q0 q1) (gb_act q0 q1)) (gb_leaders n (gb_keys q0 q1) (gb_act q0 q1)) q0 q1)).
Proof.
  intros Hn HQ HE Hrd HB HG HT ND. destruct (gb_run_ok Hn HQ HE Hrd HB HG HT) as (t0 & t1 & E & HS). rewrite E. cbn [bind fst snd].
  set (G := gb_keys q0 q1) in *. set (A := gb_act q0 q1) in *. destruct HQ as (_ & _ & _ & Hs).
  rewrite (@shares_reveal n t0 t1 _ _ ltac:(lia)) with (2 := HS).
  - do 2 f_equal. unfold gb_cols. cbn [map]. rewrite map_app. cbn [map]. unfold gb_leaders. rewrite !byte_col_keep. apply f_equal2; [reflexivity|]. apply f_equal2.
    + clear - Hs. induction Hs as [|s0 s1 l0 l1 H HF IH]; [reflexivity|]. cbn [map map2]. rewrite IH. f_equal. unfold gb_sum_col. rewrite byte_col_keep.
      f_equal. apply map_ext_in. intros i Hi. apply filter_In in Hi. destruct Hi as [Hi HL]. apply in_seq in Hi. rewrite leader_rest by (try exact HL; lia). reflexivity.
    + do 2 f_equal. apply map_ext_in. intros i Hi. apply filter_In in Hi. destruct Hi as [Hi HL]. apply in_seq in Hi. rewrite leader_rest by (try exact HL; lia). reflexivity.
  - intros E0. destruct HS as (_ & _ & HI & _ & _ & _ & EC). rewrite E0 in EC. cbn [map2] in EC. discriminate EC.
  - replace (map cName (gb_cols (gb_rest n G A) (seq 0 n) q0 q1)) with (cName (gKey q0) :: map (fun s => cName (snd s)) (gAvg q0) ++ [[67; 111; 117; 110; 116]%N]); [exact ND|].
    unfold gb_cols. cbn [map]. rewrite map_app. cbn [map]. unfold byte_col at 1 2. cbn [cName]. f_equal. f_equal.
    clear -Hs. induction Hs as [|s0 s1 l0 l1 H HF IH]; [reflexivity|]. cbn [map map2]. rewrite IH. reflexivity.
  - apply Forall_forall. intros x Hx. apply in_map_iff in Hx. destruct Hx as (r & <- & _). destruct (gb_leader G A r); reflexivity.
Qed.

(* ---- when the keys are told apart ---- *)
(* the key and the flag fill a power of two *)
Lemma told_full n kb k G A enc : kb + 1 = 2 ^ k -> kb + 1 <= gb_comp n -> (forall i, i < n -> (le_num (nth i G []) < 2 ^ N.of_nat kb)%N) -> gb_told n kb G A enc.
Proof.
  intros Ek Hc HG i j Hi Hj. unfold gb_seen, gb_compared. rewrite (proj2 (Nat.leb_le _ _) Hc), Nat.min_l by exact Hc. rewrite Ek, pow2_log, <- Ek.
  assert (HB : forall x, x < n -> (gb_num kb G A x < 2 ^ N.of_nat (kb + 1))%N).
  { intros x Hx. specialize (HG x Hx). unfold gb_num. rewrite Nat2N.inj_add, N.pow_add_r. change (2 ^ N.of_nat 1)%N with 2%N. generalize dependent (2 ^ N.of_nat kb)%N. intros P HP. destruct (A x); lia. }
  rewrite !N.mod_small by (apply HB; assumption). intros E. left. exact E.
Qed.
(* the key alone does: the flag is not compared *)
Lemma told_key n kb k G A enc : kb = 2 ^ S k -> kb + 1 <= gb_comp n -> (forall i, i < n -> (le_num (nth i G []) < 2 ^ N.of_nat kb)%N) ->
  (gb_told n kb G A enc <-> forall i j, i < n -> j < n -> A i = false -> A j = true -> le_num (nth i G []) = le_num (nth j G []) ->
    exists z, z < n /\ if A z then (le_num (nth z G []) < le_num (nth i G []))%N else (le_num (nth i G []) < le_num (nth z G []))%N).
Proof.
  intros Ek Hc HG. unfold gb_told, gb_seen, gb_compared. rewrite (proj2 (Nat.leb_le _ _) Hc), Nat.min_l by exact Hc.
  assert (E2 : Nat.log2 (kb + 1) = S k).
  { apply Nat.log2_unique; [lia|]. rewrite Ek. assert (2 <= 2 ^ S k) by (change 2 with (2 ^ 1) at 1; apply Nat.pow_le_mono_r; lia). rewrite (Nat.pow_succ_r' 2 (S k)). lia. }
  rewrite E2, <- Ek. clear E2 Ek k Hc. unfold gb_num.
  assert (Hmod : forall x, x < n -> ((le_num (nth x G []) + (if A x then 2 ^ N.of_nat kb else 0)) mod 2 ^ N.of_nat kb = le_num (nth x G []))%N).
  { intros x Hx. specialize (HG x Hx). destruct (A x).
    - rewrite <- (N.mul_1_l (2 ^ N.of_nat kb)) at 1. rewrite N.mod_add by (apply N.pow_nonzero; discriminate). apply N.mod_small, HG.
    - rewrite N.add_0_r. apply N.mod_small, HG. }
  revert HG Hmod. generalize (2 ^ N.of_nat kb)%N as P. intros P HG Hmod. split.
  - intros H i j Hi Hj Ei Ej E. destruct (H i j Hi Hj) as [X|(z & Hz & X)]; [rewrite !Hmod by assumption; exact E| |].
    + rewrite Ei, Ej, E in X. specialize (HG j Hj). lia.
    + exists z. split; [exact Hz|]. pose proof (HG i Hi). pose proof (HG z Hz). rewrite Ei, Ej in X. destruct (A z); lia.
  - intros H i j Hi Hj E. rewrite !Hmod in E by assumption. destruct (A i) eqn:Ei, (A j) eqn:Ej; try (left; lia); right.
    + destruct (H j i Hj Hi Ej Ei (eq_sym E)) as (z & Hz & X). exists z. split; [exact Hz|]. right. pose proof (HG j Hj). pose proof (HG z Hz). destruct (A z); lia.
    + destruct (H i j Hi Hj Ei Ej E) as (z & Hz & X). exists z. split; [exact Hz|]. left. pose proof (HG i Hi). pose proof (HG z Hz). destruct (A z); lia.
Qed.

(* ---- the correlations asked for ---- *)
Lemma gb_asked_short q : gb_asked true q + (gb_width q + div_ceil (cBits (gKey q)) 8 + 1) = gb_taken q.
Proof. unfold gb_asked, gb_taken. lia. Qed.
Lemma gb_asked_short_blocks q : 16 <= gb_width q + div_ceil (cBits (gKey q)) 8 + 1 -> ex_capacity (gb_asked true q) < gb_taken q.
Proof. intros H. rewrite <- gb_asked_short. unfold ex_capacity. lia. Qed.
Lemma gb_asked_enough q : gb_taken q <= gb_asked false q.
Proof. unfold gb_taken, gb_asked, gb_data_bytes. generalize (gb_key_size q) (div_ceil (cBits (gKey q)) 8) (gb_width q). intros k g w. unfold div_ceil. lia. Qed.
