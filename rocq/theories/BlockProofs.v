(* Rows in sorted order: the first row of a block of equal keys is the first row with that key. *)
From Verif Require Import Base PermModel PermSpec PermProofs PermCorProofs ShuffleSpec RadixSpec AggSpec TableModel TableSpec TableProofs TableOpsSpec JoinProofs.

Lemma perm_inv_ex n p : is_perm n p -> exists q, is_perm n q /\ (forall i, i < n -> nth (nth i p 0) q 0 = i) /\ (forall t, t < n -> nth (nth t q 0) p 0 = t).
Proof.
  intros H. destruct (perm_inverse_ok H) as (q & _ & Hq & HR). exists q. split; [exact Hq|].
  assert (H1 : forall i, i < n -> nth (nth i p 0) q 0 = i).
  { intros i Hi. destruct (nthp H Hi) as [E Hlt]. apply nth_error_nth. apply HR. exact E. }
  split; [exact H1|]. intros t Ht. destruct (is_perm_onto H Ht) as (i & Hi & Ei).
  rewrite <- (nth_error_nth _ _ 0 Ei), H1 by exact Hi. reflexivity.
Qed.

Lemma blk_start_le c i : blk_start c i <= i.
Proof. induction i as [|i IH]; cbn [blk_start]; [lia|]. destruct (nth (S i) c false); lia. Qed.
Lemma blk_start_mid c i u : blk_start c i < u <= i -> nth u c false = true.
Proof.
  induction i as [|i IH]; cbn [blk_start]; [lia|]. destruct (nth (S i) c false) eqn:E; [|lia].
  intros H. destruct (Nat.eq_dec u (S i)) as [->|Hn]; [exact E|]. apply IH. lia.
Qed.
Lemma blk_start_false c i : blk_start c i = 0 \/ nth (blk_start c i) c false = false.
Proof. induction i as [|i IH]; cbn [blk_start]; [left; reflexivity|]. destruct (nth (S i) c false) eqn:E; [exact IH|right; exact E]. Qed.
Lemma blk_start_self c i : nth i c false = false -> blk_start c i = i.
Proof. destruct i as [|i]; [reflexivity|]. cbn [blk_start]. intros ->. reflexivity. Qed.

Section Blocks.
Variables (n c : nat) (K : list (list N)) (p q : list nat) (ctrl : list bool).
Hypothesis HK : rows_ok n c K.
Hypothesis HS : sorts n (fun i => le_num (nth i K [])) p.
Hypothesis Hq : is_perm n q.
Hypothesis pq : forall t, t < n -> nth (nth t q 0) p 0 = t.
Hypothesis Hctrl : forall t, t < n -> nth t ctrl false = (0 <? t) && row_eq (nth (nth (t - 1) q 0) K []) (nth (nth t q 0) K []).

Lemma q_lt t : t < n -> nth t q 0 < n.
Proof. intros H. apply (nthp Hq H). Qed.
Lemma key_num i j : i < n -> j < n -> le_num (nth i K []) = le_num (nth j K []) -> nth i K [] = nth j K [].
Proof.
  intros Hi Hj. destruct (rows_nth HK Hi) as [L1 B1], (rows_nth HK Hj) as [L2 B2]. apply le_num_inj; congruence || assumption.
Qed.
Lemma q_order t u : t < u -> u < n -> (le_num (nth (nth t q 0%nat) K []) < le_num (nth (nth u q 0%nat) K []))%N \/
  nth (nth t q 0) K [] = nth (nth u q 0) K [] /\ nth t q 0 < nth u q 0.
Proof.
  clear Hctrl ctrl. intros H Hu. destruct HS as [_ H2]. assert (Ht : t < n) by lia.
  destruct (H2 (nth t q 0) (nth u q 0) (q_lt Ht) (q_lt Hu)) as [H3 _]. rewrite !pq in H3 by lia.
  destruct (H3 H) as [H4|[H4 H5]]; [left; exact H4|right]. split; [apply key_num; auto using q_lt|exact H5].
Qed.
Lemma blk_same t : t < n -> forall u, blk_start ctrl t <= u <= t -> nth (nth u q 0) K [] = nth (nth t q 0) K [].
Proof.
  intros Ht u [H1 H2]. remember (t - u) as d eqn:Ed. revert u H1 H2 Ed. induction d as [|d IH]; intros u H1 H2 Ed; [replace u with t by lia; reflexivity|].
  rewrite <- (IH (S u)) by lia. assert (E : nth (S u) ctrl false = true) by (apply (@blk_start_mid ctrl t); lia).
  rewrite Hctrl in E by lia. apply andb_prop in E. destruct E as [_ E]. apply row_eq_iff in E. replace (S u - 1) with u in E by lia. exact E.
Qed.
(* the block of row t starts with the first row having its key *)
Lemma blk_first t : t < n -> first_eq K (nth (nth t q 0) K []) = Some (nth (blk_start ctrl t) q 0).
Proof.
  intros Ht. pose proof (blk_start_le ctrl t) as Hb. set (b := blk_start ctrl t) in *. assert (Hbn : b < n) by lia.
  apply first_eq_some. split; [rewrite (proj1 HK); apply q_lt, Hbn|]. split; [apply blk_same; [exact Ht|lia]|].
  intros i Hi E. assert (Hin : i < n) by (pose proof (q_lt Hbn); lia).
  destruct HS as [HP H2]. set (u := nth i p 0). assert (Hu : u < n) by apply (nthp HP Hin).
  assert (Eu : nth u q 0 = i).
  { destruct (perm_inv_ex HP) as (q' & Hq' & H3 & H4).
    assert (E1 : nth (nth u q 0) p 0 = nth i p 0) by (rewrite pq by exact Hu; reflexivity).
    rewrite <- (H3 (nth u q 0)) by (apply q_lt, Hu). rewrite E1. apply H3, Hin. }
  destruct (Nat.lt_trichotomy u b) as [Hlt|[Heq|Hgt]].
  - (* before the block: a smaller key *)
    destruct (blk_start_false ctrl t) as [E0|EF]; [fold b in E0; lia|]. fold b in EF. rewrite Hctrl in EF by exact Hbn.
    assert (HNE : nth (nth (b - 1) q 0) K [] <> nth (nth b q 0) K []).
    { intros E3. apply row_eq_iff in E3. rewrite E3 in EF. replace (0 <? b) with true in EF by lia. discriminate. }
    assert (HL1 : (le_num (nth (nth (b - 1) q 0%nat) K []) < le_num (nth (nth b q 0%nat) K []))%N).
    { destruct (@q_order (b - 1) b ltac:(lia) Hbn) as [H|[H _]]; [exact H|contradiction]. }
    assert (HL2 : (le_num (nth (nth u q 0%nat) K []) <= le_num (nth (nth (b - 1) q 0%nat) K []))%N).
    { destruct (Nat.eq_dec u (b - 1)) as [->|Hn]; [lia|]. destruct (@q_order u (b - 1) ltac:(lia) ltac:(lia)) as [H|[H _]]; [lia|rewrite H; lia]. }
    rewrite Eu, E in HL2. rewrite (@blk_same t Ht b ltac:(lia)) in HL1. lia.
  - rewrite <- Heq, Eu in Hi. lia.
  - destruct (@q_order b u Hgt Hu) as [H|[_ H]]; [|lia]. rewrite Eu, E, (@blk_same t Ht b ltac:(lia)) in H. lia.
Qed.
End Blocks.
