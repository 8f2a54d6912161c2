(* Blocks of equal keys: their ends and their members. *)
From Coq Require Import Permutation.
From Verif Require Import Base PermModel PermSpec PermProofs PermCorProofs ShuffleSpec RadixSpec RadixSortProofs AggSpec TableModel TableSpec TableProofs TableOpsSpec JoinProofs BlockProofs GroupByArith.

Lemma run_len_spec l : forall k, k <= run_len l <-> forall v, v < k -> nth v l false = true.
Proof.
  induction l as [|b l IH]; intros k.
  - cbn [run_len]. split; [intros H v Hv; lia|]. intros H. destruct k as [|k]; [lia|]. specialize (H 0 ltac:(lia)). discriminate H.
  - cbn [run_len]. destruct b.
    + destruct k as [|k]; [split; [intros _ v Hv; lia|lia]|]. split.
      * intros H [|v] Hv; [reflexivity|]. cbn [nth]. apply (proj1 (IH k)); lia.
      * intros H. apply le_n_S, IH. intros v Hv. apply (H (S v)). lia.
    + split; [intros H v Hv; lia|]. intros H. destruct k as [|k]; [lia|]. specialize (H 0 ltac:(lia)). discriminate H.
Qed.
Lemma blk_end_spec c t u : t <= u -> (u < blk_end c t <-> forall v, t < v <= u -> nth v c false = true).
Proof.
  intros Hu. unfold blk_end. assert (E : u < t + 1 + run_len (skipn (t + 1) c) <-> u - t <= run_len (skipn (t + 1) c)) by lia. rewrite E, run_len_spec. split.
  - intros H v Hv. specialize (H (v - t - 1) ltac:(lia)). rewrite CompressProofs.nth_skipn in H. replace (t + 1 + (v - t - 1)) with v in H by lia. exact H.
  - intros H v Hv. rewrite CompressProofs.nth_skipn. apply H. lia.
Qed.
Lemma blk_end_gt c t : t < blk_end c t.
Proof. unfold blk_end. lia. Qed.
Lemma blk_end_le c t n : length c = n -> t < n -> blk_end c t <= n.
Proof.
  intros L H. destruct (Nat.le_gt_cases (blk_end c t) n) as [Hl|Hl]; [exact Hl|]. exfalso. pose proof (proj1 (@blk_end_spec c t n ltac:(lia)) Hl n ltac:(lia)) as E.
  rewrite nth_overflow in E by lia. discriminate E.
Qed.

Lemma agree_mod P x y : bytes x -> bytes y -> (agree P x y <-> (le_num x mod 2 ^ N.of_nat P = le_num y mod 2 ^ N.of_nat P)%N).
Proof.
  intros Bx By. split.
  - intros H. apply N.bits_inj. intros k. rewrite <- (N2Nat.id k). set (j := N.to_nat k). destruct (Nat.lt_ge_cases j P) as [Hj|Hj].
    + rewrite !N.mod_pow2_bits_low by lia. rewrite !le_num_bit by assumption. apply H, Hj.
    + rewrite !N.mod_pow2_bits_high by lia. reflexivity.
  - intros E j Hj. rewrite <- !le_num_bit by assumption. apply (f_equal (fun v => N.testbit v (N.of_nat j))) in E. rewrite !N.mod_pow2_bits_low in E by lia. exact E.
Qed.

Lemma NoDup_map_in A B (f : A -> B) l : (forall a b, In a l -> In b l -> f a = f b -> a = b) -> NoDup l -> NoDup (map f l).
Proof.
  intros H ND. induction ND as [|x l Hx ND IH]; [constructor|]. cbn [map]. constructor.
  - intros HI. apply in_map_iff in HI. destruct HI as (y & E & Hy). apply H in E; [subst y; contradiction|right; exact Hy|left; reflexivity].
  - apply IH. intros a b Ha Hb. apply H; right; assumption.
Qed.

Section Groups.
Variables (n c : nat) (K : list (list N)) (p q : list nat) (ctrl : list bool).
Hypothesis HK : rows_ok n c K.
Hypothesis HS : sorts n (fun i => le_num (nth i K [])) p.
Hypothesis Hq : is_perm n q.
Hypothesis pq : forall t, t < n -> nth (nth t q 0) p 0 = t.
Hypothesis qp : forall i, i < n -> nth (nth i p 0) q 0 = i.

(* next to each other in sorted order: nothing between them *)
Lemma sorted_adjacent t z : 0 < t -> t < n -> z < n ->
  ~ (le_num (nth (nth (t - 1) q 0%nat) K []) < le_num (nth z K []) /\ le_num (nth z K []) < le_num (nth (nth t q 0%nat) K []))%N /\
  ~ (le_num (nth (nth t q 0%nat) K []) < le_num (nth z K []) /\ le_num (nth z K []) < le_num (nth (nth (t - 1) q 0%nat) K []))%N.
Proof.
  intros H0 Ht Hz. assert (Hu : nth z p 0 < n) by (apply (nthp (proj1 HS) Hz)). set (u := nth z p 0) in *. assert (Eu : nth u q 0 = z) by (apply qp, Hz). rewrite <- Eu.
  assert (HO : forall a b, a < b -> b < n -> (le_num (nth (nth a q 0%nat) K []) <= le_num (nth (nth b q 0%nat) K []))%N).
  { intros a b Hab Hb. destruct (@q_order n c K p q HK HS Hq pq a b Hab Hb) as [H|[H _]]; [lia|rewrite H; lia]. }
  destruct (Nat.lt_trichotomy u t) as [H|[H|H]].
  - destruct (Nat.eq_dec u (t - 1)) as [->|Hn]; [split; intros [A B]; lia|]. pose proof (HO u (t - 1) ltac:(lia) ltac:(lia)). pose proof (HO (t - 1) t ltac:(lia) Ht). split; intros [A B]; lia.
  - rewrite H. split; intros [A B]; lia.
  - pose proof (HO t u H Hu). pose proof (HO (t - 1) t ltac:(lia) Ht). split; intros [A B]; lia.
Qed.

Hypothesis Lc : length ctrl = n.
Hypothesis Hctrl : forall t, t < n -> nth t ctrl false = (0 <? t) && row_eq (nth (nth (t - 1) q 0) K []) (nth (nth t q 0) K []).

Lemma blk_members t u : t < n -> u < n -> (t <= u < blk_end ctrl t <-> nth (nth u q 0) K [] = nth (nth t q 0) K [] /\ nth t q 0 <= nth u q 0).
Proof.
  intros Ht Hu. split.
  - intros [H1 H2]. pose proof (proj1 (@blk_end_spec ctrl t u H1) H2) as HT.
    assert (HE : forall d, t + d <= u -> nth (nth (t + d) q 0) K [] = nth (nth t q 0) K []).
    { induction d as [|d IH]; intros Hd; [rewrite Nat.add_0_r; reflexivity|]. rewrite <- IH by lia. pose proof (HT (t + S d) ltac:(lia)) as E. rewrite Hctrl in E by lia.
      apply andb_prop in E. destruct E as [_ E]. apply row_eq_iff in E. replace (t + S d - 1) with (t + d) in E by lia. symmetry. exact E. }
    assert (E : nth (nth u q 0) K [] = nth (nth t q 0) K []) by (replace u with (t + (u - t)) by lia; apply HE; lia). split; [exact E|].
    destruct (Nat.eq_dec t u) as [->|Hn]; [lia|]. destruct (@q_order n c K p q HK HS Hq pq t u ltac:(lia) Hu) as [H|[_ H]]; [rewrite E in H; lia|lia].
  - intros [E Hle]. assert (Htu : t <= u).
    { destruct (Nat.le_gt_cases t u) as [H|H]; [exact H|]. destruct (@q_order n c K p q HK HS Hq pq u t H Ht) as [H3|[_ H3]]; [rewrite E in H3; lia|lia]. }
    split; [exact Htu|]. apply blk_end_spec; [exact Htu|]. intros v Hv. rewrite Hctrl by lia. replace (0 <? v) with true by lia. cbn [andb]. apply row_eq_iff.
    assert (HO : forall a b, a <= b -> b < n -> (le_num (nth (nth a q 0%nat) K []) <= le_num (nth (nth b q 0%nat) K []))%N).
    { intros a b Hab Hb. destruct (Nat.eq_dec a b) as [->|Hn]; [lia|]. destruct (@q_order n c K p q HK HS Hq pq a b ltac:(lia) Hb) as [H|[H _]]; [lia|rewrite H; lia]. }
    apply (@key_num n c K HK); try (apply (q_lt Hq); lia). pose proof (HO t (v - 1) ltac:(lia) ltac:(lia)). pose proof (HO (v - 1) v ltac:(lia) ltac:(lia)). pose proof (HO v u ltac:(lia) Hu). rewrite E in *. lia.
Qed.
Lemma blk_perm t : t < n -> Permutation (map (fun u => nth u q 0) (seq t (blk_end ctrl t - t)))
  (filter (fun j => row_eq (nth j K []) (nth (nth t q 0) K [])) (seq (nth t q 0) (n - nth t q 0))).
Proof.
  intros Ht. pose proof (@blk_end_gt ctrl t) as Hgt. pose proof (blk_end_le Lc Ht) as Hle. pose proof (q_lt Hq Ht) as Hqt. apply NoDup_Permutation.
  - apply NoDup_map_in; [|apply seq_NoDup]. intros a b Ha Hb E. apply in_seq in Ha, Hb. apply (f_equal (fun x => nth x p 0)) in E. cbv beta in E. rewrite !pq in E by lia. exact E.
  - apply NoDup_filter, seq_NoDup.
  - intros j. rewrite in_map_iff, filter_In, in_seq, row_eq_iff. split.
    + intros (u & <- & Hu). apply in_seq in Hu. assert (Hun : u < n) by lia. pose proof (q_lt Hq Hun). destruct (proj1 (blk_members Ht Hun)) as [A B]; [lia|]. split; [lia|exact A].
    + intros [Hj E]. assert (Hjn : j < n) by lia. exists (nth j p 0). split; [apply qp, Hjn|]. pose proof (proj2 (nthp (proj1 HS) Hjn)) as Hpj. apply in_seq.
      destruct (proj2 (@blk_members t (nth j p 0) Ht Hpj)) as [A B]; [rewrite qp by exact Hjn; split; [exact E|lia]|]. lia.
Qed.
Lemma blk_lead t : t < n -> (nth t ctrl false = false <-> forall j, j < nth t q 0 -> nth j K [] <> nth (nth t q 0) K []).
Proof.
  intros Ht. pose proof (@blk_first n c K p q ctrl HK HS Hq pq Hctrl t Ht) as HF. apply first_eq_some in HF. destruct HF as (_ & HE & HM). split.
  - intros H. apply blk_start_self in H. rewrite H in *. exact HM.
  - intros H. destruct (nth t ctrl false) eqn:E; [|reflexivity]. exfalso. rewrite Hctrl in E by exact Ht. apply andb_prop in E. destruct E as [E0 E]. apply row_eq_iff in E. apply Nat.ltb_lt in E0.
    destruct (@q_order n c K p q HK HS Hq pq (t - 1) t ltac:(lia) Ht) as [H1|[_ H1]]; [rewrite E in H1; lia|]. apply (H _ H1 E).
Qed.
End Groups.
