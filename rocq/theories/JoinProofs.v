(* The plaintext join. *)
From Coq Require Import Sorted.
From Verif Require Import Base Words PermModel PermSpec PermProofs KeyMultModel BitInjProofs ShuffleModel ShuffleSpec ShuffleSpanProofs RadixModel RadixSpec RadixSortProofs StableSortProofs
  TableModel TableSpec TrimProofs TableProofs TableSortProofs TableOpsModel TableOpsSpec.

Lemma row_eq_iff x y : row_eq x y = true <-> x = y.
Proof. unfold row_eq. destruct (list_eq_dec N.eq_dec x y); split; congruence. Qed.
Lemma first_eq_some l x j : first_eq l x = Some j <-> j < length l /\ nth j l [] = x /\ forall i, i < j -> nth i l [] <> x.
Proof.
  revert j. induction l as [|y l IH]; intro j; cbn [first_eq]; [split; [easy|cbn; lia]|].
  destruct (row_eq y x) eqn:E.
  - apply row_eq_iff in E. subst y. split.
    + intro H. injection H as <-. cbn. split; [lia|]. split; [easy|lia].
    + intros [_ [_ H]]. destruct j as [|j]; [easy|]. exfalso. exact (H 0 ltac:(lia) eq_refl).
  - assert (NE : y <> x) by (intro H; apply row_eq_iff in H; congruence). destruct j as [|j].
    + split; [destruct (first_eq l x); discriminate|]. intros [_ [H _]]. cbn in H. contradiction.
    + specialize (IH j). split.
      * intro H. destruct (first_eq l x) as [k|]; [|discriminate]. injection H as ->. destruct (proj1 IH eq_refl) as [A [B C]]. cbn. split; [lia|]. split; [easy|].
        intros [|i] Hi; [easy|]. apply C. lia.
      * intros [A [B C]]. cbn in A, B. rewrite (proj2 IH); [easy|]. split; [lia|]. split; [easy|]. intros i Hi. apply (C (S i)). lia.
Qed.
Lemma first_eq_none l x : first_eq l x = None <-> ~ In x l.
Proof.
  induction l as [|y l IH]; cbn [first_eq]; [easy|]. destruct (row_eq y x) eqn:E.
  - apply row_eq_iff in E. subst. split; [discriminate|]. intro H. exfalso. apply H. now left.
  - assert (NE : y <> x) by (intro H; apply row_eq_iff in H; congruence). cbn [In]. destruct (first_eq l x); cbn [option_map]; split; try easy; intuition discriminate.
Qed.
Lemma le_num_inj x y : length x = length y -> bytes x -> bytes y -> le_num x = le_num y -> x = y.
Proof.
  intros L X Y E. apply bytes_ext; try easy. intros k Hk. rewrite <- !le_num_bit by easy. now rewrite E.
Qed.

Lemma eq_rows c x y : length x = c -> length y = c -> bytes x -> bytes y -> eq_bytes x y = Ok (le_num x =? le_num y)%N.
Proof.
  intros X Y BX BY. unfold eq_bytes. rewrite X, Y, Nat.eqb_refl. f_equal. destruct (N.eqb_spec (le_num x) (le_num y)) as [E|E].
  - apply bytes_eq_iff. apply le_num_inj; try easy. lia.
  - apply not_true_is_false. intro H. apply bytes_eq_iff in H. subst. easy.
Qed.

Section MERGE.
Variables (nl nr c : nat) (L R : list (list N)) (lp rp : list nat).
Hypotheses (HL : rows_ok nl c L) (HR : rows_ok nr c R) (PL : is_perm nl lp) (PR : is_perm nr rp).
Let kl (j : nat) : N := le_num (nth j L []).
Let kr (i : nat) : N := le_num (nth i R []).
Let a (t : nat) : N := kl (nth t lp 0).
Let b (t : nat) : N := kr (nth t rp 0).
Hypotheses (SL : StronglySorted (stable_rel kl lt) lp) (SR : StronglySorted (stable_rel kr lt) rp).

Lemma lp_lt t : t < nl -> nth t lp 0 < nl.
Proof. intro H. eapply is_perm_lt; [exact PL|]. apply nth_error_nth'. now rewrite (is_perm_length PL). Qed.
Lemma rp_lt t : t < nr -> nth t rp 0 < nr.
Proof. intro H. eapply is_perm_lt; [exact PR|]. apply nth_error_nth'. now rewrite (is_perm_length PR). Qed.
Lemma a_stable t t' : t < t' -> t' < nl -> stable_rel kl lt (nth t lp 0) (nth t' lp 0).
Proof. intros H H'. apply sorted_nth; [easy|]. rewrite (is_perm_length PL). lia. Qed.
Lemma a_mono t t' : t <= t' -> t' < nl -> (a t <= a t')%N.
Proof. intros H H'. destruct (Nat.eq_dec t t') as [->|NE]; [lia|]. destruct (@a_stable t t' ltac:(lia) H') as [X|[X _]]; unfold a; lia. Qed.
Lemma b_mono t t' : t <= t' -> t' < nr -> (b t <= b t')%N.
Proof.
  intros H H'. destruct (Nat.eq_dec t t') as [->|NE]; [lia|]. pose proof (@sorted_nth _ _ rp t t' 0 SR) as X. rewrite (is_perm_length PR) in X.
  destruct (X ltac:(lia)) as [Y|[Y _]]; unfold b; lia.
Qed.
Lemma get_lp t : t < nl -> get lp t = Ok (nth t lp 0).
Proof. intro H. apply get_ok. now rewrite (is_perm_length PL). Qed.
Lemma get_rp t : t < nr -> get rp t = Ok (nth t rp 0).
Proof. intro H. apply get_ok. now rewrite (is_perm_length PR). Qed.
Lemma get_L j : j < nl -> get L j = Ok (nth j L []).
Proof. intro H. apply get_ok. now rewrite (proj1 HL). Qed.
Lemma get_R j : j < nr -> get R j = Ok (nth j R []).
Proof. intro H. apply get_ok. now rewrite (proj1 HR). Qed.
Lemma less_LR j i : j < nl -> i < nr -> less_than (nth j L []) (nth i R []) = (kl j <? kr i)%N.
Proof.
  intros Hj Hi. destruct (rows_nth HL Hj) as [L1 B1], (rows_nth HR Hi) as [L2 B2]. apply less_than_ok; try easy. lia.
Qed.
Lemma eq_LL j j' : j < nl -> j' < nl -> eq_bytes (nth j L []) (nth j' L []) = Ok (kl j =? kl j')%N.
Proof. intros H H'. destruct (rows_nth HL H), (rows_nth HL H'). now apply eq_rows with c. Qed.
Lemma eq_LR j i : j < nl -> i < nr -> eq_bytes (nth j L []) (nth i R []) = Ok (kl j =? kr i)%N.
Proof. intros H H'. destruct (rows_nth HL H), (rows_nth HR H'). now apply eq_rows with c. Qed.

(* the number of left keys below v *)
Definition below (v : N) : nat := length (filter (fun t => (a t <? v)%N) (seq 0 nl)).
Definition is_below (v : N) (k : nat) : Prop := k <= nl /\ (forall t, t < k -> (a t < v)%N) /\ (k < nl -> (v <= a k)%N).
Definition dup_in (k k' : nat) : Prop := exists t, k <= t < k' /\ 0 < t /\ a (t - 1) = a t.
Lemma is_below_fun v k k' : is_below v k -> is_below v k' -> k = k'.
Proof.
  intros [A [B C]] [A' [B' C']]. destruct (Nat.lt_trichotomy k k') as [H|[H|H]]; [|easy|].
  - specialize (B' k H). specialize (C ltac:(lia)). lia.
  - specialize (B k' H). specialize (C' ltac:(lia)). lia.
Qed.
Lemma is_below_ex v : exists k, is_below v k.
Proof.
  assert (G : forall m, m <= nl -> (exists k, is_below v k) \/ forall t, t < m -> (a t < v)%N).
  { induction m as [|m IH]; intro Hm; [right; lia|]. destruct (IH ltac:(lia)) as [H|H]; [now left|]. destruct (N.lt_ge_cases (a m) v) as [X|X].
    - right. intros t Ht. destruct (Nat.eq_dec t m) as [->|]; [easy|apply H; lia].
    - left. exists m. split; [lia|]. split; [easy|]. easy. }
  destruct (G nl (le_n _)) as [H|H]; [easy|]. exists nl. split; [lia|]. split; [easy|lia].
Qed.

Lemma skip_ok i k : i < nr -> is_below (kr i) k -> forall d l0, l0 + d = k -> forall fuel, d < fuel ->
  (~ dup_in l0 k -> join_skip fuel L lp (nth i R []) l0 = Ok k) /\ (dup_in l0 k -> join_skip fuel L lp (nth i R []) l0 = Throw).
Proof.
  intros Hi [K1 [K2 K3]]. destruct HL as [LL _]. induction d as [|d IH]; intros l0 E fuel HF; (destruct fuel as [|fuel]; [lia|]); cbn [join_skip]; rewrite LL.
  - replace l0 with k by lia. split; [intros _|intros [t [T _]]; lia]. destruct (Nat.ltb_spec k nl) as [H|H]; [|easy].
    rewrite get_lp by easy. cbn [bind]. rewrite get_L by now apply lp_lt. cbn [bind]. rewrite less_LR by (try easy; now apply lp_lt).
    specialize (K3 H). unfold a in K3. replace (kl (nth k lp 0%nat) <? kr i)%N with false by (symmetry; apply N.ltb_ge; exact K3). easy.
  - assert (H : l0 < nl) by lia. replace (l0 <? nl) with true by (symmetry; now apply Nat.ltb_lt). rewrite get_lp by easy. cbn [bind]. rewrite get_L by now apply lp_lt. cbn [bind].
    rewrite less_LR by (try easy; now apply lp_lt). specialize (K2 l0 ltac:(lia)) as K2'. unfold a in K2'. replace (kl (nth l0 lp 0%nat) <? kr i)%N with true by (symmetry; apply N.ltb_lt; exact K2').
    destruct (IH (S l0) ltac:(lia) fuel ltac:(lia)) as [I1 I2]. destruct (Nat.eqb_spec l0 0) as [Z|Z].
    + cbn [bind]. split; intro D.
      * apply I1. intros [t [T [T1 T2]]]. apply D. exists t. split; [lia|easy].
      * apply I2. destruct D as [t [T [T1 T2]]]. exists t. split; [lia|easy].
    + rewrite get_lp by lia. cbn [bind]. rewrite get_L by (apply lp_lt; lia). cbn [bind]. rewrite eq_LL by (apply lp_lt; lia). cbn [bind].
      destruct (N.eqb_spec (kl (nth (l0 - 1) lp 0)) (kl (nth l0 lp 0))) as [Q|Q]; cbn [throw_if bind].
      * split; [|easy]. intro D. exfalso. apply D. exists l0. split; [lia|]. split; [lia|exact Q].
      * split; intro D.
        -- apply I1. intros [t [T [T1 T2]]]. apply D. exists t. split; [lia|easy].
        -- apply I2. destruct D as [t [T [T1 T2]]]. exists t. split; [|easy]. destruct (Nat.eq_dec t l0) as [->|]; [contradiction|lia].
Qed.

(* the match of right row i *)
Definition hit (t : nat) : list (nat * nat * nat) :=
  match first_eq L (nth (nth t rp 0) R []) with Some j => [(j, nth t rp 0, t)] | None => [] end.
Lemma kl_row i j : i < nr -> j < nl -> kl j = kr i <-> nth j L [] = nth i R [].
Proof.
  intros Hi Hj. destruct (rows_nth HL Hj), (rows_nth HR Hi). split; intro E; [|unfold kl, kr; now rewrite E]. apply le_num_inj; try easy. lia.
Qed.
Lemma hit_below i k : i < nr -> is_below (kr i) k -> first_eq L (nth i R []) = if (k <? nl) then (if (a k =? kr i)%N then Some (nth k lp 0) else None) else None.
Proof.
  intros Hi [K1 [K2 K3]]. destruct HL as [LL _].
  assert (POS : forall j, j < nl -> kl j = kr i -> exists t, k <= t < nl /\ nth t lp 0 = j).
  { intros j Hj E. destruct (is_perm_onto PL Hj) as [t [Ht Et]]. exists t. apply nth_error_nth with (d := 0) in Et. split; [|easy]. split; [|easy].
    destruct (Nat.le_gt_cases k t); [easy|]. specialize (K2 t ltac:(lia)). unfold a in K2. rewrite Et in K2. lia. }
  destruct (Nat.ltb_spec k nl) as [H|H].
  - destruct (N.eqb_spec (a k) (kr i)) as [E|E].
    + apply first_eq_some. rewrite LL. split; [now apply lp_lt|]. split; [apply kl_row; [easy|now apply lp_lt|exact E]|].
      intros j Hj Ej. assert (Hj' : j < nl) by (pose proof (lp_lt H); lia). apply kl_row in Ej; [|easy|easy]. destruct (POS j Hj' Ej) as [t [T T']].
      destruct (Nat.eq_dec t k) as [->|NE]; [lia|]. destruct (@a_stable k t ltac:(lia) ltac:(lia)) as [X|[_ X]]; [|lia]. rewrite T' in X. unfold a in E. lia.
    + apply first_eq_none. intro I. apply In_nth with (d := []) in I. destruct I as [j [Hj Ej]]. rewrite LL in Hj. apply kl_row in Ej; [|easy|easy]. destruct (POS j Hj Ej) as [t [T T']].
      pose proof (@a_mono k t ltac:(lia) ltac:(lia)) as M. unfold a at 2 in M. rewrite T' in M. specialize (K3 H). lia.
  - apply first_eq_none. intro I. apply In_nth with (d := []) in I. destruct I as [j [Hj Ej]]. rewrite LL in Hj. apply kl_row in Ej; [|easy|easy]. destruct (POS j Hj Ej) as [t [T T']]. lia.
Qed.

Lemma step_ok t l0 I k : t < nr -> is_below (b t) k -> l0 <= k ->
  (~ dup_in l0 k -> join_step L R lp rp t (l0, I) = Ok (k, I ++ hit t)) /\ (dup_in l0 k -> join_step L R lp rp t (l0, I) = Throw).
Proof.
  intros Ht HB Hl. pose proof (rp_lt Ht) as Hi. unfold join_step. rewrite get_rp by easy. cbn [bind]. rewrite get_R by easy. cbn [bind fst snd].
  destruct (@skip_ok (nth t rp 0) k Hi HB (k - l0) l0 ltac:(lia) (S (length L))) as [S1 S2]; [destruct HL as [-> _]; destruct HB as [HB _]; lia|].
  split; intro D; [rewrite (S1 D)|rewrite (S2 D); easy]. cbn [bind]. destruct HL as [LL _]. rewrite LL. unfold hit. rewrite (hit_below Hi HB).
  destruct (Nat.ltb_spec k nl) as [H|H]; [|now rewrite app_nil_r]. rewrite get_lp by easy. cbn [bind]. rewrite get_L by now apply lp_lt. cbn [bind].
  rewrite eq_LR by (try easy; now apply lp_lt). cbn [bind]. fold (a k). destruct (a k =? kr (nth t rp 0%nat))%N; [easy|now rewrite app_nil_r].
Qed.

(* the whole loop *)
Definition dup_below (m : nat) : Prop := exists t, 0 < t < nl /\ a (t - 1) = a t /\ exists s, s < m /\ (a t < b s)%N.
Lemma loop_ok m : m <= nr -> forall k0, (m = 0 /\ k0 = 0) \/ (0 < m /\ is_below (b (m - 1)) k0) ->
  (~ dup_below m -> forN 0 m (join_step L R lp rp) (0, []) = Ok (k0, concat (map hit (seq 0 m)))) /\
  (dup_below m -> forN 0 m (join_step L R lp rp) (0, []) = Throw).
Proof.
  induction m as [|m IH]; intros Hm k0 HK.
  { split; [|intros [t [_ [_ [s [Hs _]]]]]; lia]. destruct HK as [[_ ->]|[HK _]]; [easy|lia]. }
  destruct HK as [[HK _]|[_ HK]]; [lia|]. replace (S m - 1) with m in HK by lia.
  assert (PREV : exists k, (m = 0 /\ k = 0) \/ (0 < m /\ is_below (b (m - 1)) k)).
  { destruct m; [exists 0; now left|]. destruct (is_below_ex (b (S m - 1))) as [k Hk]. exists k. right. split; [lia|easy]. }
  destruct PREV as [k Hk]. destruct (IH ltac:(lia) k Hk) as [I1 I2].
  assert (KK : k <= k0).
  { destruct Hk as [[_ ->]|[Hm0 [A [B C]]]]; [lia|]. destruct HK as [A' [B' C']]. destruct (Nat.le_gt_cases k k0); [easy|]. specialize (B k0 ltac:(lia)). specialize (C' ltac:(lia)).
    pose proof (@b_mono (m - 1) m ltac:(lia) ltac:(lia)). lia. }
  replace (S m) with (m + 1) by lia. rewrite !forN_app. cbn [Nat.add].
  assert (DEC : dup_in k k0 \/ ~ dup_in k k0).
  { clear. destruct (existsb (fun t => (0 <? t) && (a (t - 1) =? a t)%N) (seq k (k0 - k))) eqn:E.
    - left. apply existsb_exists in E. destruct E as [t [T E]]. apply in_seq in T. apply andb_true_iff in E. destruct E as [E1 E2]. apply Nat.ltb_lt in E1. apply N.eqb_eq in E2.
      exists t. split; [lia|]. split; easy.
    - right. intros [t [T [T1 T2]]]. apply not_true_iff_false in E. apply E. apply existsb_exists. exists t. split; [apply in_seq; lia|]. apply andb_true_iff. split; [now apply Nat.ltb_lt|now apply N.eqb_eq]. }
  assert (DM : dup_below m \/ ~ dup_below m).
  { clear. destruct (existsb (fun t => (0 <? t) && (a (t - 1) =? a t)%N && existsb (fun s => (a t <? b s)%N) (seq 0 m)) (seq 0 nl)) eqn:E.
    - left. apply existsb_exists in E. destruct E as [t [T E]]. apply in_seq in T. rewrite !andb_true_iff in E. destruct E as [[E1 E2] E3]. apply Nat.ltb_lt in E1. apply N.eqb_eq in E2.
      apply existsb_exists in E3. destruct E3 as [s [Hs E3]]. apply in_seq in Hs. apply N.ltb_lt in E3. exists t. split; [lia|]. split; [easy|]. exists s. split; [lia|easy].
    - right. intros [t [T [T1 [s [Hs T2]]]]]. apply not_true_iff_false in E. apply E. apply existsb_exists. exists t. split; [apply in_seq; lia|]. rewrite !andb_true_iff. split; [split|].
      + apply Nat.ltb_lt. lia.
      + now apply N.eqb_eq.
      + apply existsb_exists. exists s. split; [apply in_seq; lia|now apply N.ltb_lt]. }
  assert (EQ : dup_below (S m) <-> dup_below m \/ dup_in k k0).
  { split.
    - intros [t [T [T1 [s [Hs T2]]]]]. destruct (Nat.lt_ge_cases t k) as [Q|Q].
      + left. destruct Hk as [[_ ->]|[Hm0 [A [B C]]]]; [lia|]. exists t. split; [lia|]. split; [easy|]. exists (m - 1). split; [lia|]. now apply B.
      + right. exists t. split; [|lia]. split; [easy|]. destruct HK as [A [B C]]. destruct (Nat.lt_ge_cases t k0) as [Q'|Q']; [easy|]. specialize (C ltac:(lia)).
        pose proof (@a_mono k0 t Q' ltac:(lia)). pose proof (@b_mono s m ltac:(lia) ltac:(lia)). lia.
    - intros [[t [T [T1 [s [Hs T2]]]]]|[t [T [T1 T2]]]].
      + exists t. split; [easy|]. split; [easy|]. exists s. split; [lia|easy].
      + destruct HK as [A [B C]]. exists t. split; [lia|]. split; [easy|]. exists m. split; [lia|]. apply B. lia. }
  replace (m + 1) with (S m) by lia.
  destruct DM as [DM|DM]; [rewrite (I2 DM); split; [intro H; exfalso; apply H, EQ; now left|easy]|]. rewrite (I1 DM). cbn [bind].
  cbn [forN]. destruct (@step_ok m k (concat (map hit (seq 0 m))) k0 ltac:(lia) HK KK) as [S1 S2].
  replace (seq 0 (S m)) with (seq 0 m ++ [m]) by (rewrite seq_S; easy). rewrite map_app, concat_app. cbn [map concat]. rewrite app_nil_r.
  destruct DEC as [D|D].
  - rewrite (S2 D). split; [intro H; exfalso; apply H, EQ; now right|easy].
  - rewrite (S1 D). split; [easy|]. intro H. apply EQ in H. tauto.
Qed.

Lemma dup_below_iff : dup_below nr <-> exists j j' i, j < nl /\ j' < nl /\ j <> j' /\ i < nr /\ nth j L [] = nth j' L [] /\ (kl j < kr i)%N.
Proof.
  split.
  - intros [t [T [T1 [s [Hs T2]]]]]. exists (nth (t - 1) lp 0), (nth t lp 0), (nth s rp 0). split; [apply lp_lt; lia|]. split; [apply lp_lt; lia|]. split; [|split; [now apply rp_lt|]].
    + intro E. pose proof (is_perm_NoDup PL) as ND. apply (proj1 (NoDup_nth lp 0) ND) in E; rewrite ?(is_perm_length PL); lia.
    + split; [|unfold a, b in *; lia]. pose proof (@lp_lt (t - 1) ltac:(lia)) as H1. pose proof (@lp_lt t ltac:(lia)) as H2. destruct (rows_nth HL H1), (rows_nth HL H2). apply le_num_inj; try easy. lia.
  - intros [j [j' [i [Hj [Hj' [NE [Hi [E LT]]]]]]]]. destruct (is_perm_onto PL Hj) as [t [Ht Et]], (is_perm_onto PL Hj') as [t' [Ht' Et']], (is_perm_onto PR Hi) as [s [Hs Es]].
    apply nth_error_nth with (d := 0) in Et, Et', Es. assert (EA : a t = a t') by (unfold a, kl; rewrite Et, Et', E; easy).
    assert (EB : b s = kr i) by (unfold b; now rewrite Es). assert (EJ : a t = kl j) by (unfold a; now rewrite Et).
    assert (GEN : forall u u', u < u' -> u' < nl -> a u = a u' -> a u = kl j -> dup_below nr).
    { intros u u' Hu Hu' EU EV. exists (S u). split; [lia|]. pose proof (@a_mono u (S u) ltac:(lia) ltac:(lia)). pose proof (@a_mono (S u) u' ltac:(lia) ltac:(lia)).
      replace (S u - 1) with u by lia. split; [lia|]. exists s. split; [easy|lia]. }
    destruct (Nat.lt_trichotomy t t') as [H|[H|H]].
    + apply (GEN t t'); easy.
    + subst t'. congruence.
    + apply (GEN t' t); try easy. lia.
Qed.
End MERGE.

(* ---------- copying ---------- *)
Definition found (I : list (nat * nat * nat)) (d : nat) : option (nat * nat * nat) := find (fun m => snd m =? d) I.
Lemma find_app A (f : A -> bool) l l' : find f (l ++ l') = match find f l with Some x => Some x | None => find f l' end.
Proof. induction l as [|x l IH]; cbn [app find]; [easy|]. destruct (f x); easy. Qed.
Lemma find_none_iff A (f : A -> bool) l : (forall x, In x l -> f x = false) -> find f l = None.
Proof. induction l as [|x l IH]; intro H; [easy|]. cbn [find]. rewrite (H x (or_introl eq_refl)). apply IH. intros y Hy. apply H. now right. Qed.
Lemma upd_map_seq A (f : nat -> A) n d x : upd (map f (seq 0 n)) d x = map (fun e => if e =? d then x else f e) (seq 0 n).
Proof.
  apply nth_ext with x x; [now rewrite upd_length, !map_length|]. rewrite upd_length, map_length, seq_length. intros i Hi.
  rewrite F2CodeProofs.nth_upd, map_length, seq_length. rewrite !nth_map_seq' by easy. cbn [Nat.add]. destruct (Nat.eqb_spec d i) as [->|NE].
  - replace (i <? n) with true by (symmetry; now apply Nat.ltb_lt). now rewrite Nat.eqb_refl.
  - cbn [andb]. destruct (Nat.eqb_spec i d); [congruence|easy].
Qed.
Definition sel_row (rt : nat) (s : nat * column) (m : nat * nat * nat) : list N :=
  let '(li, ri, d) := m in nth (if fst s =? rt then ri else li) (bRows (cDat (snd s))) [].
Definition copied (rt n : nat) (I : list (nat * nat * nat)) (s : nat * column) : column :=
  with_rows (snd s) (map (fun d => match found I d with Some m => sel_row rt s m | None => repeat 0%N (bCols (cDat (snd s))) end) (seq 0 n)).
Definition copied_act (n : nat) (I : list (nat * nat * nat)) : list N := map (fun d => match found I d with Some _ => 1%N | None => 0%N end) (seq 0 n).

Lemma mapM_combine_map A B C (f : A * B -> outcome C) (g : A -> B) (h : A -> C) l : (forall a, In a l -> f (a, g a) = Ok (h a)) -> mapM f (combine l (map g l)) = Ok (map h l).
Proof.
  induction l as [|a l IH]; intro H; [easy|]. cbn [map combine mapM]. rewrite (H a (or_introl eq_refl)). cbn [bind]. rewrite IH; [easy|]. intros b Hb. apply H. now right.
Qed.

Section COPY.
Variables (rt nl nr : nat) (select : list (nat * column)).
Hypothesis HS : forall s, In s select -> (fst s = rt /\ col_ok nr (snd s)) \/ (fst s <> rt /\ col_ok nl (snd s)).
Lemma copy_step I m s : In s select -> fst (fst m) < nl -> snd (fst m) < nr -> snd m < nr -> found I (snd m) = None ->
  join_copy rt m s (copied rt nr I s) = Ok (copied rt nr (I ++ [m]) s).
Proof.
  intros Hs Hl Hr Hd HF. destruct m as [[li ri] d]. cbn [fst snd] in *. unfold join_copy. set (k := if fst s =? rt then ri else li).
  assert (G : exists n, k < n /\ col_ok n (snd s)).
  { unfold k. destruct (HS Hs) as [[E C]|[E C]]; [exists nr; rewrite E, Nat.eqb_refl; easy|]. exists nl. destruct (Nat.eqb_spec (fst s) rt); easy. }
  destruct G as [n [Hk C]]. pose proof (col_rows_ok C) as R. destruct (rows_nth R Hk) as [LX BX].
  rewrite (@get_ok _ (bRows (cDat (snd s))) k []) by (rewrite (proj1 R); easy). cbn [bind]. unfold copied at 1. rewrite with_rows_rows.
  rewrite (@get_ok _ _ d []) by (now rewrite map_length, seq_length). cbn [bind]. rewrite nth_map_seq' by easy. cbn [Nat.add]. rewrite HF, repeat_length, LX, Nat.eqb_refl.
  unfold copied at 1. rewrite with_rows_rows. rewrite set_lt by (now rewrite map_length, seq_length). cbn [bind].
  unfold copied, with_rows. cbn [cName cType cBits cDat bBits bCols]. do 2 f_equal. f_equal. rewrite upd_map_seq. apply map_ext. intro e. unfold found. rewrite find_app. cbn [find snd].
  destruct (Nat.eqb_spec e d) as [->|NE].
  - unfold found in HF. rewrite HF, Nat.eqb_refl. reflexivity.
  - destruct (Nat.eqb_spec d e); [congruence|]. now destruct (find _ I).
Qed.
Lemma copy_all I : (forall m, In m I -> fst (fst m) < nl /\ snd (fst m) < nr /\ snd m < nr) -> NoDup (map snd I) ->
  forN 0 (length I) (fun i ca =>
      do m <- get I i;
      do cs <- mapM (fun sd => join_copy rt m (fst sd) (snd sd)) (combine select (fst ca));
      do act <- set (snd ca) (snd m) 1%N;
      Ok (cs, act)) (map (copied rt nr []) select, copied_act nr []) = Ok (map (copied rt nr I) select, copied_act nr I).
Proof.
  intros HI ND. match goal with |- forN _ _ ?f _ = _ => destruct (@forN_inv _ (fun k st => st = (map (copied rt nr (firstn k I)) select, copied_act nr (firstn k I))) f (length I) 0 (map (copied rt nr []) select, copied_act nr [])) as [st [E ->]] end.
  - easy.
  - intros k st Hk ->. pose proof (@get_ok _ I k (0, 0, 0) ltac:(lia)) as G. rewrite G. cbn [bind fst snd]. set (m := nth k I (0, 0, 0)).
    destruct (HI m) as [H1 [H2 H3]]; [apply nth_In; lia|].
    assert (F : found (firstn k I) (snd m) = None).
    { apply find_none_iff. intros x Hx. apply Nat.eqb_neq. intro E. apply In_nth with (d := (0, 0, 0)) in Hx. destruct Hx as [j [Hj Ej]]. rewrite firstn_length in Hj. rewrite CompressProofs.nth_firstn in Ej by lia.
      pose proof (proj1 (NoDup_nth (map snd I) 0) ND j k) as D. rewrite map_length in D. specialize (D ltac:(lia) ltac:(lia)). rewrite !(@map_nth _ _ snd I (0, 0, 0)) in D. 
      rewrite Ej in D. specialize (D E). lia. }
    assert (FS : firstn (k + 1) I = firstn k I ++ [m]).
    { rewrite <- (firstn_skipn k I) at 1. rewrite firstn_app, firstn_firstn, firstn_length. replace (Nat.min (k + 1) k) with k by lia. replace (k + 1 - Nat.min k (length I)) with 1 by lia. f_equal.
      unfold m. replace (nth k I (0, 0, 0)) with (nth 0 (skipn k I) (0, 0, 0)) by (rewrite CompressProofs.nth_skipn; f_equal; lia). destruct (skipn k I) eqn:Es; [|easy]. apply (f_equal (@length _)) in Es. rewrite skipn_length in Es. cbn in Es. lia. }
    rewrite (@mapM_combine_map _ _ _ _ _ (copied rt nr (firstn k I ++ [m]))).
    2:{ intros s Hs. cbn [fst snd]. now apply copy_step. }
    cbn [bind]. unfold copied_act at 1. rewrite set_lt by (now rewrite map_length, seq_length). cbn [bind]. eexists. split; [reflexivity|]. rewrite FS. f_equal. rewrite upd_map_seq. unfold copied_act. apply map_ext.
    intro e. unfold found. rewrite find_app. cbn [find]. destruct (Nat.eqb_spec e (snd m)) as [->|NE].
    + unfold found in F. now rewrite F, Nat.eqb_refl.
    + destruct (Nat.eqb_spec (snd m) e); [congruence|]. now destruct (find _ (firstn k I)).
  - rewrite E. cbn [Nat.add]. now rewrite firstn_all.
Qed.
End COPY.

(* ---------- the join ---------- *)
Lemma order_eq n c : col_ok n c -> order_of n c (col_sort c).
Proof. intro H. destruct (col_sort_ok H) as [P O]. split; [easy|]. exact O. Qed.

Section HITS.
Variables (nl nr : nat) (l r : column).
Hypotheses (CL : col_ok nl l) (CR : col_ok nr r).
Let H_ (t : nat) := hit (bRows (cDat l)) (bRows (cDat r)) (col_sort r) t.
Lemma hit_snd t m : In m (H_ t) -> snd m = t.
Proof. unfold H_, hit. destruct (first_eq _ _); [|easy]. intros [<-|[]]. easy. Qed.
Lemma hits_NoDup n k : NoDup (map snd (concat (map H_ (seq k n)))).
Proof.
  revert k. induction n as [|n IH]; intro k; [constructor|]. cbn [seq map concat]. rewrite map_app. unfold H_ at 1, hit. destruct (first_eq _ _); [|cbn [map app]; apply IH].
  cbn [map app snd]. constructor; [|apply IH]. intro X. apply in_map_iff in X. destruct X as [m [E Hm]]. apply in_concat in Hm. destruct Hm as [h [Hh Hm]]. apply in_map_iff in Hh. destruct Hh as [t [<- Ht]].
  apply in_seq in Ht. apply hit_snd in Hm. lia.
Qed.
Lemma hits_bound m : In m (concat (map H_ (seq 0 nr))) -> fst (fst m) < nl /\ snd (fst m) < nr /\ snd m < nr.
Proof.
  intro H. apply in_concat in H. destruct H as [h [Hh Hm]]. apply in_map_iff in Hh. destruct Hh as [t [<- Ht]]. apply in_seq in Ht. unfold H_, hit in Hm. destruct (first_eq _ _) as [j|] eqn:E; [|easy].
  destruct Hm as [<-|[]]. cbn [fst snd]. apply first_eq_some in E. destruct E as [E _]. rewrite (proj1 (col_rows_ok CL)) in E. split; [easy|]. split; [|lia]. refine (rp_lt _ (proj2 Ht)). apply (col_sort_ok CR).
Qed.
Lemma find_hits n k d : k <= d < k + n -> found (concat (map H_ (seq k n))) d = match H_ d with [] => None | m :: _ => Some m end.
Proof.
  revert k. induction n as [|n IH]; intros k Hd; [lia|]. cbn [seq map concat]. unfold found. rewrite find_app. destruct (Nat.eq_dec k d) as [->|NE].
  - assert (N : find (fun m => snd m =? d) (concat (map H_ (seq (S d) n))) = None).
    { apply find_none_iff. intros m Hm. apply Nat.eqb_neq. apply in_concat in Hm. destruct Hm as [h [Hh Hm]]. apply in_map_iff in Hh. destruct Hh as [t [<- Ht]]. apply in_seq in Ht. apply hit_snd in Hm. lia. }
    rewrite N. unfold H_, hit. destruct (first_eq _ _); [|easy]. cbn [find snd]. now rewrite Nat.eqb_refl.
  - replace (find (fun m => snd m =? d) (H_ k)) with (@None (nat * nat * nat)); [apply (IH (S k)); lia|]. symmetry. apply find_none_iff. intros m Hm. apply Nat.eqb_neq. apply hit_snd in Hm. lia.
Qed.
End HITS.

Definition select_ok (lt rt nl nr : nat) (s : nat * column) : Prop :=
  (fst s = rt /\ col_ok nr (snd s)) \/ (fst s <> rt /\ fst s = lt /\ col_ok nl (snd s)).

Lemma join_loop nl nr l r : col_ok nl l -> col_ok nr r -> cBits l = cBits r ->
  (~ low_duplicate nl nr l r -> exists k, forN 0 nr (join_step (bRows (cDat l)) (bRows (cDat r)) (col_sort l) (col_sort r)) (0, []) =
     Ok (k, concat (map (hit (bRows (cDat l)) (bRows (cDat r)) (col_sort r)) (seq 0 nr)))) /\
  (low_duplicate nl nr l r -> forN 0 nr (join_step (bRows (cDat l)) (bRows (cDat r)) (col_sort l) (col_sort r)) (0, []) = Throw).
Proof.
  intros CL CR EB. destruct (col_sort_ok CL) as [PL SL], (col_sort_ok CR) as [PR SR]. pose proof (col_rows_ok CL) as RL. pose proof (col_rows_ok CR) as RR.
  assert (EC : bCols (cDat l) = bCols (cDat r)).
  { destruct CL as [[_ A] [_ [B _]]], CR as [[_ A'] [_ [B' _]]]. rewrite A, A', <- B, <- B', EB. easy. }
  rewrite <- EC in RR.
  pose proof (@dup_below_iff nl nr (bCols (cDat l)) (bRows (cDat l)) (bRows (cDat r)) (col_sort l) (col_sort r) RL PL PR SL) as DI.
  assert (K : exists k0, (nr = 0 /\ k0 = 0) \/ (0 < nr /\ is_below nl (bRows (cDat l)) (col_sort l) (le_num (nth (nth (nr - 1) (col_sort r) 0) (bRows (cDat r)) [])) k0)).
  { destruct nr as [|m]; [exists 0; now left|]. destruct (@is_below_ex nl 0 (bRows (cDat l)) [] (col_sort l) [] (le_num (nth (nth (S m - 1) (col_sort r) 0) (bRows (cDat r)) []))) as [k Hk]. exists k. right. split; [lia|easy]. }
  destruct K as [k0 HK].
  destruct (@loop_ok nl nr (bCols (cDat l)) _ _ _ _ RL RR PL PR SL SR nr (le_n _) k0 HK) as [A B]. split; intro D.
  - exists k0. apply A. intro X. apply D. apply DI in X. exact X.
  - apply B, DI. exact D.
Qed.

Lemma copied_nil rt nl nr s : (fst s = rt /\ col_ok nr (snd s)) \/ (fst s <> rt /\ col_ok nl (snd s)) -> fresh_col nr (info_of (snd s)) = copied rt nr [] s.
Proof.
  intro H. assert (C : exists n, col_ok n (snd s)) by (destruct H as [[_ C]|[_ C]]; eauto). destruct C as [n [[_ E] [_ [B _]]]].
  unfold fresh_col, copied, with_rows, info_of, bm_zero. cbn [iName iType iBits found find]. rewrite E, B. f_equal. f_equal.
  clear. induction nr as [|m IH] in |- *; [easy|]. cbn [repeat seq map]. f_equal. rewrite <- seq_shift, map_map. exact IH.
Qed.

Lemma t_join_ok lt l rt r select nl nr : col_ok nl l -> col_ok nr r -> cBits l = cBits r -> Forall (select_ok lt rt nl nr) select -> NoDup (map (fun s => cName (snd s)) select) ->
  ~ low_duplicate nl nr l r ->
  t_join lt l rt r select = Ok (Tab (map (join_flag l r) (col_sort r)) (map (fun s => with_rows (snd s) (map (join_row l r rt s) (col_sort r))) select)).
Proof.
  intros CL CR EB HS ND LD. unfold t_join. rewrite EB, Nat.eqb_refl. cbn [negb throw_if bind]. replace (bm_n (cDat r)) with nr by (symmetry; apply CR).
  destruct (proj1 (join_loop CL CR EB) LD) as [k ->]. cbn [bind snd]. set (I := concat _).
  assert (HS' : forall s, In s select -> (fst s = rt /\ col_ok nr (snd s)) \/ (fst s <> rt /\ col_ok nl (snd s))) by (intros s Hs; rewrite Forall_forall in HS; destruct (HS s Hs) as [[A B]|[A [B C]]]; tauto).
  assert (HSi : forall s, In s select -> col_info (snd s) = Ok (info_of (snd s))).
  { intros s Hs. unfold col_info. apply mk_info_ok. destruct (HS' s Hs) as [[_ C]|[_ C]]; destruct C as [_ [_ [E [_ H]]]]; rewrite E; exact H. }
  rewrite (@mapM_ok _ _ _ (fun s => info_of (snd s))).
  2:{ intros s Hs. rewrite Forall_forall in HS. destruct (HS s Hs) as [[A _]|[_ [A _]]]; rewrite A, Nat.eqb_refl; [rewrite andb_false_r|]; cbn [negb andb throw_if bind]; now apply HSi. }
  cbn [bind]. unfold t_init. rewrite init_cols_ok.
  3:{ intros i Hi. apply in_map_iff in Hi. destruct Hi as [s [<- Hs]]. split; [easy|]. cbn [info_of iType iBits]. destruct (HS' s Hs) as [[_ C]|[_ C]]; destruct C as [_ [_ [E [_ H]]]]; rewrite E; exact H. }
  2:{ rewrite map_map. exact ND. }
  cbn [bind]. rewrite map_map. rewrite (map_ext_in _ (copied rt nr [])) by (intros s Hs; apply (@copied_nil rt nl); now apply HS').
  replace (repeat 0%N nr) with (copied_act nr []).
  2:{ unfold copied_act. cbn [found find]. clear. induction nr as [|m IH]; [easy|]. cbn [seq map repeat]. f_equal. rewrite <- seq_shift, map_map. exact IH. }
  rewrite (@copy_all rt nl nr select HS' I).
  3:{ apply hits_NoDup. }
  2:{ intros m Hm. now apply (@hits_bound nl nr l r CL CR). }
  cbn [bind fst snd]. do 2 f_equal.
  - unfold copied_act. destruct (col_sort_ok CR) as [PR _]. apply nth_ext with 0%N 0%N; [now rewrite !map_length, seq_length, (is_perm_length PR)|]. rewrite map_length, seq_length. intros d Hd.
    rewrite nth_map_seq' by easy. cbn [Nat.add]. unfold I. rewrite find_hits by lia. rewrite (nth_indep _ 0%N (join_flag l r 0)) by (rewrite map_length, (is_perm_length PR); lia). rewrite map_nth. unfold hit, join_flag, key.
    now destruct (first_eq _ _).
  - apply map_ext_in. intros s Hs. unfold copied. f_equal. destruct (col_sort_ok CR) as [PR _]. apply nth_ext with [] []; [now rewrite !map_length, seq_length, (is_perm_length PR)|]. rewrite map_length, seq_length. intros d Hd.
    rewrite nth_map_seq' by easy. cbn [Nat.add]. unfold I. rewrite find_hits by lia. rewrite (nth_indep _ [] (join_row l r rt s 0)) by (rewrite map_length, (is_perm_length PR); lia). rewrite map_nth. unfold hit, join_row, key.
    destruct (first_eq _ _); [|easy]. cbn [sel_row]. now destruct (fst s =? rt).
Qed.
Lemma t_join_dup lt l rt r select nl nr : col_ok nl l -> col_ok nr r -> cBits l = cBits r -> low_duplicate nl nr l r -> t_join lt l rt r select = Throw.
Proof.
  intros CL CR EB LD. unfold t_join. rewrite EB, Nat.eqb_refl. cbn [negb throw_if bind]. replace (bm_n (cDat r)) with nr by (symmetry; apply CR). now rewrite (proj2 (join_loop CL CR EB) LD).
Qed.
Lemma low_dup_dec nl nr l r : low_duplicate nl nr l r \/ ~ low_duplicate nl nr l r.
Proof.
  destruct (existsb (fun j => existsb (fun j' => existsb (fun i => negb (j =? j') && row_eq (key l j) (key l j') && (le_num (key l j) <? le_num (key r i))%N) (seq 0 nr)) (seq 0 nl)) (seq 0 nl)) eqn:E.
  - left. apply existsb_exists in E. destruct E as [j [Hj E]]. apply existsb_exists in E. destruct E as [j' [Hj' E]]. apply existsb_exists in E. destruct E as [i [Hi E]]. apply in_seq in Hj, Hj', Hi.
    rewrite !andb_true_iff, negb_true_iff in E. destruct E as [[E1 E2] E3]. apply Nat.eqb_neq in E1. apply row_eq_iff in E2. apply N.ltb_lt in E3. exists j, j', i. repeat split; try easy; lia.
  - right. intros [j [j' [i [H1 [H2 [H3 [H4 [H5 H6]]]]]]]]. apply not_true_iff_false in E. apply E. apply existsb_exists. exists j. split; [apply in_seq; lia|]. apply existsb_exists. exists j'. split; [apply in_seq; lia|].
    apply existsb_exists. exists i. split; [apply in_seq; lia|]. rewrite !andb_true_iff, negb_true_iff. split; [split; [now apply Nat.eqb_neq|now apply row_eq_iff]|now apply N.ltb_lt].
Qed.
Lemma col_info_cases c : col_info c = Throw \/ col_info c = Ok (info_of c).
Proof. unfold col_info, mk_info. destruct ((cType c =? 2) && _); [now left|now right]. Qed.
Lemma t_join_stranger lt l rt r select nl nr : col_ok nl l -> col_ok nr r -> cBits l = cBits r -> (exists s, In s select /\ fst s <> lt /\ fst s <> rt) -> t_join lt l rt r select = Throw.
Proof.
  intros CL CR EB [s [Hs [N1 N2]]]. destruct (low_dup_dec nl nr l r) as [D|D]; [now apply t_join_dup with nl nr|].
  unfold t_join. rewrite EB, Nat.eqb_refl. cbn [negb throw_if bind]. replace (bm_n (cDat r)) with nr by (symmetry; apply CR). destruct (proj1 (join_loop CL CR EB) D) as [k ->]. cbn [bind snd].
  match goal with |- bind (mapM ?f _) _ = _ => assert (T : mapM f select = Throw) end; [|now rewrite T].
  clear D. induction select as [|x select' IH]; [easy|]. cbn [mapM]. destruct Hs as [<-|Hs].
  - apply Nat.eqb_neq in N1, N2. now rewrite N1, N2.
  - destruct (negb (fst x =? lt) && negb (fst x =? rt)); [easy|]. cbn [throw_if bind]. destruct (col_info_cases (snd x)) as [->| ->]; [easy|]. cbn [bind]. now rewrite IH.
Qed.
Lemma t_join_names lt l rt r select nl nr : col_ok nl l -> col_ok nr r -> cBits l = cBits r -> ~ NoDup (map (fun s => cName (snd s)) select) -> t_join lt l rt r select = Throw.
Proof.
  intros CL CR EB ND. destruct (low_dup_dec nl nr l r) as [D|D]; [now apply t_join_dup with nl nr|].
  unfold t_join. rewrite EB, Nat.eqb_refl. cbn [negb throw_if bind]. replace (bm_n (cDat r)) with nr by (symmetry; apply CR). destruct (proj1 (join_loop CL CR EB) D) as [k ->]. cbn [bind snd].
  match goal with |- bind (mapM ?f _) _ = _ => assert (T : mapM f select = Throw \/ mapM f select = Ok (map (fun s => info_of (snd s)) select)) end.
  { clear ND D. induction select as [|x select' IH]; [now right|]. cbn [mapM map]. destruct (negb (fst x =? lt) && negb (fst x =? rt)); [now left|]. cbn [throw_if bind].
    destruct (col_info_cases (snd x)) as [->| ->]; [now left|]. cbn [bind]. destruct IH as [->| ->]; [now left|now right]. }
  destruct T as [->| ->]; [easy|]. cbn [bind]. unfold t_init. rewrite init_cols_dup; [easy|]. right. now rewrite map_map.
Qed.
