(* Proofs that the messages of the mod 2 protocols hide the inputs, continued. *)
From Coq Require Import Btauto.
From Verif Require Import Base Words Mod3Model ConvModel ConvSpec ConvProofs PrivSpec ConvPrivacy.

Lemma pairs2_length : forall n m, length m = 2 * n -> length (pairs2 m) = n.
Proof. induction n as [|n IH]; intros [|a [|b m]] H; cbn in H; try lia; [reflexivity|]. cbn [pairs2 length]. rewrite IH; lia. Qed.
Lemma pairs2_app : forall n m r, length m = 2 * n -> pairs2 (m ++ r) = pairs2 m ++ pairs2 r.
Proof. induction n as [|n IH]; intros [|a [|b m]] r H; cbn in H; try lia; [reflexivity|]. cbn [pairs2 app]. rewrite IH by lia. reflexivity. Qed.

Lemma chunk2_view h : forall t x x' d k, length x = length x' ->
  (forall i, i < length x -> i < length t -> i < length d -> fst (f4_send1 (h (k + i) (nth i t fz0)) (fst (nth i x' z2)) (snd (nth i x' z2)) (fst (nth i d z2)) (snd (nth i d z2)))
     = fst (f4_send1 (nth i t fz0) (fst (nth i x z2)) (snd (nth i x z2)) (fst (nth i d z2)) (snd (nth i d z2)))) ->
  map fst (map2 (fun ov d => f4_send1 (fst ov) (fst (snd ov)) (snd (snd ov)) (fst d) (snd d)) (combine (imap h k t) x') d)
  = map fst (map2 (fun ov d => f4_send1 (fst ov) (fst (snd ov)) (snd (snd ov)) (fst d) (snd d)) (combine t x) d).
Proof. intros t x x' d k L H. apply (@chunk_view _ _ _ _ _ (fun s x d => f4_send1 s (fst x) (snd x) (fst d) (snd d)) fz0 z2 z2); assumption. Qed.

Lemma f4_send_view h : forall ss x x' msgs k, length x = length x' ->
  (forall i, i < length x -> i < total ss -> fst (f4_send1 (h (k + i) (nth i (concat ss) fz0)) (fst (nth i x' z2)) (snd (nth i x' z2)) (fst (nth i (pairs2 (concat msgs)) z2)) (snd (nth i (pairs2 (concat msgs)) z2)))
     = fst (f4_send1 (nth i (concat ss) fz0) (fst (nth i x z2)) (snd (nth i x z2)) (fst (nth i (pairs2 (concat msgs)) z2)) (snd (nth i (pairs2 (concat msgs)) z2)))) ->
  sent (f4_send (segmap h k ss) x' msgs) = sent (f4_send ss x msgs).
Proof.
  induction ss as [|t ss IH]; intros [|a x] [|b x'] msgs k L H; try discriminate L; try reflexivity.
  set (X := a :: x) in *. set (X' := b :: x') in *. cbn [segmap f4_send]. rewrite imap_length.
  replace (length X') with (length X). set (m := Nat.min (length t) (length X)).
  destruct (m =? 0) eqn:Em.
  - apply Nat.eqb_eq in Em. apply IH; [exact L|]. intros i Hx Ht. specialize (H i). assert (length t = 0) by (unfold X in *; cbn [length] in *; lia).
    destruct t; [|discriminate]. cbn [concat app length] in *. rewrite Nat.add_0_r. apply H; [exact Hx|]. exact Ht.
  - destruct (recv_n (2 * m) msgs) as [[c ms]| | |] eqn:ER; try reflexivity. apply recv_n_inv in ER as [-> Lc]. cbn [bind fst snd].
    assert (Lp := @pairs2_length m c Lc). cbn [concat] in H. rewrite (@pairs2_app m c (concat ms) Lc) in H.
    assert (EI : sent (f4_send (segmap h (k + length t) ss) (skipn m X') ms) = sent (f4_send ss (skipn m X) ms)).
    { apply IH; [rewrite !skipn_length; lia|]. intros i Hx Ht. rewrite skipn_length in Hx. assert (m = length t) by lia. rewrite !skipn_nth. specialize (H (m + i)).
      rewrite !(app_nth2 t), !(app_nth2 (pairs2 c)) in H by lia. replace (m + i - length t) with i in H by lia. replace (m + i - length (pairs2 c)) with i in H by lia.
      replace (k + length t + i) with (k + (m + i)) by lia. apply H; [lia|]. rewrite total_cons. lia. }
    assert (EC := @chunk2_view h (firstn m t) (firstn m X) (firstn m X') (pairs2 c) k).
    rewrite <- imap_firstn in EC. rewrite !firstn_length in EC. specialize (EC ltac:(lia)).
    assert (EC' := EC ltac:(intros i Hx Ht Hc; rewrite !firstn_nth by lia; specialize (H i); rewrite !(app_nth1 t), !(app_nth1 (pairs2 c)) in H by lia; apply H; [lia|rewrite total_cons; lia])). clear EC.
    destruct (f4_send (segmap h (k + length t) ss) (skipn m X') ms) as [[u1 u2]| | |], (f4_send ss (skipn m X) ms) as [[w1 w2]| | |]; cbn in EI; try discriminate EI; try reflexivity.
    injection EI as ->. unfold sent. cbn [bind fst snd]. rewrite EC'. reflexivity.
Qed.

Lemma f4_send_hides rs v v' msgs : Forall (Forall blk_fr) rs -> Forall blk2 v -> Forall blk2 v' -> length v = length v' ->
  hides (fits f4_ot blk_fs rs) (fun v ss => sent (f4_send ss v msgs)) v v'.
Proof.
  intros Bs Bx Bx' L.
  assert (D : blk_fr fr0) by exact (conj blk0 (conj blk0 blk0)).
  apply hides_segs with (d := fr0) (h := fun i => f4_sflip (nth i (concat rs) fr0) (nth i (pairs2 (concat msgs)) z2) (nth i v z2) (nth i v' z2)) (g := fun i => f4_sflip (nth i (concat rs) fr0) (nth i (pairs2 (concat msgs)) z2) (nth i v' z2) (nth i v z2)).
  - intros i a Ha Pa. destruct (f4_sflip_ok (nth i (pairs2 (concat msgs)) z2) (nth_concat_P i D Bs) (nth_blk2 i Bx) (nth_blk2 i Bx') Ha Pa) as (Q1 & Q2 & _). split; assumption.
  - intros i a Ha Pa. destruct (f4_sflip_ok (nth i (pairs2 (concat msgs)) z2) (nth_concat_P i D Bs) (nth_blk2 i Bx') (nth_blk2 i Bx) Ha Pa) as (Q1 & Q2 & _). split; assumption.
  - intros i a Ha Pa. apply (f4_sflip_ok (nth i (pairs2 (concat msgs)) z2) (nth_concat_P i D Bs) (nth_blk2 i Bx) (nth_blk2 i Bx') Ha Pa).
  - intros i a Ha Pa. apply (f4_sflip_ok (nth i (pairs2 (concat msgs)) z2) (nth_concat_P i D Bs) (nth_blk2 i Bx') (nth_blk2 i Bx) Ha Pa).
  - intros ss Hf. apply f4_send_view; [exact L|]. intros i _ Hi. destruct (fits_nth fz0 fr0 Hf Hi) as [Ha Pa].
    apply (f4_sflip_ok (nth i (pairs2 (concat msgs)) z2) (nth_concat_P i D Bs) (nth_blk2 i Bx) (nth_blk2 i Bx') Ha Pa).
Qed.

(* ---------- mod 2 with OLEs ---------- *)
Definition o0 : ole := (0%N, 0%N).
Definition ole_flip (b : ole) (e : N) (a : ole) : ole := (N.lxor (fst a) (N.land e (snd b)), N.lxor (snd a) e).

Lemma ole_flip_ok b e a : blk_ole b -> blk e -> bin_ole a b -> blk_ole a ->
  bin_ole (ole_flip b e a) b /\ blk_ole (ole_flip b e a) /\ ole_flip b e (ole_flip b e a) = a.
Proof.
  intros [B1 B2] Be H [A1 A2]. split; [|split].
  - intros i. specialize (H i). unfold ole_flip. cbn [fst snd]. bits_rw. destruct (N.testbit (fst a) i), (N.testbit (snd a) i), (N.testbit (fst b) i), (N.testbit (snd b) i), (N.testbit e i); cbn in *; congruence.
  - split; cbn [ole_flip fst snd]; apply blk_lxor; try assumption. apply blk_land. exact Be.
  - destruct a as [x y]. unfold ole_flip. cbn [fst snd]. f_equal; apply N.bits_inj; intros i; bits_rw; btauto.
Qed.

Lemma bin_ole_sym a b : bin_ole a b -> bin_ole b a.
Proof. intros H i. rewrite xorb_comm, andb_comm. apply H. Qed.

Lemma combine_firstn_l A B : forall n (l : list A) (u : list B), length u <= n -> combine (firstn n l) u = combine l u.
Proof. induction n as [|n IH]; intros [|a l] [|b u] H; cbn in *; try lia; try reflexivity. rewrite IH by lia. reflexivity. Qed.

Lemma ole_chunk_view M O (F : ole * ole -> N * N -> N * N -> M * O) h : forall u u' t d k, length u = length u' ->
  (forall i d, i < length u -> 2 * i + 1 < length t -> fst (F (h (k + 2 * i) (nth (2 * i) t o0), h (k + 2 * i + 1) (nth (2 * i + 1) t o0)) (nth i u' z2) d) = fst (F (nth (2 * i) t o0, nth (2 * i + 1) t o0) (nth i u z2) d)) ->
  map fst (map2 (fun ou d => F (fst ou) (snd ou) d) (combine (pairs_of (imap h k t)) u') d) = map fst (map2 (fun ou d => F (fst ou) (snd ou) d) (combine (pairs_of t) u) d).
Proof.
  induction u as [|a u IH]; intros [|a' u'] [|x [|y t]] [|c d] k L H; try discriminate L; try reflexivity.
  cbn [imap pairs_of combine map2 map fst snd]. f_equal.
  - specialize (H 0 c). cbn in H. rewrite Nat.add_0_r, Nat.add_1_r in H. apply H; lia.
  - apply IH; [cbn in L; lia|]. intros i c' Hx Ht. specialize (H (S i) c'). cbn [length] in H. replace (2 * S i) with (S (S (2 * i))) in H by lia. cbn [nth Nat.add] in H |- *.
    replace (S (S (k + 2 * i))) with (k + S (S (2 * i))) by lia. replace (S (S (k + 2 * i + 1))) with (k + S (S (2 * i)) + 1) by lia. apply H; lia.
Qed.

Lemma ole_derand_view h : forall ss x x' k, length x = length x' ->
  (forall i, i < length x -> 2 * i + 1 < total ss -> ole_derand (h (k + 2 * i) (nth (2 * i) (concat ss) o0), h (k + 2 * i + 1) (nth (2 * i + 1) (concat ss) o0)) (fst (nth i x' z2)) (snd (nth i x' z2))
     = ole_derand (nth (2 * i) (concat ss) o0, nth (2 * i + 1) (concat ss) o0) (fst (nth i x z2)) (snd (nth i x z2))) ->
  ole_recv_derand (segmap h k ss) x' = ole_recv_derand ss x.
Proof.
  induction ss as [|t ss IH]; intros [|a x] [|b x'] k L H; try discriminate L; try reflexivity.
  set (X := a :: x) in *. set (X' := b :: x') in *. cbn [segmap ole_recv_derand]. rewrite imap_length.
  replace (length X') with (length X). destruct (ole_step (length t) (length X)) as [m| | |] eqn:ES; try reflexivity. cbn [bind].
  unfold ole_step in ES. set (m' := Nat.min (length X) (length t / 2)) in *. destruct ((m' <? length X) && negb (2 * m' =? length t)) eqn:EC; [discriminate|]. injection ES as <-.
  assert (Hm : m' = length X \/ 2 * m' = length t).
  { apply andb_false_iff in EC as [EC|EC]; [left; apply Nat.ltb_ge in EC; lia|right; apply negb_false_iff, Nat.eqb_eq in EC; exact EC]. }
  assert (Hm2 : 2 * m' <= length t). { pose proof (Nat.div_mod_eq (length t) 2). lia. }
  assert (EI : ole_recv_derand (segmap h (k + length t) ss) (skipn m' X') = ole_recv_derand ss (skipn m' X)).
  { destruct Hm as [Hm|Hm].
    - rewrite !skipn_all2 by lia. destruct ss; reflexivity.
    - apply IH; [rewrite !skipn_length; lia|]. intros i Hx Ht. rewrite skipn_length in Hx. rewrite !skipn_nth. specialize (H (m' + i)). cbn [concat] in H. rewrite !(app_nth2 t) in H by lia.
      replace (2 * (m' + i) - length t) with (2 * i) in H by lia. replace (2 * (m' + i) + 1 - length t) with (2 * i + 1) in H by lia.
      replace (k + length t + 2 * i) with (k + 2 * (m' + i)) by lia. apply H; [lia|]. rewrite total_cons. lia. }
  rewrite EI. assert (EQ : map2 (fun (o : ole * ole) u => ole_derand o (fst u) (snd u)) (pairs_of (imap h k t)) (firstn m' X') = map2 (fun (o : ole * ole) u => ole_derand o (fst u) (snd u)) (pairs_of t) (firstn m' X)); [|rewrite EQ; reflexivity].
  assert (L2 : length (firstn m' X) = length (firstn m' X')) by (rewrite !firstn_length; lia).
  assert (H2 : forall i, i < length (firstn m' X) -> 2 * i + 1 < length t -> ole_derand (h (k + 2 * i) (nth (2 * i) t o0), h (k + 2 * i + 1) (nth (2 * i + 1) t o0)) (fst (nth i (firstn m' X') z2)) (snd (nth i (firstn m' X') z2))
     = ole_derand (nth (2 * i) t o0, nth (2 * i + 1) t o0) (fst (nth i (firstn m' X) z2)) (snd (nth i (firstn m' X) z2))).
  { intros i Hx Ht. rewrite firstn_length in Hx. rewrite !firstn_nth by lia. specialize (H i). cbn [concat] in H. rewrite !(app_nth1 t) in H by lia. apply H; [lia|]. rewrite total_cons. lia. }
  clear - L2 H2. clearbody m' X X'. revert k t L2 H2. generalize (firstn m' X), (firstn m' X'). clear. intros u. induction u as [|a u IH]; intros [|a' u'] k [|x [|y t]] L H; try discriminate L; try reflexivity.
  cbn [imap pairs_of map2]. f_equal.
  - specialize (H 0). cbn in H. rewrite Nat.add_0_r, Nat.add_1_r in H. apply H; lia.
  - apply IH; [cbn in L; lia|]. intros i Hx Ht. specialize (H (S i)). cbn [length] in H. replace (2 * S i) with (S (S (2 * i))) in H by lia. cbn [nth Nat.add] in H |- *.
    replace (S (S (k + 2 * i))) with (k + S (S (2 * i))) by lia. replace (S (S (k + 2 * i + 1))) with (k + S (S (2 * i)) + 1) by lia. apply H; lia.
Qed.

Lemma ole_send_view h : forall ss x x' msgs k, length x = length x' ->
  (forall i d, i < length x -> 2 * i + 1 < total ss -> fst (ole_send1 (h (k + 2 * i) (nth (2 * i) (concat ss) o0), h (k + 2 * i + 1) (nth (2 * i + 1) (concat ss) o0)) (fst (nth i x' z2)) (snd (nth i x' z2)) (fst d) (snd d))
     = fst (ole_send1 (nth (2 * i) (concat ss) o0, nth (2 * i + 1) (concat ss) o0) (fst (nth i x z2)) (snd (nth i x z2)) (fst d) (snd d))) ->
  sent (ole_send (segmap h k ss) x' msgs) = sent (ole_send ss x msgs).
Proof.
  induction ss as [|t ss IH]; intros [|a x] [|b x'] msgs k L H; try discriminate L; try reflexivity.
  set (X := a :: x) in *. set (X' := b :: x') in *. cbn [segmap ole_send]. rewrite imap_length.
  destruct (recv_n (length t) msgs) as [[c ms]| | |]; try reflexivity. cbn [bind].
  replace (length X') with (length X). destruct (ole_step (length t) (length X)) as [m| | |] eqn:ES; try reflexivity. cbn [bind fst snd].
  unfold ole_step in ES. set (m' := Nat.min (length X) (length t / 2)) in *. destruct ((m' <? length X) && negb (2 * m' =? length t)) eqn:EC; [discriminate|]. injection ES as <-.
  assert (Hm : m' = length X \/ 2 * m' = length t).
  { apply andb_false_iff in EC as [EC|EC]; [left; apply Nat.ltb_ge in EC; lia|right; apply negb_false_iff, Nat.eqb_eq in EC; exact EC]. }
  assert (Hm2 : 2 * m' <= length t). { pose proof (Nat.div_mod_eq (length t) 2). lia. }
  assert (EI : sent (ole_send (segmap h (k + length t) ss) (skipn m' X') ms) = sent (ole_send ss (skipn m' X) ms)).
  { destruct Hm as [Hm|Hm].
    - rewrite !skipn_all2 by lia. destruct ss; reflexivity.
    - apply IH; [rewrite !skipn_length; lia|]. intros i d Hx Ht. rewrite skipn_length in Hx. rewrite !skipn_nth. specialize (H (m' + i) d). cbn [concat] in H. rewrite !(app_nth2 t) in H by lia.
      replace (2 * (m' + i) - length t) with (2 * i) in H by lia. replace (2 * (m' + i) + 1 - length t) with (2 * i + 1) in H by lia.
      replace (k + length t + 2 * i) with (k + 2 * (m' + i)) by lia. apply H; [lia|]. rewrite total_cons. lia. }
  assert (L2 : length (firstn m' X) = length (firstn m' X')) by (rewrite !firstn_length; lia).
  rewrite !combine_firstn_l by (rewrite firstn_length; lia).
  assert (EQ : map fst (map2 (fun ou d => ole_send1 (fst ou) (fst (snd ou)) (snd (snd ou)) (fst d) (snd d)) (combine (pairs_of (imap h k t)) (firstn m' X')) (firstn m' (pairs2 c)))
    = map fst (map2 (fun ou d => ole_send1 (fst ou) (fst (snd ou)) (snd (snd ou)) (fst d) (snd d)) (combine (pairs_of t) (firstn m' X)) (firstn m' (pairs2 c)))).
  { apply (@ole_chunk_view _ _ (fun o u d => ole_send1 o (fst u) (snd u) (fst d) (snd d))); [exact L2|].
    intros i d Hx Ht. rewrite firstn_length in Hx. rewrite !firstn_nth by lia. specialize (H i d). cbn [concat] in H. rewrite !(app_nth1 t) in H by lia. apply H; [lia|]. rewrite total_cons. lia. }
  destruct (ole_send (segmap h (k + length t) ss) (skipn m' X') ms) as [[u1 u2]| | |], (ole_send ss (skipn m' X) ms) as [[w1 w2]| | |]; cbn in EI; try discriminate EI; try reflexivity.
  injection EI as ->. unfold sent. cbn [bind fst snd]. rewrite EQ. reflexivity.
Qed.

Lemma inter2_nth l : forall i, nth (2 * i) (inter2 l) 0%N = fst (nth i l z2) /\ nth (2 * i + 1) (inter2 l) 0%N = snd (nth i l z2).
Proof.
  induction l as [|[a b] l IH]; intros i; [cbn [inter2]; rewrite !nth_overflow by (cbn; lia); split; reflexivity|].
  destruct i as [|i]; [split; reflexivity|]. replace (2 * S i) with (S (S (2 * i))) by lia. cbn [inter2 nth Nat.add]. exact (IH i).
Qed.
Lemma inter2_blk l : Forall blk2 l -> Forall blk (inter2 l).
Proof. induction 1 as [|[a b] l [H1 H2] H IH]; [constructor|]. cbn [inter2]. constructor; [exact H1|]. constructor; [exact H2|exact IH]. Qed.

Lemma ole_hides X V (view : X -> list (list ole) -> V) x x' rs e : Forall (Forall blk_ole) rs -> (forall i, blk (e i)) ->
  (forall ss, fits bin_ole blk_ole rs ss -> view x' (segmap (fun i => ole_flip (nth i (concat rs) o0) (e i)) 0 ss) = view x ss) ->
  hides (fits bin_ole blk_ole rs) view x x'.
Proof.
  intros Bs Be H.
  assert (D : blk_ole o0) by exact (conj blk0 blk0).
  apply hides_segs with (d := o0) (h := fun i => ole_flip (nth i (concat rs) o0) (e i)) (g := fun i => ole_flip (nth i (concat rs) o0) (e i)); [..|exact H];
    intros i a Ha Pa; destruct (ole_flip_ok (nth_concat_P i D Bs) (Be i) Ha Pa) as (Q1 & Q2 & Q3); first [split; assumption|exact Q3].
Qed.

Lemma ole_recv_hides ss u u' : Forall (Forall blk_ole) ss -> Forall blk2 u -> Forall blk2 u' -> length u = length u' ->
  hides (fits bin_ole blk_ole ss) (fun u rs => ole_recv_derand rs u) u u'.
Proof.
  intros Bs Bx Bx' L.
  apply ole_hides with (e := fun i => N.lxor (nth i (inter2 u) 0%N) (nth i (inter2 u') 0%N)); [exact Bs|intros i; apply blk_lxor; apply nth_blk, inter2_blk; assumption|].
  intros rs Hf. apply ole_derand_view; [exact L|]. intros i _ _. unfold ole_derand, ole_flip. cbn [fst snd Nat.add].
  destruct (inter2_nth u i) as [E1 E2], (inter2_nth u' i) as [E3 E4]. rewrite E1, E2, E3, E4. f_equal; apply N.bits_inj; intros j; bits_rw; btauto.
Qed.

Definition ole_mask (u : N * N) : N * N := (snd u, N.lxor (fst u) (snd u)).
Lemma mask_nth u i : nth i (map ole_mask u) z2 = ole_mask (nth i u z2).
Proof. change z2 with (ole_mask z2) at 1. apply map_nth. Qed.
Lemma mask_blk u : Forall blk2 u -> Forall blk2 (map ole_mask u).
Proof. induction 1 as [|[a b] l [H1 H2] H IH]; [constructor|]. constructor; [|exact IH]. split; [exact H2|]. apply blk_lxor; assumption. Qed.

Lemma ole_send_hides rs v v' msgs : Forall (Forall blk_ole) rs -> Forall blk2 v -> Forall blk2 v' -> length v = length v' ->
  hides (fits bin_ole blk_ole rs) (fun v ss => sent (ole_send ss v msgs)) v v'.
Proof.
  intros Bs Bx Bx' L.
  apply ole_hides with (e := fun i => N.lxor (nth i (inter2 (map ole_mask v)) 0%N) (nth i (inter2 (map ole_mask v')) 0%N)); [exact Bs|intros i; apply blk_lxor; apply nth_blk, inter2_blk, mask_blk; assumption|].
  intros ss Hf. apply ole_send_view; [exact L|]. intros i d _ _. unfold ole_send1, ole_flip. cbn [fst snd Nat.add].
  destruct (inter2_nth (map ole_mask v) i) as [E1 E2], (inter2_nth (map ole_mask v') i) as [E3 E4]. rewrite E1, E2, E3, E4, !mask_nth. unfold ole_mask. cbn [fst snd].
  f_equal; apply N.bits_inj; intros j; bits_rw; btauto.
Qed.
