(* Numbers of rows, and sums of packed fields. *)
From Coq Require Import Permutation.
From Verif Require Import Base Words ShuffleModel ShuffleSpec ShuffleSpanProofs RadixSpec RadixSortProofs StableSortProofs TableModel TableSpec TableOpsSpec JoinProofs AverageProofs
  BitInjProofs PackProofs OmJoinModel OmJoinSpec OmJoinProofs GroupByModel GroupBySpec AggSpec.

Local Open Scope N_scope.
Ltac nz := first [discriminate | apply N.pow_nonzero; discriminate].
Lemma pow256 k : 256 ^ N.of_nat k = 2 ^ (8 * N.of_nat k).
Proof. rewrite N.pow_mul_r. reflexivity. Qed.
Lemma le_bytes_length w : forall x, length (le_bytes w x) = w.
Proof. induction w as [|w IH]; intros x; [reflexivity|]. cbn [le_bytes length]. rewrite IH. reflexivity. Qed.
Lemma le_bytes_bytes w : forall x, bytes (le_bytes w x).
Proof. induction w as [|w IH]; intros x; [constructor|]. cbn [le_bytes]. constructor; [apply N.mod_lt; discriminate|apply IH]. Qed.
Lemma le_num_le_bytes w : forall x, le_num (le_bytes w x) = x mod 256 ^ N.of_nat w.
Proof.
  induction w as [|w IH]; intros x; [cbn; rewrite N.mod_1_r; reflexivity|]. cbn [le_bytes]. unfold le_num in *. cbn [fold_right]. rewrite IH.
  rewrite Nat2N.inj_succ, N.pow_succ_r', N.mod_mul_r by nz. reflexivity.
Qed.
Lemma le_bytes_le_num w r : length r = w -> bytes r -> le_bytes w (le_num r) = r.
Proof.
  intros L B. apply le_num_inj; [rewrite le_bytes_length; auto|apply le_bytes_bytes|exact B|]. rewrite le_num_le_bytes. apply N.mod_small. rewrite <- L. apply le_num_lt, B.
Qed.
Lemma le_bytes_eq w x y : x mod 256 ^ N.of_nat w = y mod 256 ^ N.of_nat w -> le_bytes w x = le_bytes w y.
Proof. intros E. apply le_num_inj; [rewrite !le_bytes_length; auto|apply le_bytes_bytes|apply le_bytes_bytes|]. rewrite !le_num_le_bytes. exact E. Qed.
Lemma le_bytes_app a b x : le_bytes (a + b) x = le_bytes a x ++ le_bytes b (x / 256 ^ N.of_nat a).
Proof.
  revert x. induction a as [|a IH]; intros x; [cbn; rewrite N.div_1_r; reflexivity|]. cbn [Nat.add le_bytes app]. rewrite IH. do 2 f_equal.
  rewrite Nat2N.inj_succ, N.pow_succ_r', N.div_div by nz. reflexivity.
Qed.
Lemma slice_le_bytes w o b x : (o + b <= w)%nat -> slice (le_bytes w x) o b = le_bytes b (x / 256 ^ N.of_nat o).
Proof.
  intros H. replace w with (o + (b + (w - o - b)))%nat by lia. rewrite (le_bytes_app o), (le_bytes_app b).
  pose proof (@slice_mid _ (le_bytes o x) (le_bytes b (x / 256 ^ N.of_nat o)) (le_bytes (w - o - b) (x / 256 ^ N.of_nat o / 256 ^ N.of_nat b)) b (le_bytes_length b _)) as E.
  rewrite le_bytes_length in E. exact E.
Qed.
Lemma le_num_app2 a b : le_num (a ++ b) = le_num a + 256 ^ N.of_nat (length a) * le_num b.
Proof.
  induction a as [|x a IH]; [cbn [app length]; change (256 ^ N.of_nat 0) with 1; unfold le_num at 2; cbn [fold_right]; lia|].
  cbn [app length]. unfold le_num in *. cbn [fold_right]. rewrite IH, Nat2N.inj_succ, N.pow_succ_r'. lia.
Qed.
Lemma le_num_slice r o b : bytes r -> (o + b <= length r)%nat -> le_num (slice r o b) = le_num r / 256 ^ N.of_nat o mod 256 ^ N.of_nat b.
Proof.
  intros B H. assert (Hb : bytes (slice r o b)) by (apply slice_bytes, B). assert (L : length (slice r o b) = b) by (unfold slice; rewrite firstn_length, skipn_length; lia).
  rewrite <- (le_bytes_le_num eq_refl B) at 1. rewrite slice_le_bytes by exact H. apply le_num_le_bytes.
Qed.

(* ---- packed sums ---- *)
Lemma padd_mod w ws x y : padd (w :: ws) x y mod 2 ^ N.of_nat w = (x + y) mod 2 ^ N.of_nat w.
Proof.
  cbn [padd]. assert (H : 2 ^ N.of_nat w <> 0) by (apply N.pow_nonzero; discriminate). rewrite N.mul_comm, N.mod_add, N.mod_mod by nz. reflexivity.
Qed.
Lemma padd_div w ws x y : padd (w :: ws) x y / 2 ^ N.of_nat w = padd ws (x / 2 ^ N.of_nat w) (y / 2 ^ N.of_nat w).
Proof.
  cbn [padd]. assert (H : 2 ^ N.of_nat w <> 0) by (apply N.pow_nonzero; discriminate). rewrite N.mul_comm, N.div_add, N.div_small by (try apply N.mod_lt; exact H). reflexivity.
Qed.
Lemma padd_assoc ws : assoc_op (padd ws).
Proof.
  induction ws as [|w ws IH]; intros a b c; [reflexivity|]. assert (H : 2 ^ N.of_nat w <> 0) by (apply N.pow_nonzero; discriminate).
  rewrite (N.div_mod' (padd (w :: ws) a (padd (w :: ws) b c)) (2 ^ N.of_nat w)), (N.div_mod' (padd (w :: ws) (padd (w :: ws) a b) c) (2 ^ N.of_nat w)).
  rewrite !padd_div, !padd_mod, IH. f_equal. rewrite <- N.add_mod_idemp_r, <- (N.add_mod_idemp_l (padd _ a b)), !padd_mod, N.add_mod_idemp_r, N.add_mod_idemp_l by nz.
  f_equal. lia.
Qed.
Lemma padd_fold pre : forall w post l y, let s := N.of_nat (fold_right Nat.add 0%nat pre) in
  (fold_left (padd (pre ++ w :: post)) l y / 2 ^ s) mod 2 ^ N.of_nat w = (y / 2 ^ s + fold_right N.add 0 (map (fun x => x / 2 ^ s) l)) mod 2 ^ N.of_nat w.
Proof.
  induction pre as [|p pre IH]; intros w post l y s.
  - unfold s. cbn [fold_right N.of_nat app]. change (2 ^ 0) with 1. rewrite !N.div_1_r. clear s. revert y. induction l as [|x l IHl]; intros y; cbn [fold_left map fold_right]; [rewrite N.add_0_r; reflexivity|].
    rewrite IHl, N.div_1_r. rewrite <- N.add_mod_idemp_l, padd_mod, N.add_mod_idemp_l by nz. f_equal. lia.
  - cbn [fold_right] in s. assert (Es : 2 ^ s = 2 ^ N.of_nat p * 2 ^ N.of_nat (fold_right Nat.add 0%nat pre)) by (unfold s; rewrite Nat2N.inj_add, N.pow_add_r; reflexivity).
    clearbody s. rewrite Es. rewrite <- !N.div_div by nz. cbn [app].
    assert (Ef : fold_left (padd (p :: pre ++ w :: post)) l y / 2 ^ N.of_nat p = fold_left (padd (pre ++ w :: post)) (map (fun x => x / 2 ^ N.of_nat p) l) (y / 2 ^ N.of_nat p)).
    { clear. revert y. induction l as [|x l IHl]; intros y; [reflexivity|]. cbn [fold_left map]. rewrite IHl, padd_div. reflexivity. }
    rewrite Ef, IH, map_map. do 3 f_equal. apply map_ext. intros x. apply N.div_div; nz.
Qed.
Lemma fold_add_total (f : nat -> N) l : fold_right N.add 0 (map f l) = total f l.
Proof. induction l as [|x l IH]; [reflexivity|]. cbn [map fold_right total]. rewrite IH. reflexivity. Qed.
Lemma total_cons (f : nat -> N) a l : total f (a :: l) = f a + total f l.
Proof. reflexivity. Qed.
Lemma total_mod (f g : nat -> N) m l : m <> 0 -> (forall j, In j l -> f j mod m = g j mod m) -> total f l mod m = total g l mod m.
Proof.
  intros Hm. induction l as [|x l IH]; intros H; [reflexivity|]. cbn [total fold_right]. fold (total f l) (total g l).
  rewrite (N.add_mod (f x)), (N.add_mod (g x)), (H x) by (exact Hm || left; reflexivity). rewrite IH by (intros j Hj; apply H; right; exact Hj). reflexivity.
Qed.
(* a field of the sum of the rows a..b-1 *)
Lemma padd_field pre (k w W : nat) post (R : nat -> list N) n a b : fold_right Nat.add 0%nat pre = (8 * k)%nat -> w = (8 * (w / 8))%nat -> (k + w / 8 <= W)%nat ->
  (a < b)%nat -> (b <= n)%nat -> (forall u, (u < n)%nat -> bytes (R u) /\ length (R u) = W) ->
  slice (le_bytes W (agg_range (padd (pre ++ w :: post)) 0 (map (fun u => le_num (R u)) (seq 0 n)) a b)) k (w / 8) =
  le_bytes (w / 8) (total (fun u => le_num (slice (R u) k (w / 8))) (seq a (b - a))).
Proof.
  intros Ek Ew HW Hab Hbn HR. assert (Ew' : N.of_nat w = 8 * N.of_nat (w / 8)) by lia. assert (Ek' : N.of_nat (8 * k) = 8 * N.of_nat k) by lia. rewrite slice_le_bytes by exact HW. apply le_bytes_eq. rewrite (pow256 (w / 8)).
  unfold agg_range. assert (Es : slice (map (fun u => le_num (R u)) (seq 0 n)) a (b - a) = map (fun u => le_num (R u)) (seq a (b - a))).
  { unfold slice. rewrite skipn_map, firstn_map. f_equal. replace n with (a + ((b - a) + (n - b)))%nat by lia. rewrite seq_app, skipn_app, skipn_all2 by (rewrite seq_length; lia). rewrite seq_length.
    replace (a - a)%nat with 0%nat by lia. cbn [skipn app Nat.add]. rewrite seq_app, firstn_app, seq_length, Nat.sub_diag, firstn_all2 by (rewrite seq_length; lia). cbn [firstn]. apply app_nil_r. }
  rewrite Es. destruct (b - a)%nat as [|d] eqn:Ed; [lia|]. cbn [seq map].
  pose proof (@padd_fold pre w post (map (fun u => le_num (R u)) (seq (S a) d)) (le_num (R a))) as H. cbv zeta in H. rewrite Ek in H.
  rewrite Ek', <- pow256, map_map, Ew' in H.
  assert (HS : forall u, (u < n)%nat -> le_num (slice (R u) k (w / 8)) = le_num (R u) / 256 ^ N.of_nat k mod 2 ^ (8 * N.of_nat (w / 8))).
  { intros u Hu. destruct (HR u Hu) as [B L]. rewrite (@le_num_slice (R u) k (w / 8)) by (try exact B; rewrite L; exact HW). rewrite (pow256 (w / 8)). reflexivity. }
  assert (Hm : 2 ^ (8 * N.of_nat (w / 8)) <> 0) by nz.
  revert H HS Hm. generalize (256 ^ N.of_nat k) as P. generalize (2 ^ (8 * N.of_nat (w / 8))) as M. intros M P H HS Hm. rewrite H.
  rewrite (fold_add_total (fun u => le_num (R u) / P)). rewrite <- (total_cons (fun u => le_num (R u) / P) a). apply total_mod; [exact Hm|]. intros u Hu. assert (Hun : (u < n)%nat) by (clear - Hu Hab Hbn Ed; destruct Hu as [<-|Hu]; [lia|apply in_seq in Hu; lia]). rewrite (HS u Hun), N.mod_mod by exact Hm. reflexivity.
Qed.

(* ---- the key with the flag ---- *)
Lemma sbit_le_bytes w x k : (k < 8 * w)%nat -> sbit (le_bytes w x) k = N.testbit x (N.of_nat k).
Proof.
  intros H. rewrite <- le_num_bit by apply le_bytes_bytes. rewrite le_num_le_bytes, pow256. apply N.mod_pow2_bits_low. lia.
Qed.
Definition flagged (kb : nat) (b : bool) (x : N) : N := x + if b then 2 ^ N.of_nat kb else 0.
Lemma flagged_bit kb b x k : x < 2 ^ N.of_nat kb -> N.testbit (flagged kb b x) (N.of_nat k) = if (k =? kb)%nat then b else N.testbit x (N.of_nat k).
Proof.
  intros H. assert (Hh : forall j, (kb <= j)%nat -> N.testbit x (N.of_nat j) = false).
  { intros j Hj. rewrite <- (N.mod_small x (2 ^ N.of_nat kb)) by exact H. apply N.mod_pow2_bits_high. lia. }
  unfold flagged. destruct b.
  - assert (Hx : x + 2 ^ N.of_nat kb = N.lor x (2 ^ N.of_nat kb)).
    { rewrite N.add_nocarry_lxor.
      - apply N.bits_inj. intros j. rewrite N.lxor_spec, N.lor_spec, N.pow2_bits_eqb. destruct (N.eqb_spec (N.of_nat kb) j) as [<-|Hn]; [rewrite Hh by lia; reflexivity|].
        rewrite Bool.xorb_false_r, Bool.orb_false_r. reflexivity.
      - apply N.bits_inj. intros j. rewrite N.land_spec, N.bits_0, N.pow2_bits_eqb. destruct (N.eqb_spec (N.of_nat kb) j) as [<-|Hn]; [rewrite Hh by lia; reflexivity|apply Bool.andb_false_r]. }
    rewrite Hx, N.lor_spec, N.pow2_bits_eqb.
    destruct (Nat.eqb_spec k kb) as [->|Hn]; [rewrite N.eqb_refl; apply Bool.orb_true_r|]. destruct (N.eqb_spec (N.of_nat kb) (N.of_nat k)); [lia|apply Bool.orb_false_r].
  - rewrite N.add_0_r. destruct (Nat.eqb_spec k kb) as [->|Hn]; [apply Hh; lia|reflexivity].
Qed.
