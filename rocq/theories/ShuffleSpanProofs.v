From Verif Require Import Base Words Mod3Model PrfModel SimdModel ShuffleModel ShuffleSpec Mod3Proofs SimdProofs CompressProofs GF4Proofs ShuffleProofs.

Lemma div_mod8 k : k = 8 * (k / 8) + k mod 8 /\ k mod 8 < 8.
Proof. split; [apply Nat.div_mod; discriminate | apply Nat.mod_upper_bound; discriminate]. Qed.

Lemma nth_nth_error A (l : list A) i d : nth i l d = match nth_error l i with Some a => a | None => d end.
Proof. revert i. induction l as [|a l IH]; intros [|i]; try reflexivity. apply IH. Qed.

Lemma load_bit l k : bytes l -> N.testbit (load l) (N.of_nat k) = sbit l k.
Proof.
  intros H. unfold load, sbit. destruct (div_mod8 k) as [E L].
  replace (N.of_nat k) with (8 * N.of_nat (k / 8) + N.of_nat (k mod 8))%N by lia.
  apply of_words_bit; [lia|exact H|lia].
Qed.

Lemma load_lt l : bytes l -> forall n, length l <= n -> (load l < 2 ^ (8 * N.of_nat n))%N.
Proof.
  intros H n Hn. apply bits_high_pow2. intros i Hi.
  rewrite <- (N2Nat.id i), load_bit by exact H. unfold sbit. rewrite nth_overflow; [apply N.bits_0|].
  destruct (div_mod8 (N.to_nat i)) as [E L]. lia.
Qed.

Lemma byteN_lt x j : (byteN x j < 256)%N.
Proof.
  unfold byteN, byte_of. change 255%N with (N.ones 8). rewrite N.land_ones. apply N.mod_lt. discriminate.
Qed.

Lemma store_length n x : length (store n x) = n.
Proof. unfold store. rewrite map_length, seq_length. reflexivity. Qed.

Lemma store_bytes n x : bytes (store n x).
Proof. apply Forall_forall. intros y Hy. apply in_map_iff in Hy. destruct Hy as [j [<- _]]. apply byteN_lt. Qed.

Lemma store_bit n x k : k < 8 * n -> sbit (store n x) k = N.testbit x (N.of_nat k).
Proof.
  intros H. unfold sbit, store. destruct (div_mod8 k) as [E L].
  rewrite nth_map_seq by lia. rewrite byteN_bit by lia. f_equal. lia.
Qed.

Lemma firstn_bytes n l : bytes l -> bytes (firstn n l).
Proof.
  intros H. apply Forall_forall. intros y Hy. apply (proj1 (Forall_forall _ _) H).
  rewrite <- (firstn_skipn n l). apply in_or_app. left. exact Hy.
Qed.

Lemma skipn_bytes n l : bytes l -> bytes (skipn n l).
Proof.
  intros H. apply Forall_forall. intros y Hy. apply (proj1 (Forall_forall _ _) H).
  rewrite <- (firstn_skipn n l). apply in_or_app. right. exact Hy.
Qed.

Lemma slice_bytes l o n : bytes l -> bytes (slice l o n).
Proof. intros H. apply firstn_bytes, skipn_bytes, H. Qed.

Lemma firstn_bit l n k : k < 8 * n -> sbit (firstn n l) k = sbit l k.
Proof.
  intros H. unfold sbit. destruct (div_mod8 k) as [E L]. f_equal.
  rewrite !nth_nth_error, nth_error_firstn. destruct (Nat.ltb_spec (k / 8) n); [reflexivity|lia].
Qed.

Lemma skipn_bit l o k : sbit (skipn o l) k = sbit l (8 * o + k).
Proof.
  unfold sbit. replace (8 * o + k) with (k + o * 8) by lia.
  rewrite Nat.div_add, Nat.mod_add by discriminate. f_equal.
  rewrite !nth_nth_error, nth_error_skipn. rewrite (Nat.add_comm o). reflexivity.
Qed.

Lemma slice_bit l o n k : k < 8 * n -> sbit (slice l o n) k = sbit l (8 * o + k).
Proof. intros H. unfold slice. rewrite firstn_bit by exact H. apply skipn_bit. Qed.

Lemma slice_min A (l : list A) o n : slice l o (Nat.min (length l - o) n) = slice l o n.
Proof.
  unfold slice. destruct (Nat.min_spec (length l - o) n) as [[H ->]|[H ->]]; [|reflexivity].
  rewrite !firstn_all2; [reflexivity| |]; rewrite skipn_length; lia.
Qed.

Lemma slice_min2 A (l : list A) o n : slice l o (Nat.min n (length l - o)) = slice l o n.
Proof. rewrite Nat.min_comm. apply slice_min. Qed.

Lemma overwrite_bit l o x k : o + length x <= length l ->
  sbit (overwrite l o x) k = if (8 * o <=? k) && (k <? 8 * (o + length x)) then sbit x (k - 8 * o) else sbit l k.
Proof.
  intros H. unfold sbit. destruct (div_mod8 k) as [E L].
  rewrite nth_nth_error, nth_error_overwrite by exact H.
  destruct (Nat.leb_spec (8 * o) k) as [L1|L1], (Nat.ltb_spec k (8 * (o + length x))) as [L2|L2]; cbn [andb]; cbv iota.
  - replace ((o <=? k / 8) && (k / 8 <? o + length x)) with true.
    2:{ symmetry. apply andb_true_iff. split; [apply Nat.leb_le|apply Nat.ltb_lt]; lia. }
    replace (k - 8 * o) with ((k / 8 - o) * 8 + k mod 8) by lia.
    rewrite Nat.div_add_l by discriminate. rewrite (Nat.div_small (k mod 8)) by lia.
    assert (E3 : ((k / 8 - o) * 8 + k mod 8) mod 8 = k mod 8).
    { rewrite (Nat.add_comm (_ * 8)), Nat.mod_add by discriminate. apply Nat.mod_mod. discriminate. }
    rewrite E3, Nat.add_0_r, nth_nth_error. reflexivity.
  - replace ((o <=? k / 8) && (k / 8 <? o + length x)) with false.
    2:{ symmetry. apply andb_false_iff. right. apply Nat.ltb_ge; lia. }
    rewrite <- nth_nth_error. reflexivity.
  - replace ((o <=? k / 8) && (k / 8 <? o + length x)) with false.
    2:{ symmetry. apply andb_false_iff. left. apply Nat.leb_gt; lia. }
    rewrite <- nth_nth_error. reflexivity.
  - replace ((o <=? k / 8) && (k / 8 <? o + length x)) with false.
    2:{ symmetry. apply andb_false_iff. left. apply Nat.leb_gt; lia. }
    rewrite <- nth_nth_error. reflexivity.
Qed.

Lemma overwrite_bytes l o x : bytes l -> bytes x -> bytes (overwrite l o x).
Proof.
  intros Hl Hx. unfold overwrite. apply Forall_app. split; [apply firstn_bytes, Hl|].
  apply Forall_app. split; [exact Hx|apply skipn_bytes, Hl].
Qed.

(* a row whose first p bytes are as wanted *)
Definition upto (F : nat -> bool) (p : nat) (l : list N) : Prop := forall k, k < 8 * p -> sbit l k = F k.

Lemma write_step F l p x n : upto F p l -> (forall k, k < 8 * length x -> sbit x k = F (8 * p + k)) ->
  p + length x <= length l -> length l = n -> bytes l -> bytes x ->
  exists l', writeN l p x = Ok l' /\ length l' = n /\ upto F (p + length x) l' /\ bytes l'.
Proof.
  intros HF Hx Hl Hn Bl Bx. exists (overwrite l p x). rewrite writeN_ok by exact Hl.
  split; [reflexivity|]. rewrite overwrite_length by exact Hl. split; [exact Hn|].
  split; [|apply overwrite_bytes; assumption].
  intros k Hk. rewrite overwrite_bit by exact Hl.
  destruct (Nat.leb_spec (8 * p) k) as [L1|L1], (Nat.ltb_spec k (8 * (p + length x))) as [L2|L2]; cbn [andb]; cbv iota; try lia.
  - rewrite Hx by lia. f_equal. lia.
  - apply HF. lia.
Qed.

Definition Fsh (in0 in1 : list N) (k : nat) : bool := sbit (if Nat.even k then in0 else in1) (k / 2).

Lemma even_ofnat k : N.even (N.of_nat k) = Nat.even k.
Proof.
  destruct (Nat.even k) eqn:E.
  - apply N.even_spec. apply Nat.even_spec in E. destruct E as [m ->]. exists (N.of_nat m). lia.
  - destruct (N.even (N.of_nat k)) eqn:E2; [|reflexivity]. apply N.even_spec in E2. destruct E2 as [m Hm].
    rewrite <- E. symmetry. apply Nat.even_spec. exists (N.to_nat m). lia.
Qed.

Lemma half_ofnat k : (N.of_nat k / 2 = N.of_nat (k / 2))%N.
Proof. rewrite Nat2N.inj_div. reflexivity. Qed.

(* the piece of p source bytes on *)
Lemma Fsh_piece in0 in1 p m k : k < 16 * m ->
  sbit (if Nat.even k then slice in0 p m else slice in1 p m) (k / 2) = Fsh in0 in1 (8 * (2 * p) + k).
Proof.
  intros Hk. unfold Fsh.
  assert (Hd : k / 2 < 8 * m) by (apply Nat.div_lt_upper_bound; lia).
  replace (8 * (2 * p) + k) with (k + 2 * (8 * p)) by lia.
  rewrite Nat.even_add_mul_2. rewrite (Nat.mul_comm 2 (8 * p)), Nat.div_add by discriminate.
  rewrite (Nat.add_comm (k / 2)).
  destruct (Nat.even k); apply slice_bit; exact Hd.
Qed.

Lemma c_shuffle_piece in0 in1 p k : bytes in0 -> bytes in1 -> k < 32 ->
  sbit (store 4 (c_shuffle (load (slice in0 p 2)) (load (slice in1 p 2)))) k = Fsh in0 in1 (8 * (2 * p) + k).
Proof.
  intros B0 B1 Hk. rewrite store_bit by lia.
  rewrite c_shuffle_bit; [| exact (@load_lt (slice in0 p 2) (slice_bytes p 2 B0) 2 ltac:(unfold slice; rewrite firstn_length; lia)) | lia].
  rewrite even_ofnat, half_ofnat. rewrite <- (@Fsh_piece in0 in1 p 2 k) by lia.
  destruct (Nat.even k); apply load_bit, slice_bytes; assumption.
Qed.

Lemma sse_shuffle_piece in0 in1 p k : bytes in0 -> bytes in1 -> k < 128 ->
  sbit (store 16 (sse_shuffle (load (slice in0 p 8)) (load (slice in1 p 8)))) k = Fsh in0 in1 (8 * (2 * p) + k).
Proof.
  intros B0 B1 Hk. rewrite store_bit by lia.
  rewrite sse_shuffle_bit;
    [| exact (@load_lt (slice in0 p 8) (slice_bytes p 8 B0) 8 ltac:(unfold slice; rewrite firstn_length; lia))
     | exact (@load_lt (slice in1 p 8) (slice_bytes p 8 B1) 8 ltac:(unfold slice; rewrite firstn_length; lia)) | lia].
  rewrite even_ofnat, half_ofnat. rewrite <- (@Fsh_piece in0 in1 p 8 k) by lia.
  destruct (Nat.even k); apply load_bit, slice_bytes; assumption.
Qed.

Lemma c_unshuffle_piece inp p k : bytes inp -> k < 16 ->
  sbit (store 2 (fst (c_unshuffle (load (slice inp (2 * p) 4))))) k = sbit inp (2 * (8 * p + k)) /\
  sbit (store 2 (snd (c_unshuffle (load (slice inp (2 * p) 4))))) k = sbit inp (2 * (8 * p + k) + 1).
Proof.
  intros B Hk. rewrite !store_bit by lia.
  destruct (@c_unshuffle_bit (load (slice inp (2 * p) 4)) (N.of_nat k) ltac:(lia)) as [E0 E1].
  rewrite E0, E1.
  replace (2 * N.of_nat k)%N with (N.of_nat (2 * k)) by lia.
  replace (N.of_nat (2 * k) + 1)%N with (N.of_nat (2 * k + 1)) by lia.
  rewrite !load_bit by (apply slice_bytes; exact B).
  rewrite !slice_bit by lia. split; f_equal; lia.
Qed.

Lemma sse_unshuffle_piece inp p k : bytes inp -> k < 64 ->
  sbit (store 8 (fst (sse_unshuffle (load (slice inp (2 * p) 16))))) k = sbit inp (2 * (8 * p + k)) /\
  sbit (store 8 (snd (sse_unshuffle (load (slice inp (2 * p) 16))))) k = sbit inp (2 * (8 * p + k) + 1).
Proof.
  intros B Hk. rewrite !store_bit by lia.
  destruct (@sse_unshuffle_bit (load (slice inp (2 * p) 16)) (N.of_nat k) ltac:(lia)) as [E0 E1].
  rewrite E0, E1.
  replace (2 * N.of_nat k)%N with (N.of_nat (2 * k)) by lia.
  replace (N.of_nat (2 * k) + 1)%N with (N.of_nat (2 * k + 1)) by lia.
  rewrite !load_bit by (apply slice_bytes; exact B).
  rewrite !slice_bit by lia. split; f_equal; lia.
Qed.

Definition sh_inv F n (q : nat) (l : list N) : Prop := length l = n /\ upto F q l /\ bytes l.

Lemma c_shuffle_span_ok in0 in1 out : bytes in0 -> bytes in1 -> bytes out ->
  length in0 = length in1 -> length in0 = (length out + 1) / 2 ->
  exists r, c_shuffle_span in0 in1 out = Ok r /\ sh_inv (Fsh in0 in1) (length out) (length out) r.
Proof.
  intros B0 B1 Bo E1 E2. unfold c_shuffle_span.
  rewrite (proj2 (Nat.eqb_eq _ _) E1), (proj2 (Nat.eqb_eq _ _) E2). cbn [negb throw_if bind].
  assert (D4 : 4 * (length out / 4) <= length out) by (apply Nat.mul_div_le; discriminate).
  pose proof (Nat.div_mod (length out) 4 ltac:(discriminate)) as DM.
  pose proof (Nat.mod_upper_bound (length out) 4 ltac:(discriminate)) as MB.
  pose proof (Nat.div_mod (length out + 1) 2 ltac:(discriminate)) as DM2.
  pose proof (Nat.mod_upper_bound (length out + 1) 2 ltac:(discriminate)) as MB2.
  destruct (@forN_inv _ (fun i o => sh_inv (Fsh in0 in1) (length out) (4 * i) o)
    (fun i o => do a <- readN in0 (2 * i) 2; do b <- readN in1 (2 * i) 2;
       writeN o (4 * i) (store 4 (c_shuffle (load a) (load b)))) (length out / 4) 0 out) as [o [Ho [Hl [Hu Hb]]]].
  - split; [reflexivity|]. split; [intros k Hk; lia|exact Bo].
  - intros i o Hi [Hl [Hu Hb]].
    rewrite !readN_ok by lia. cbn [bind].
    destruct (@write_step (Fsh in0 in1) o (4 * i) (store 4 (c_shuffle (load (slice in0 (2 * i) 2)) (load (slice in1 (2 * i) 2)))) (length out) Hu) as [o' [H1 [H2 [H3 H4]]]].
    + rewrite store_length. intros k Hk. rewrite c_shuffle_piece by (assumption || lia). f_equal. lia.
    + rewrite store_length. lia.
    + exact Hl.
    + exact Hb.
    + apply store_bytes.
    + rewrite store_length in H3. exists o'. split; [exact H1|]. split; [exact H2|].
      split; [|exact H4]. replace (4 * (i + 1)) with (4 * i + 4) by lia. exact H3.
  - rewrite Ho. cbn [bind]. rewrite Hl.
    destruct (Nat.eqb_spec (length out) (length out / 4 * 4)) as [E|E].
    + exists o. split; [reflexivity|]. split; [exact Hl|]. split; [|exact Hb].
      intros k Hk. apply Hu. lia.
    + set (q := length out / 4) in *.
      assert (Hh : q * 4 / 2 = 2 * q) by (replace (q * 4) with ((2 * q) * 2) by lia; apply Nat.div_mul; discriminate).
      rewrite Hh.
      change (firstn 2 (skipn (2 * q) in0)) with (slice in0 (2 * q) 2).
      change (firstn 2 (skipn (2 * q) in1)) with (slice in1 (2 * q) 2).
      destruct (@write_step (Fsh in0 in1) o (q * 4) (firstn (length out - q * 4) (store 4 (c_shuffle (load (slice in0 (2 * q) 2)) (load (slice in1 (2 * q) 2))))) (length out)) as [o' [H1 [H2 [H3 H4]]]].
      * intros k Hk. apply Hu. lia.
      * rewrite firstn_length, store_length. intros k Hk. rewrite firstn_bit by lia.
        rewrite c_shuffle_piece by (assumption || lia). f_equal. lia.
      * rewrite firstn_length, store_length. lia.
      * exact Hl.
      * exact Hb.
      * apply firstn_bytes, store_bytes.
      * exists o'. split; [exact H1|]. split; [exact H2|]. split; [|exact H4].
        intros k Hk. apply H3. rewrite firstn_length, store_length. lia.
Qed.

Lemma forN_nest S (f : nat -> S -> outcome S) m : forall n i s,
  forN i n (fun i => forN (m * i) m f) s = forN (m * i) (m * n) f s.
Proof.
  induction n as [|n IH]; intros i s; [rewrite Nat.mul_0_r; reflexivity|].
  rewrite forN_S. replace (m * Datatypes.S n) with (m + m * n) by lia. rewrite forN_app.
  destruct (forN (m * i) m f s); cbn [bind]; try reflexivity.
  rewrite IH. f_equal. lia.
Qed.

Lemma sse_shuffle_tail_ok in0 in1 n : bytes in0 -> bytes in1 ->
  length in0 = length in1 -> length in0 = (n + 1) / 2 ->
  forall fuel q out, 8 * q <= length in0 -> 16 * q <= n -> length in0 - 8 * q <= fuel ->
  sh_inv (Fsh in0 in1) n (16 * q) out ->
  exists r, sse_shuffle_tail fuel in0 in1 (length in0 - 8 * q) (16 * q) out = Ok r /\ sh_inv (Fsh in0 in1) n n r.
Proof.
  intros B0 B1 E1 E2.
  pose proof (Nat.div_mod (n + 1) 2 ltac:(discriminate)) as DM2.
  pose proof (Nat.mod_upper_bound (n + 1) 2 ltac:(discriminate)) as MB2.
  induction fuel as [|fuel IH]; intros q out H1 H1n H2 [Hl [Hu Hb]]; cbn [sse_shuffle_tail];
  destruct (Nat.eqb_spec (length in0 - 8 * q) 0) as [E|E].
  - exists out. split; [reflexivity|]. split; [exact Hl|]. split; [|exact Hb]. intros k Hk. apply Hu. lia.
  - lia.
  - exists out. split; [reflexivity|]. split; [exact Hl|]. split; [|exact Hb]. intros k Hk. apply Hu. lia.
  - assert (Hh : 16 * q / 2 = 8 * q) by (replace (16 * q) with ((8 * q) * 2) by lia; apply Nat.div_mul; discriminate).
    cbv zeta. rewrite Hh, Hl.
    rewrite !readN_ok by lia. cbn [bind].
    assert (ES : slice in1 (8 * q) (Nat.min (length in0 - 8 * q) 8) = slice in1 (8 * q) 8) by (rewrite E1; apply slice_min).
    rewrite slice_min, ES.
    set (x := firstn (Nat.min (n - 16 * q) 16) _).
    assert (Lx : length x = Nat.min (n - 16 * q) 16) by (unfold x; rewrite firstn_length, store_length; lia).
    destruct (@write_step (Fsh in0 in1) out (16 * q) x n Hu) as [o' [G1 [G2 [G3 G4]]]].
    + rewrite Lx. intros k Hk. unfold x. rewrite firstn_bit by lia.
      rewrite sse_shuffle_piece by (assumption || lia). f_equal. lia.
    + lia.
    + exact Hl.
    + exact Hb.
    + apply firstn_bytes, store_bytes.
    + rewrite G1. cbn [bind]. rewrite Lx in G3.
      destruct (Nat.le_gt_cases (length in0 - 8 * q) 8) as [L|L].
      * replace (length in0 - 8 * q - Nat.min (length in0 - 8 * q) 8) with 0 by lia.
        exists o'. split; [destruct fuel; reflexivity|]. split; [exact G2|]. split; [|exact G4].
        intros k Hk. apply G3. lia.
      * replace (Nat.min (n - 16 * q) 16) with 16 in * by lia.
        replace (length in0 - 8 * q - Nat.min (length in0 - 8 * q) 8) with (length in0 - 8 * S q) by lia.
        replace (16 * q + 16) with (16 * S q) in * by lia.
        apply IH; try lia. split; [exact G2|]. split; [exact G3|exact G4].
Qed.

Lemma sse_shuffle_span_ok in0 in1 out : bytes in0 -> bytes in1 -> bytes out ->
  length in0 = length in1 -> length in0 = (length out + 1) / 2 ->
  exists r, sse_shuffle_span in0 in1 out = Ok r /\ sh_inv (Fsh in0 in1) (length out) (length out) r.
Proof.
  intros B0 B1 Bo E1 E2. unfold sse_shuffle_span.
  rewrite (proj2 (Nat.eqb_eq _ _) E1), (proj2 (Nat.eqb_eq _ _) E2). cbn [negb].
  assert (D4 : 128 * (length out / 128) <= length out) by (apply Nat.mul_div_le; discriminate).
  pose proof (Nat.div_mod (length out + 1) 2 ltac:(discriminate)) as DM2.
  pose proof (Nat.mod_upper_bound (length out + 1) 2 ltac:(discriminate)) as MB2.
  cbv zeta. rewrite forN_nest. rewrite Nat.mul_0_r. set (nb := length out / 128) in *.
  destruct (@forN_inv _ (fun i o => sh_inv (Fsh in0 in1) (length out) (16 * i) o)
    (fun q o => do a <- readN in0 (8 * q) 8; do b <- readN in1 (8 * q) 8;
       writeN o (16 * q) (store 16 (sse_shuffle (load a) (load b)))) (8 * nb) 0 out) as [o [Ho Hinv]].
  - split; [reflexivity|]. split; [intros k Hk; lia|exact Bo].
  - intros i o Hi [Hl [Hu Hb]].
    rewrite !readN_ok by lia. cbn [bind].
    destruct (@write_step (Fsh in0 in1) o (16 * i) (store 16 (sse_shuffle (load (slice in0 (8 * i) 8)) (load (slice in1 (8 * i) 8)))) (length out) Hu) as [o' [H1 [H2 [H3 H4]]]].
    + rewrite store_length. intros k Hk. rewrite sse_shuffle_piece by (assumption || lia). f_equal. lia.
    + rewrite store_length. lia.
    + exact Hl.
    + exact Hb.
    + apply store_bytes.
    + rewrite store_length in H3. exists o'. split; [exact H1|]. split; [exact H2|].
      split; [|exact H4]. replace (16 * (i + 1)) with (16 * i + 16) by lia. exact H3.
  - cbv zeta in Ho |- *. rewrite Ho. cbn [bind]. rewrite Nat.add_0_l in Hinv.
    replace (nb * 16 * 8) with (16 * (8 * nb)) by lia.
    replace (16 * (8 * nb) / 2) with (8 * (8 * nb)).
    2:{ replace (16 * (8 * nb)) with ((8 * (8 * nb)) * 2) by lia. symmetry. apply Nat.div_mul. discriminate. }
    apply sse_shuffle_tail_ok; try assumption; lia.
Qed.

Definition un_inv inp n q (o : list N * list N) : Prop :=
  sh_inv (fun k => sbit inp (2 * k)) n q (fst o) /\ sh_inv (fun k => sbit inp (2 * k + 1)) n q (snd o).

Lemma two_writes inp n p m o x y :
  un_inv inp n p o -> length x = m -> length y = m -> p + m <= n -> bytes x -> bytes y ->
  (forall k, k < 8 * m -> sbit x k = sbit inp (2 * (8 * p + k)) /\ sbit y k = sbit inp (2 * (8 * p + k) + 1)) ->
  exists o0 o1, writeN (fst o) p x = Ok o0 /\ writeN (snd o) p y = Ok o1 /\ un_inv inp n (p + m) (o0, o1).
Proof.
  intros [[L0 [U0 B0]] [L1 [U1 B1]]] Hx Hy Hm Bx By HF.
  destruct (@write_step (fun k => sbit inp (2 * k)) (fst o) p x n U0) as [o0 [A1 [A2 [A3 A4]]]]; try assumption; try lia.
  { rewrite Hx. intros k Hk. apply HF; exact Hk. }
  destruct (@write_step (fun k => sbit inp (2 * k + 1)) (snd o) p y n U1) as [o1 [C1 [C2 [C3 C4]]]]; try assumption; try lia.
  { rewrite Hy. intros k Hk. apply HF; exact Hk. }
  rewrite Hx in A3. rewrite Hy in C3.
  exists o0, o1. split; [exact A1|]. split; [exact C1|]. split; (split; [assumption|split; assumption]).
Qed.

Lemma c_unshuffle_span_ok inp out0 out1 : bytes inp -> bytes out0 -> bytes out1 ->
  length out0 = length out1 -> length out0 = (length inp + 1) / 2 ->
  exists r, c_unshuffle_span inp out0 out1 = Ok r /\ un_inv inp (length out0) (length out0) r.
Proof.
  intros Bi B0 B1 E1 E2. unfold c_unshuffle_span.
  rewrite (proj2 (Nat.eqb_eq _ _) E1), (proj2 (Nat.eqb_eq _ _) E2). cbn [negb throw_if bind].
  set (n := length out0) in *.
  pose proof (Nat.div_mod (length inp) 4 ltac:(discriminate)) as DM.
  pose proof (Nat.mod_upper_bound (length inp) 4 ltac:(discriminate)) as MB.
  pose proof (Nat.div_mod (length inp + 1) 2 ltac:(discriminate)) as DM2.
  pose proof (Nat.mod_upper_bound (length inp + 1) 2 ltac:(discriminate)) as MB2.
  destruct (@forN_inv _ (fun i o => un_inv inp n (2 * i) o)
    (fun i (o : list N * list N) => do a <- readN inp (4 * i) 4;
       let t := c_unshuffle (load a) in
       do o0 <- writeN (fst o) (2 * i) (store 2 (fst t));
       do o1 <- writeN (snd o) (2 * i) (store 2 (snd t)); Ok (o0, o1)) (length inp / 4) 0 (out0, out1)) as [o [Ho Hinv]].
  - split; (split; [cbn [fst snd]; first [reflexivity | symmetry; exact E1]|split; [intros k Hk; lia|assumption]]).
  - intros i o Hi Hinv. rewrite readN_ok by lia. cbn [bind]. cbv zeta.
    replace (4 * i) with (2 * (2 * i)) by lia.
    destruct (@two_writes inp n (2 * i) 2 o (store 2 (fst (c_unshuffle (load (slice inp (2 * (2 * i)) 4)))))
       (store 2 (snd (c_unshuffle (load (slice inp (2 * (2 * i)) 4))))) Hinv) as [o0 [o1 [G0 [G1 G2]]]];
      try apply store_length; try apply store_bytes; try lia.
    { intros k Hk. apply c_unshuffle_piece; [exact Bi|lia]. }
    rewrite G0. cbn [bind]. rewrite G1. cbn [bind]. exists (o0, o1). split; [reflexivity|].
    replace (2 * (i + 1)) with (2 * i + 2) by lia. exact G2.
  - cbv zeta in Ho |- *. rewrite Ho. cbn [bind]. rewrite Nat.add_0_l in Hinv.
    destruct (Nat.eqb_spec (length inp) (length inp / 4 * 4)) as [E|E].
    + exists o. split; [reflexivity|]. replace n with (2 * (length inp / 4)) at 2 by lia. exact Hinv.
    + set (q := length inp / 4) in *.
      assert (Hh : q * 4 / 2 = 2 * q) by (replace (q * 4) with ((2 * q) * 2) by lia; apply Nat.div_mul; discriminate).
      cbv zeta. rewrite Hh.
      change (firstn 4 (skipn (q * 4) inp)) with (slice inp (q * 4) 4).
      replace (q * 4) with (2 * (2 * q)) by lia.
      assert (L0 : length (fst o) = n) by apply Hinv. assert (L1 : length (snd o) = n) by apply Hinv.
      rewrite L0, L1.
      destruct (@two_writes inp n (2 * q) (n - 2 * q) o
         (firstn (n - 2 * q) (store 2 (fst (c_unshuffle (load (slice inp (2 * (2 * q)) 4))))))
         (firstn (n - 2 * q) (store 2 (snd (c_unshuffle (load (slice inp (2 * (2 * q)) 4)))))) Hinv) as [o0 [o1 [G0 [G1 G2]]]];
        try (rewrite firstn_length, store_length; lia); try (apply firstn_bytes, store_bytes); try lia.
      { intros k Hk. rewrite !firstn_bit by exact Hk. apply c_unshuffle_piece; [exact Bi|lia]. }
      rewrite G0. cbn [bind]. rewrite G1. cbn [bind]. exists (o0, o1). split; [reflexivity|].
      replace n with (2 * q + (n - 2 * q)) at 2 by lia. exact G2.
Qed.

Lemma sse_unshuffle_tail_ok inp n : bytes inp -> n = (length inp + 1) / 2 ->
  forall fuel q o, 16 * q <= length inp -> length inp - 16 * q <= fuel -> un_inv inp n (8 * q) o ->
  exists r, sse_unshuffle_tail fuel inp (16 * q) o = Ok r /\ un_inv inp n n r.
Proof.
  intros Bi E2.
  pose proof (Nat.div_mod (length inp + 1) 2 ltac:(discriminate)) as DM2.
  pose proof (Nat.mod_upper_bound (length inp + 1) 2 ltac:(discriminate)) as MB2.
  induction fuel as [|fuel IH]; intros q o H1 H2 Hinv; cbn [sse_unshuffle_tail];
  destruct (Nat.eqb_spec (length inp) (16 * q)) as [E|E].
  - exists o. split; [reflexivity|]. replace n with (8 * q) at 2 by lia. exact Hinv.
  - lia.
  - exists o. split; [reflexivity|]. replace n with (8 * q) at 2 by lia. exact Hinv.
  - assert (Hh : 16 * q / 2 = 8 * q) by (replace (16 * q) with ((8 * q) * 2) by lia; apply Nat.div_mul; discriminate).
    cbv zeta. rewrite Hh. rewrite readN_ok by lia. cbn [bind]. rewrite slice_min.
    assert (L0 : length (fst o) = n) by apply Hinv. rewrite L0.
    assert (EQ : slice inp (16 * q) 16 = slice inp (2 * (8 * q)) 16) by (f_equal; lia). rewrite !EQ.
    destruct (@two_writes inp n (8 * q) (Nat.min (n - 8 * q) 8) o
         (firstn (Nat.min (n - 8 * q) 8) (store 8 (fst (sse_unshuffle (load (slice inp (2 * (8 * q)) 16))))))
         (firstn (Nat.min (n - 8 * q) 8) (store 8 (snd (sse_unshuffle (load (slice inp (2 * (8 * q)) 16)))))) Hinv) as [o0 [o1 [G0 [G1 G2]]]];
        try (rewrite firstn_length, store_length; lia); try (apply firstn_bytes, store_bytes); try lia.
    { intros k Hk. rewrite !firstn_bit by exact Hk. apply sse_unshuffle_piece; [exact Bi|lia]. }
    rewrite G0. cbn [bind]. rewrite G1. cbn [bind].
    destruct (Nat.le_gt_cases (length inp - 16 * q) 16) as [L|L].
    + replace (16 * q + Nat.min (length inp - 16 * q) 16) with (length inp) by lia.
      exists (o0, o1). split; [destruct fuel; cbn [sse_unshuffle_tail]; rewrite Nat.eqb_refl; reflexivity|].
      replace n with (8 * q + Nat.min (n - 8 * q) 8) at 2 by lia. exact G2.
    + replace (16 * q + Nat.min (length inp - 16 * q) 16) with (16 * S q) by lia.
      apply IH; try lia. replace (8 * S q) with (8 * q + Nat.min (n - 8 * q) 8) by lia. exact G2.
Qed.

Lemma sse_unshuffle_span_ok inp out0 out1 : bytes inp -> bytes out0 -> bytes out1 ->
  length out0 = length out1 -> length out0 = (length inp + 1) / 2 ->
  exists r, sse_unshuffle_span inp out0 out1 = Ok r /\ un_inv inp (length out0) (length out0) r.
Proof.
  intros Bi B0 B1 E1 E2. unfold sse_unshuffle_span.
  rewrite (proj2 (Nat.eqb_eq _ _) E1), (proj2 (Nat.eqb_eq _ _) E2). cbn [negb].
  set (n := length out0) in *.
  assert (D4 : 128 * (length inp / 128) <= length inp) by (apply Nat.mul_div_le; discriminate).
  pose proof (Nat.div_mod (length inp + 1) 2 ltac:(discriminate)) as DM2.
  pose proof (Nat.mod_upper_bound (length inp + 1) 2 ltac:(discriminate)) as MB2.
  cbv zeta. rewrite forN_nest. rewrite Nat.mul_0_r. set (nb := length inp / 128) in *.
  destruct (@forN_inv _ (fun i o => un_inv inp n (8 * i) o)
    (fun q (o : list N * list N) =>
      do a <- readN inp (16 * q) 16;
      let t := sse_unshuffle (load a) in
      do o0 <- writeN (fst o) (8 * q) (store 8 (fst t));
      do o1 <- writeN (snd o) (8 * q) (store 8 (snd t));
      Ok (o0, o1)) (8 * nb) 0 (out0, out1)) as [o [Ho Hinv]].
  - split; (split; [cbn [fst snd]; first [reflexivity | symmetry; exact E1]|split; [intros k Hk; lia|assumption]]).
  - intros i o Hi Hinv. rewrite readN_ok by lia. cbn [bind]. cbv zeta.
    replace (16 * i) with (2 * (8 * i)) by lia.
    destruct (@two_writes inp n (8 * i) 8 o (store 8 (fst (sse_unshuffle (load (slice inp (2 * (8 * i)) 16)))))
       (store 8 (snd (sse_unshuffle (load (slice inp (2 * (8 * i)) 16))))) Hinv) as [o0 [o1 [G0 [G1 G2]]]];
      try apply store_length; try apply store_bytes; try lia.
    { intros k Hk. apply sse_unshuffle_piece; [exact Bi|lia]. }
    rewrite G0. cbn [bind]. rewrite G1. cbn [bind]. exists (o0, o1). split; [reflexivity|].
    replace (8 * (i + 1)) with (8 * i + 8) by lia. exact G2.
  - cbv zeta in Ho |- *. rewrite Ho. cbn [bind]. rewrite Nat.add_0_l in Hinv.
    replace (nb * 16 * 8) with (16 * (8 * nb)) by lia.
    apply sse_unshuffle_tail_ok; try assumption; try reflexivity; lia.
Qed.

Lemma shuffle_span_ok sse in0 in1 out : bytes in0 -> bytes in1 -> bytes out ->
  length in0 = length in1 -> length in0 = (length out + 1) / 2 ->
  exists r, shuffle_span sse in0 in1 out = Ok r /\ sh_inv (Fsh in0 in1) (length out) (length out) r.
Proof. destruct sse; [apply sse_shuffle_span_ok | apply c_shuffle_span_ok]. Qed.

Lemma unshuffle_span_ok sse inp out0 out1 : bytes inp -> bytes out0 -> bytes out1 ->
  length out0 = length out1 -> length out0 = (length inp + 1) / 2 ->
  exists r, unshuffle_span sse inp out0 out1 = Ok r /\ un_inv inp (length out0) (length out0) r.
Proof. destruct sse; [apply sse_unshuffle_span_ok | apply c_unshuffle_span_ok]. Qed.

Lemma bytes_ext l l' : bytes l -> bytes l' -> length l = length l' ->
  (forall k, k < 8 * length l -> sbit l k = sbit l' k) -> l = l'.
Proof.
  intros Bl Bl' Hl H. apply nth_error_ext_len; [exact Hl|]. intros i L.
  rewrite (@nth_error_nth_lt _ l i 0%N), (@nth_error_nth_lt _ l' i 0%N) by lia. f_equal.
  apply N.bits_inj. intros k.
  assert (B1 : (nth i l 0 < 2 ^ 8)%N) by (apply (proj1 (Forall_forall _ _) Bl); apply nth_In; lia).
  assert (B2 : (nth i l' 0 < 2 ^ 8)%N) by (apply (proj1 (Forall_forall _ _) Bl'); apply nth_In; lia).
  destruct (N.lt_ge_cases k 8) as [Lk|Lk].
  - specialize (H (8 * i + N.to_nat k) ltac:(lia)). unfold sbit in H.
    replace (8 * i + N.to_nat k) with (N.to_nat k + i * 8) in H by lia.
    rewrite Nat.div_add, Nat.mod_add, Nat.div_small, Nat.mod_small in H by lia.
    rewrite N2Nat.id in H. exact H.
  - rewrite (pow2_bits_high B1), (pow2_bits_high B2) by exact Lk. reflexivity.
Qed.

Lemma pair_ind (P : nat -> Prop) : P 0 -> P 1 -> (forall n, P n -> P (S (S n))) -> forall n, P n.
Proof. intros H0 H1 HS n. assert (P n /\ P (S n)) as [G _]; [|exact G]. induction n as [|n [IH1 IH2]]; auto. Qed.

Lemma interleave_length A : forall l m : list A, length l = length m -> length (interleave l m) = 2 * length l.
Proof. induction l as [|a l IH]; intros [|b m] H; simpl in *; try lia. rewrite IH by lia. lia. Qed.

Lemma nth_error_interleave A : forall k (l m : list A), length l = length m ->
  nth_error (interleave l m) k = nth_error (if Nat.even k then l else m) (k / 2).
Proof.
  intros k. induction k as [| |k IH] using pair_ind; intros [|a l] [|b m] H; simpl in H; try discriminate H.
  - reflexivity.
  - reflexivity.
  - reflexivity.
  - reflexivity.
  - cbn [interleave]. rewrite (proj2 (nth_error_None _ _)) by (simpl; lia).
    destruct (Nat.even _); rewrite (proj2 (nth_error_None _ _)) by (simpl; lia); reflexivity.
  - cbn [interleave nth_error]. rewrite IH by lia.
    replace (S (S k)) with (k + 1 * 2) by lia. rewrite Nat.div_add by discriminate.
    replace (k + 1 * 2) with (k + 2 * 1) by lia. rewrite Nat.even_add_mul_2.
    rewrite (Nat.add_comm (k / 2)). destruct (Nat.even k); reflexivity.
Qed.

Lemma list_pair_ind A (P : list A -> Prop) : P [] -> (forall a, P [a]) -> (forall a b l, P l -> P (a :: b :: l)) -> forall l, P l.
Proof.
  intros H0 H1 HS l. assert (P l /\ forall a, P (a :: l)) as [G _]; [|exact G].
  induction l as [|a l [IH1 IH2]]; split; auto.
Qed.

Lemma evens_odds_nth A : forall l : list A, forall k,
  nth_error (evens l) k = nth_error l (2 * k) /\ nth_error (odds l) k = nth_error l (2 * k + 1).
Proof.
  intros l. induction l as [|a|a b l IH] using list_pair_ind; intros k; unfold odds in *; cbn [evens tl].
  - split; rewrite !(proj2 (nth_error_None _ _)) by (simpl; lia); reflexivity.
  - split.
    + destruct k; [reflexivity|]. rewrite !(proj2 (nth_error_None _ _)) by (simpl; lia). reflexivity.
    + rewrite !(proj2 (nth_error_None _ _)) by (simpl; lia). reflexivity.
  - destruct k as [|k].
    + split; [reflexivity|]. destruct l; reflexivity.
    + replace (2 * S k) with (S (S (2 * k))) by lia. cbn [nth_error]. rewrite Nat.add_succ_l. cbn [nth_error].
      destruct (IH k) as [I1 I2].
      split; [exact I1|]. 
      destruct l; exact I2.
Qed.

Lemma evens_interleave A : forall l m : list A, length l = length m ->
  evens (interleave l m) = l /\ odds (interleave l m) = m.
Proof.
  intros l m H. split; apply nth_error_ext; intros k.
  - rewrite (proj1 (evens_odds_nth _ _)), nth_error_interleave by exact H.
    replace (2 * k) with (0 + 2 * k) by lia. rewrite Nat.even_add_mul_2. cbn [Nat.even].
    rewrite Nat.mul_comm, Nat.div_add by discriminate. reflexivity.
  - rewrite (proj2 (evens_odds_nth _ _)), nth_error_interleave by exact H.
    replace (2 * k + 1) with (1 + 2 * k) by lia. rewrite Nat.even_add_mul_2. cbn [Nat.even].
    rewrite Nat.mul_comm, Nat.div_add by discriminate. reflexivity.
Qed.

Lemma div_ceil_half m : div_ceil m 8 = (div_ceil (2 * m) 8 + 1) / 2.
Proof.
  unfold div_ceil. destruct (div_mod8 m) as [E L]. set (q := m / 8) in *. set (r := m mod 8) in *.
  assert (D1 : (m + 8 - 1) / 8 = q + (if r =? 0 then 0 else 1)).
  { destruct (Nat.eqb_spec r 0) as [Z|Z].
    - replace (m + 8 - 1) with (7 + q * 8) by lia. rewrite Nat.div_add by discriminate. simpl. lia.
    - replace (m + 8 - 1) with ((r - 1) + (q + 1) * 8) by lia. rewrite Nat.div_add, Nat.div_small by lia. lia. }
  assert (D2 : (2 * m + 8 - 1) / 8 = 2 * q + (if r =? 0 then 0 else if r <=? 4 then 1 else 2)).
  { destruct (Nat.eqb_spec r 0) as [Z|Z]; [|destruct (Nat.leb_spec r 4) as [Y|Y]].
    - replace (2 * m + 8 - 1) with (7 + (2 * q) * 8) by lia. rewrite Nat.div_add, Nat.div_small by lia. lia.
    - replace (2 * m + 8 - 1) with ((2 * r - 1) + (2 * q + 1) * 8) by lia. rewrite Nat.div_add, Nat.div_small by lia. lia.
    - replace (2 * m + 8 - 1) with ((2 * r - 9) + (2 * q + 2) * 8) by lia. rewrite Nat.div_add, Nat.div_small by lia. lia. }
  rewrite D1, D2. destruct (Nat.eqb_spec r 0) as [Z|Z]; [|destruct (Nat.leb_spec r 4) as [Y|Y]].
  - replace (2 * q + 0 + 1) with (1 + q * 2) by lia. rewrite Nat.div_add by discriminate. simpl. lia.
  - replace (2 * q + 1 + 1) with (0 + (q + 1) * 2) by lia. rewrite Nat.div_add by discriminate. simpl. lia.
  - replace (2 * q + 2 + 1) with (1 + (q + 1) * 2) by lia. rewrite Nat.div_add by discriminate. simpl. lia.
Qed.

Lemma div_ceil_le n : n <= 8 * div_ceil n 8.
Proof.
  unfold div_ceil. pose proof (Nat.div_mod (n + 8 - 1) 8 ltac:(discriminate)).
  pose proof (Nat.mod_upper_bound (n + 8 - 1) 8 ltac:(discriminate)). lia.
Qed.

Lemma slice0_bit l n k : k < 8 * n -> sbit (slice l 0 n) k = sbit l k.
Proof. intros H. rewrite slice_bit by exact H. reflexivity. Qed.

Lemma row_bits_nth n l k : nth_error (row_bits n l) k = if k <? n then Some (sbit l k) else None.
Proof.
  unfold row_bits. rewrite nth_error_map, nth_error_seq. destruct (k <? n); reflexivity.
Qed.

Lemma row_bits_length n l : length (row_bits n l) = n.
Proof. unfold row_bits. rewrite map_length, seq_length. reflexivity. Qed.

Lemma shuffle_row_ok sse m r0 r1 r : bytes r0 -> bytes r1 -> bytes r ->
  div_ceil m 8 <= length r0 -> div_ceil m 8 <= length r1 -> div_ceil (2 * m) 8 <= length r ->
  exists r', shuffle_row sse (2 * m) r0 r1 r = Ok r' /\ bytes r' /\ length r' = length r /\
    row_bits (2 * m) r' = interleave (row_bits m r0) (row_bits m r1) /\
    (forall k, 8 * div_ceil (2 * m) 8 <= k -> sbit r' k = sbit r k).
Proof.
  intros B0 B1 B H0 H1 H. unfold shuffle_row.
  replace (2 * m / 2) with m by (rewrite Nat.mul_comm, Nat.div_mul by discriminate; reflexivity).
  rewrite !readN_ok by lia. cbn [bind].
  destruct (@shuffle_span_ok sse (slice r0 0 (div_ceil m 8)) (slice r1 0 (div_ceil m 8)) (slice r 0 (div_ceil (2 * m) 8)))
    as [o [Ho [L [U Bo]]]]; try (apply slice_bytes; assumption).
  { rewrite !slice_length by lia. reflexivity. }
  { rewrite !slice_length by lia. apply div_ceil_half. }
  rewrite Ho. cbn [bind]. rewrite slice_length in L, U by lia.
  rewrite writeN_ok by lia. eexists. split; [reflexivity|].
  split; [apply overwrite_bytes; assumption|]. split; [apply overwrite_length; lia|]. split.
  - apply nth_error_ext. intros k. rewrite nth_error_interleave by (rewrite !row_bits_length; reflexivity).
    rewrite row_bits_nth. destruct (Nat.ltb_spec k (2 * m)) as [Lk|Lk].
    + rewrite overwrite_bit by lia. pose proof (div_ceil_le (2 * m)) as D. pose proof (div_ceil_le m) as D'.
      replace ((8 * 0 <=? k) && (k <? 8 * (0 + length o))) with true.
      2:{ symmetry. apply andb_true_iff. split; [reflexivity|apply Nat.ltb_lt; lia]. }
      replace (k - 8 * 0) with k by lia. rewrite U by lia. unfold Fsh.
      assert (Hd : k / 2 < m) by (apply Nat.div_lt_upper_bound; lia).
      assert (Hb : (k / 2 <? m) = true) by (apply Nat.ltb_lt; exact Hd).
      destruct (Nat.even k); rewrite row_bits_nth, Hb, slice0_bit by lia; reflexivity.
    + assert (Hd : m <= k / 2) by (apply Nat.div_le_lower_bound; lia).
      destruct (Nat.even k); rewrite row_bits_nth; apply Nat.ltb_ge in Hd; rewrite Hd; reflexivity.
  - intros k Hk. rewrite overwrite_bit by lia.
    replace (k <? 8 * (0 + length o)) with false by (symmetry; apply Nat.ltb_ge; lia).
    rewrite andb_false_r. reflexivity.
Qed.

Lemma unshuffle_row_ok sse m r r0 r1 : bytes r -> bytes r0 -> bytes r1 -> 0 < m ->
  div_ceil m 8 <= length r0 -> div_ceil m 8 <= length r1 -> div_ceil (2 * m) 8 <= length r ->
  exists r0' r1', unshuffle_row sse (2 * m) r r0 r1 = Ok (r0', r1') /\ bytes r0' /\ bytes r1' /\
    length r0' = length r0 /\ length r1' = length r1 /\
    row_bits m r0' = evens (row_bits (2 * m) r) /\ row_bits m r1' = odds (row_bits (2 * m) r) /\
    (forall k, 8 * div_ceil m 8 <= k -> sbit r0' k = sbit r0 k /\ sbit r1' k = sbit r1 k).
Proof.
  intros B B0 B1 Hm H0 H1 H. unfold unshuffle_row.
  replace (2 * m / 2) with m by (rewrite Nat.mul_comm, Nat.div_mul by discriminate; reflexivity).
  destruct (Nat.eqb_spec (2 * m) 0) as [Z|_]; [lia|].
  rewrite !readN_ok by lia. cbn [bind].
  destruct (@unshuffle_span_ok sse (slice r 0 (div_ceil (2 * m) 8)) (slice r0 0 (div_ceil m 8)) (slice r1 0 (div_ceil m 8)))
    as [[o0 o1] [Ho [[L0 [U0 Bo0]] [L1 [U1 Bo1]]]]]; try (apply slice_bytes; assumption).
  { rewrite !slice_length by lia. reflexivity. }
  { rewrite !slice_length by lia. apply div_ceil_half. }
  rewrite Ho. cbn [bind fst snd] in *. rewrite slice_length in L0, L1, U0, U1 by lia.
  rewrite !writeN_ok by lia. cbn [bind].
  exists (overwrite r0 0 o0), (overwrite r1 0 o1). split; [reflexivity|].
  split; [apply overwrite_bytes; assumption|]. split; [apply overwrite_bytes; assumption|].
  split; [apply overwrite_length; lia|]. split; [apply overwrite_length; lia|].
  pose proof (div_ceil_le (2 * m)) as D. pose proof (div_ceil_le m) as D'.
  assert (G : forall o x k, length o = div_ceil m 8 -> div_ceil m 8 <= length x -> k < m -> sbit (overwrite x 0 o) k = sbit o k).
  { intros o x k Lo Lx Hk. rewrite overwrite_bit by lia.
    replace ((8 * 0 <=? k) && (k <? 8 * (0 + length o))) with true.
    2:{ symmetry. apply andb_true_iff. split; [reflexivity|apply Nat.ltb_lt; lia]. }
    f_equal. lia. }
  split; [|split].
  - apply nth_error_ext. intros k. rewrite (proj1 (evens_odds_nth _ _)), !row_bits_nth.
    destruct (Nat.ltb_spec k m) as [Lk|Lk], (Nat.ltb_spec (2 * k) (2 * m)) as [Lk2|Lk2]; try lia; [|reflexivity].
    rewrite G by assumption. rewrite U0 by lia. rewrite slice0_bit by lia. reflexivity.
  - apply nth_error_ext. intros k. rewrite (proj2 (evens_odds_nth _ _)), !row_bits_nth.
    destruct (Nat.ltb_spec k m) as [Lk|Lk], (Nat.ltb_spec (2 * k + 1) (2 * m)) as [Lk2|Lk2]; try lia; [|reflexivity].
    rewrite G by assumption. rewrite U1 by lia. rewrite slice0_bit by lia. reflexivity.
  - intros k Hk. rewrite !overwrite_bit by lia. rewrite L0, L1.
    replace (k <? 8 * (0 + div_ceil m 8)) with false by (symmetry; apply Nat.ltb_ge; lia).
    rewrite andb_false_r. split; reflexivity.
Qed.

(* both variants compute the same *)
Lemma variants_agree in0 in1 out : bytes in0 -> bytes in1 -> bytes out ->
  length in0 = length in1 -> length in0 = (length out + 1) / 2 ->
  sse_shuffle_span in0 in1 out = c_shuffle_span in0 in1 out.
Proof.
  intros B0 B1 B E1 E2.
  destruct (sse_shuffle_span_ok B0 B1 B E1 E2) as [r [-> [L [U Br]]]].
  destruct (c_shuffle_span_ok B0 B1 B E1 E2) as [r' [-> [L' [U' Br']]]].
  f_equal. apply bytes_ext; try assumption; [congruence|]. intros k Hk. rewrite U, U' by lia. reflexivity.
Qed.

Lemma unvariants_agree inp out0 out1 : bytes inp -> bytes out0 -> bytes out1 ->
  length out0 = length out1 -> length out0 = (length inp + 1) / 2 ->
  sse_unshuffle_span inp out0 out1 = c_unshuffle_span inp out0 out1.
Proof.
  intros B0 B1 B E1 E2.
  destruct (sse_unshuffle_span_ok B0 B1 B E1 E2) as [[r s] [-> [[L [U Br]] [Ls [Us Bs]]]]].
  destruct (c_unshuffle_span_ok B0 B1 B E1 E2) as [[r' s'] [-> [[L' [U' Br']] [Ls' [Us' Bs']]]]].
  cbn [fst snd] in *.
  f_equal. f_equal; apply bytes_ext; try assumption; try congruence; intros k Hk.
  - rewrite U, U' by lia. reflexivity.
  - rewrite Us, Us' by lia. reflexivity.
Qed.

(* unshuffling what was shuffled *)
Lemma roundtrip_ok s s' in0 in1 out o0 o1 : bytes in0 -> bytes in1 -> bytes out -> bytes o0 -> bytes o1 ->
  length in0 = length in1 -> length out = 2 * length in0 -> length o0 = length in0 -> length o1 = length in0 ->
  (do r <- shuffle_span s in0 in1 out; unshuffle_span s' r o0 o1) = Ok (in0, in1).
Proof.
  intros B0 B1 B C0 C1 E1 E2 F0 F1.
  assert (Eh : length in0 = (length out + 1) / 2).
  { rewrite E2. replace (2 * length in0 + 1) with (1 + length in0 * 2) by lia. rewrite Nat.div_add by discriminate. reflexivity. }
  destruct (@shuffle_span_ok s in0 in1 out B0 B1 B E1 Eh) as [r [-> [L [U Br]]]]. cbn [bind].
  destruct (@unshuffle_span_ok s' r o0 o1) as [[a b] [-> [[La [Ua Ba]] [Lb [Ub Bb]]]]]; try assumption; try congruence.
  cbn [fst snd] in *. rewrite F0 in *.
  f_equal. f_equal; apply bytes_ext; try assumption; try congruence; intros k Hk.
  - rewrite Ua by lia. rewrite U by lia. unfold Fsh.
    replace (2 * k) with (0 + 2 * k) by lia. rewrite Nat.even_add_mul_2. cbn [Nat.even].
    rewrite Nat.mul_comm, Nat.div_add by discriminate. reflexivity.
  - rewrite Ub by lia. rewrite U by lia. unfold Fsh.
    replace (2 * k + 1) with (1 + 2 * k) by lia. rewrite Nat.even_add_mul_2. cbn [Nat.even].
    rewrite Nat.mul_comm, Nat.div_add by discriminate. reflexivity.
Qed.
