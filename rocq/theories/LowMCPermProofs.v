From Verif Require Import Base PermModel PermSpec PermCorModel PermCorSpec PermProofs PermCorProofs ShuffleModel ShuffleSpec GmwModel GmwSpec GmwProofs PrfModel PrfProofs
  GmwIoModel GmwIoSpec GmwIoProofs GmwEndProofs LowMCModel LowMCSpec LowMCMat LowMCProofs LowMCCircuit LowMCLoad LowMCPermModel LowMCPermSpec.

(* ---------------- the cipher depends on the low bits only ---------------- *)
Lemma xsum_ext n f g : (forall i, i < n -> f i = g i) -> xsum n f = xsum n g.
Proof. induction n as [|n IH]; intros H; [reflexivity|]. cbn [xsum]. rewrite IH by (intros; apply H; lia). rewrite H by lia. reflexivity. Qed.

Lemma matvec_ext n mat x y i : (forall j, j < n -> x j = y j) -> matvec n mat x i = matvec n mat y i.
Proof. intros H. unfold matvec. apply xsum_ext. intros j Hj. rewrite H by exact Hj. reflexivity. Qed.

Lemma cipher_ext m n mats cs keys keys' x x' : 3 * m <= n -> (forall i, i < n -> x i = x' i) -> forall k,
  (forall r i, r <= k -> i < n -> keys r i = keys' r i) -> forall i, i < n -> cipher m n mats cs keys k x i = cipher m n mats cs keys' k x' i.
Proof.
  intros Hm Hx. induction k as [|k IH]; intros Hk i Hi; cbn [cipher].
  - rewrite Hx, (Hk 0 i) by lia. reflexivity.
  - rewrite (Hk (S k) i) by lia. f_equal. f_equal. apply matvec_ext. intros j Hj. apply (slayer_ext Hm); [|exact Hj].
    intros t Ht. apply IH; [intros; apply Hk; lia|exact Ht].
Qed.

(* ---------------- bytes ---------------- *)
Lemma blk_bytes_len k x : length (blk_bytes k x) = k.
Proof. unfold blk_bytes. rewrite map_length. apply seq_length. Qed.

Lemma land255 x t : N.testbit (N.land x 255) (N.of_nat t) = (t <? 8) && N.testbit x (N.of_nat t).
Proof.
  rewrite N.land_spec. change 255%N with (N.ones 8). destruct (Nat.ltb_spec t 8) as [L|L].
  - rewrite N.ones_spec_low by lia. cbn [andb]. apply andb_true_r.
  - rewrite N.ones_spec_high by lia. apply andb_false_r.
Qed.

Lemma blk_byte k x b t : b < k -> N.testbit (nth b (blk_bytes k x) 0%N) (N.of_nat t) = (t <? 8) && bitv x (8 * b + t).
Proof.
  intros H. unfold blk_bytes. rewrite nth_map_seq0 by exact H. rewrite land255. f_equal. rewrite N.shiftr_spec by apply N.le_0_l.
  unfold bitv. f_equal. lia.
Qed.

Lemma blk_sbit k x j : j < 8 * k -> sbit (blk_bytes k x) j = bitv x j.
Proof.
  intros H. unfold sbit. pose proof (Nat.mod_upper_bound j 8 ltac:(lia)). pose proof (Nat.div_mod j 8 ltac:(lia)).
  rewrite blk_byte by lia. rewrite (proj2 (Nat.ltb_lt _ _)) by lia. cbn [andb]. f_equal. lia.
Qed.

Lemma sbit_byte l b t : t < 8 -> sbit l (8 * b + t) = N.testbit (nth b l 0%N) (N.of_nat t).
Proof.
  intros H. unfold sbit. replace ((8 * b + t) / 8) with b by (symmetry; rewrite Nat.mul_comm, Nat.div_add_l by lia; rewrite Nat.div_small by lia; lia).
  replace ((8 * b + t) mod 8) with t; [reflexivity|]. symmetry. rewrite Nat.add_comm, Nat.mul_comm, Nat.mod_add by lia. apply Nat.mod_small. exact H.
Qed.

(* every byte of getOutput is one *)
Lemma output_bytes junk pad i al rows cols g g' o r b t : get_output junk pad i al rows cols g = Ok (g', o) -> 8 <= t -> N.testbit (nth b (nth r o []) 0%N) (N.of_nat t) = false.
Proof.
  intros H Ht. unfold get_output in H. apply bind_ok in H. destruct H as ([[g1 [rr oo]] ws] & _ & H). destruct (al * 8 =? 0); [discriminate|].
  apply bind_ok in H. destruct H as (_ & _ & H). apply bind_ok in H. destruct H as (_ & _ & H). apply bind_ok in H. destruct H as (mem & _ & H). inversion H; subst; clear H.
  destruct (Nat.lt_ge_cases r rows) as [L|L]; [|rewrite nth_overflow by (rewrite nth_overflow; [cbn; lia|rewrite map_length, seq_length; exact L]); apply N.bits_0].
  rewrite nth_map_seq0 by exact L. unfold tr_out.
  destruct (Nat.lt_ge_cases b cols) as [Lb|Lb]; [|rewrite nth_overflow by (rewrite map_length, seq_length; exact Lb); apply N.bits_0].
  rewrite nth_map_seq0 by exact Lb. rewrite of_bits_bit. apply nth_overflow. rewrite map_length, seq_length. exact Ht.
Qed.

(* ---------------- rows ---------------- *)
Lemma copy_min_len d s : length d <= length s -> copy_min d s = firstn (length d) s.
Proof. intros H. unfold copy_min. rewrite Nat.min_l by exact H. rewrite skipn_all. apply app_nil_r. Qed.

Lemma nth_firstn_lt A (l : list A) n i d : i < n -> nth i (firstn n l) d = nth i l d.
Proof. revert n i. induction l as [|x l IH]; intros [|n] [|i] H; try lia; cbn; try reflexivity. apply IH. lia. Qed.

(* byte j of blocks of w bytes *)
Lemma nth_blocks (bl : list (list N)) w j : 0 < w -> Forall (fun r => length r = w) bl -> j < length bl * w ->
  nth j (concat bl) 0%N = nth (j mod w) (nth (j / w) bl []) 0%N.
Proof.
  intros Hw HF Hj. pose proof (Nat.div_mod j w ltac:(lia)). pose proof (Nat.mod_upper_bound j w ltac:(lia)).
  replace j with (j / w * w + j mod w) at 1 by lia. apply nth_concat; [intros r Hr; rewrite Forall_forall in HF; apply HF; exact Hr| |assumption].
  apply Nat.div_lt_upper_bound; lia.
Qed.

Lemma slice_len A (l : list A) i k : i + k <= length l -> length (slice l i k) = k.
Proof. intros H. unfold slice. rewrite firstn_length, skipn_length. lia. Qed.
Lemma nth_skipn0 A (d : A) : forall n (l : list A) i, nth i (skipn n l) d = nth (n + i) l d.
Proof. induction n as [|n IH]; intros [|x l] i; cbn [skipn Nat.add nth]; try reflexivity; [destruct i; reflexivity|apply IH]. Qed.
Lemma nth_slice A (l : list A) i k j d : j < k -> nth j (slice l i k) d = nth (i + j) l d.
Proof. intros H. unfold slice. rewrite nth_firstn_lt by exact H. apply nth_skipn0. Qed.

Lemma low_rows_ok old bpr out w n c : 0 < w -> rect n c old -> rect (n * bpr) w out -> c <= bpr * w ->
  length (concat (low_rows old bpr out)) = n * c /\
  forall i j, i < n -> j < c -> cel c (concat (low_rows old bpr out)) i j = nth (j mod w) (nth (i * bpr + j / w) out []) 0%N.
Proof.
  intros Hw [OL OF] [L F] Hc.
  assert (SL : forall i, i < n -> length (slice out (i * bpr) bpr) = bpr) by (intros i Hi; apply slice_len; rewrite L; nia).
  assert (SF : forall i, Forall (fun r => length r = w) (slice out (i * bpr) bpr)).
  { intros i. apply Forall_forall. intros r Hr. rewrite Forall_forall in F. apply F. unfold slice in Hr.
    apply (In_nth _ _ []) in Hr. destruct Hr as (t & Ht & <-). rewrite firstn_length, skipn_length in Ht. rewrite nth_firstn_lt by lia. rewrite nth_skipn0. apply nth_In. lia. }
  assert (CL : forall i, i < n -> length (concat (slice out (i * bpr) bpr)) = bpr * w).
  { intros i Hi. rewrite (@concat_length _ _ w), SL by (exact Hi || (intros r Hr; specialize (SF i); rewrite Forall_forall in SF; exact (SF r Hr))). reflexivity. }
  assert (RL : forall i, i < n -> length (nth i old []) = c) by (intros i Hi; rewrite Forall_forall in OF; apply OF; apply nth_In; lia).
  assert (RR : forall r, In r (low_rows old bpr out) -> length r = c).
  { intros r Hr. unfold low_rows in Hr. apply in_map_iff in Hr. destruct Hr as (i & <- & Hi). apply in_seq in Hi. rewrite copy_min_len by (rewrite RL, CL by lia; exact Hc).
    rewrite firstn_length, RL, CL by lia. lia. }
  assert (LL : length (low_rows old bpr out) = n) by (unfold low_rows; rewrite map_length, seq_length; exact OL).
  split; [rewrite (@concat_length _ _ c RR), LL; reflexivity|].
  intros i j Hi Hj. unfold cel. rewrite (@nth_concat _ 0%N _ c _ _ RR) by (rewrite ?LL; assumption).
  unfold low_rows. rewrite nth_map_seq0 by lia. rewrite copy_min_len by (rewrite RL, CL by lia; exact Hc). rewrite RL by exact Hi. rewrite nth_firstn_lt by exact Hj.
  rewrite (@nth_blocks _ w) by (try apply SF; try rewrite SL by exact Hi; lia). rewrite nth_slice; [reflexivity|]. apply Nat.div_lt_upper_bound; lia.
Qed.

(* ---------------- the inputs ---------------- *)
Lemma points_len p idx bpr : length (low_points p idx bpr) = length idx * bpr.
Proof. unfold low_points. rewrite (@concat_length _ _ bpr), map_length; [reflexivity|]. intros r Hr. apply in_map_iff in Hr. destruct Hr as (i & <- & _). rewrite map_length. apply seq_length. Qed.

Lemma nth_points p idx bpr i j : i < length idx -> j < bpr -> nth (i * bpr + j) (low_points p idx bpr) 0%N = low_point p j (nth i idx 0).
Proof.
  intros Hi Hj. unfold low_points. rewrite (@nth_concat _ 0%N _ bpr).
  - rewrite (nth_indep _ [] (map (fun j => low_point p j 0) (seq 0 bpr))) by (rewrite map_length; exact Hi).
    pose proof (map_nth (fun i => map (fun j => low_point p j i) (seq 0 bpr)) idx 0 i) as E. cbv beta in E. rewrite E, nth_map_seq0 by exact Hj. reflexivity.
  - intros r Hr. apply in_map_iff in Hr. destruct Hr as (k & <- & _). rewrite map_length. apply seq_length.
  - rewrite map_length. exact Hi.
  - exact Hj.
Qed.

Lemma low_point_bit p j i t : t < lpBits p -> bitv (low_point p j i) t = point_bits j i t.
Proof.
  intros H. unfold bitv, low_point, point_bits, bitv. rewrite N.land_spec, N.ones_spec_low by lia. rewrite andb_true_r. f_equal.
  rewrite N.shiftl_mul_pow2. symmetry. rewrite <- N.mul_mod_idemp_l by discriminate. reflexivity.
Qed.
Lemma low_point_small p j i : small (lpBits p) (low_point p j i).
Proof.
  apply small_iff. intros t Ht. unfold low_point, bit_at. rewrite N.land_spec, N.ones_spec_high by lia. apply andb_false_r.
Qed.

Lemma forN_one S (f : nat -> S -> outcome S) n s : forN 1 n f s = forN 0 n (fun i => f (1 + i)) s.
Proof. replace 1 with (0 + 1) at 1 by reflexivity. rewrite forN_shift. apply forN_ext. intros; f_equal; lia. Qed.

Lemma forN_ext_in S (f g : nat -> S -> outcome S) : forall n i s, (forall k s, i <= k < i + n -> f k s = g k s) -> forN i n f s = forN i n g s.
Proof. intros n i s H. apply forN_ext. intros; apply H; lia. Qed.

Lemma send_setup_give junk pad p pi n bytes g : length pi = n -> lpRounds p + 1 < 256 ->
  low_send_setup junk pad p pi n bytes g =
  give_all junk (fun _ => pad) (GRows (low_size p) (low_size p) (map (blk_bytes (low_size p)) (low_points p pi (div_ceil bytes (low_size p)))) :: repeat GZero (lpRounds p + 1)) g.
Proof.
  intros HL HR. unfold low_send_setup, give_all. rewrite (proj2 (Nat.eqb_eq _ _) HL). cbn [negb throw_if bind].
  rewrite (proj2 (Nat.leb_gt _ _) HR). cbn [length]. rewrite repeat_length. cbn [forN get nth_error bind].
  match goal with |- bind ?a _ = bind ?a _ => destruct a as [g1| | |]; cbn [bind]; try reflexivity end.
  rewrite forN_one. apply forN_ext_in. intros k s Hk. cbn [Nat.add get nth_error].
  unfold get. cbn [nth_error]. rewrite (nth_error_nth_lt GZero) by (rewrite repeat_length; lia). rewrite nth_repeat. reflexivity.
Qed.

Lemma recv_setup_give junk pad p l n bytes g : length (lmKeys l) = lpRounds p + 1 ->
  low_recv_setup junk pad p l n bytes g =
  give_all junk (fun i => pad (i - 1)) (GZero :: map (fun rk => GRows (low_size p) (low_size p) (repeat (blk_bytes (low_size p) rk) (n * div_ceil bytes (low_size p)))) (lmKeys l)) g.
Proof.
  intros HL. unfold low_recv_setup, give_all. cbn [length]. rewrite map_length, HL. cbn [forN get nth_error bind].
  match goal with |- bind ?a _ = bind ?a _ => destruct a as [g1| | |]; cbn [bind]; try reflexivity end.
  rewrite forN_one. apply forN_ext_in. intros k s Hk. cbn [Nat.add]. unfold get at 2. cbn [nth_error].
  rewrite nth_error_map. unfold get. rewrite (nth_error_nth_lt 0%N) by lia. cbn [option_map bind]. cbn [Nat.add]. replace (S k - 1) with k by lia. reflexivity.
Qed.

(* ---------------- the run ---------------- *)
Lemma div_ceil_pos a b : 0 < a -> 0 < b -> 0 < div_ceil a b.
Proof. intros Ha Hb. unfold div_ceil. apply Nat.div_str_pos. lia. Qed.

Lemma low_ins_nth p i b : nth_error (low_ins p) i = Some b -> i < 2 + lpRounds p /\ b = seq (lpBits p * i) (lpBits p).
Proof.
  intros H. pose proof (nth_error_lt H) as L. unfold low_ins in *. rewrite map_length, seq_length in L. split; [exact L|].
  rewrite nth_error_map in H. rewrite (nth_error_nth_lt 0) in H by (rewrite seq_length; exact L). rewrite seq_nth in H by exact L. cbn [option_map] in H. injection H as <-. reflexivity.
Qed.

Lemma concat_seqs w : forall k a, concat (map (fun r => seq (w * r) w) (seq a k)) = seq (w * a) (w * k).
Proof.
  induction k as [|k IH]; intros a; cbn [seq map concat]; [rewrite Nat.mul_0_r; reflexivity|]. rewrite IH. replace (w * S k) with (w + w * k) by lia. rewrite seq_app. f_equal. f_equal. lia.
Qed.
Lemma low_ins_all p : concat (low_ins p) = seq 0 (lpBits p * (2 + lpRounds p)).
Proof. unfold low_ins. rewrite concat_seqs, Nat.mul_0_r. reflexivity. Qed.

Lemma low_io_ok p : 0 < lpBits p -> io_ok (low_wires p) (low_ins p) (low_outs p).
Proof.
  intros H. split; [|split; [|split]].
  - apply Forall_forall. intros b Hb. apply In_nth_error in Hb. destruct Hb as [i Hi]. destruct (low_ins_nth Hi) as [L ->].
    exists (lpBits p * i). rewrite seq_length. split; [reflexivity|]. split; [exact H|]. unfold low_wires. nia.
  - rewrite low_ins_all. apply seq_NoDup.
  - repeat constructor. exists (lpBits p * (2 + lpRounds p)). rewrite seq_length. split; [reflexivity|]. split; [exact H|]. unfold low_wires. nia.
  - intros v Hv. rewrite low_ins_all, in_seq. unfold low_outs in Hv. cbn [concat] in Hv. rewrite app_nil_r in Hv. apply in_seq in Hv. lia.
Qed.

Lemma keys_drawn p l l' kbits key : (forall r i, r <= lpRounds p -> i < lpBits p -> bitv (nth r (lmKeys l') 0%N) i = matvec (lpKey p) (nth r (lmKeyMat l) []) (bitv key) i) ->
  (forall i, i < lpKey p -> bitv key i = kbits i) -> forall r i, r <= lpRounds p -> i < lpBits p -> bitv (nth r (lmKeys l') 0%N) i = drawn_keys p l kbits r i.
Proof. intros H1 H2 r i Hr Hi. rewrite H1 by assumption. unfold drawn_keys. apply matvec_ext. exact H2. Qed.

Section Run.
Variables (p : lparams) (rng kbits : nat -> bool) (lf kf : nat -> option (list N)) (w : nat) (l : lowmc) (lvs : list level).
Hypothesis Hw : lpBits p = 8 * w.
Hypothesis Hw0 : 0 < w.
Hypothesis Hbox : 3 * lpBoxes p <= lpBits p.
Hypothesis Hrounds : lpRounds p + 1 < 256.
Hypothesis Hl : lm_new p false 0 rng lf kf 0 = Ok l.
Hypothesis H2 : Forall (Forall (two_ones (lpBits p))) (lmLin l).
Hypothesis HL : leveled p l lvs.

Lemma size_w : low_size p = w.
Proof using Hw. unfold low_size. rewrite Hw, Nat.mul_comm. apply Nat.div_mul. discriminate. Qed.

Lemma zero_small k : small k 0%N.
Proof. unfold small. apply N.neq_0_lt_0. apply N.pow_nonzero. discriminate. Qed.

Lemma rekeyed : exists l', set_key p l (rand_bits kbits (lpKey p) 0) = Ok l' /\ shaped p l' /\ keyed p l' /\ lmLin l' = lmLin l /\ lmConst l' = lmConst l /\
  forall r i, r <= lpRounds p -> i < lpBits p -> bitv (nth r (lmKeys l') 0%N) i = drawn_keys p l kbits r i.
Proof using Hw Hw0 Hbox Hrounds Hl.
  destruct (@new_ok p false 0 rng lf kf 0%N l ltac:(lia) Hbox (zero_small _) Hl) as (S1 & _ & _ & _ & _ & D & F).
  destruct (@set_key_ok p l (rand_bits kbits (lpKey p) 0) D F (rand_bits_small _ _ _)) as (l' & E & K1 & K2 & K3 & K4 & K5 & K6 & K7).
  exists l'. split; [exact E|]. split; [unfold shaped in *; rewrite K3, K5; exact S1|]. split; [exact K1|]. split; [exact K3|]. split; [exact K5|].
  apply (@keys_drawn p l l' kbits (rand_bits kbits (lpKey p) 0)).
  - intros r i Hr Hi. rewrite (K2 r i Hr Hi). rewrite K7. reflexivity.
  - intros i Hi. exact (rand_bits_bit kbits 0 Hi).
Qed.

(* encrypting a point gives its mask *)
Lemma encrypt_point l' j i : shaped p l' -> keyed p l' -> lmLin l' = lmLin l -> lmConst l' = lmConst l ->
  (forall r t, r <= lpRounds p -> t < lpBits p -> bitv (nth r (lmKeys l') 0%N) t = drawn_keys p l kbits r t) ->
  exists y, lm_encrypt p l' (low_point p j i) = Ok y /\ forall t, t < lpBits p -> bitv y t = low_mask p l kbits j i t.
Proof using Hbox.
  intros S1 K1 E1 E2 HK. destruct (encrypt_cipher S1 K1 (low_point_small p j i)) as (y & E & _ & Hy). exists y. split; [exact E|].
  intros t Ht. transitivity (bit_at y t); [reflexivity|]. rewrite Hy by exact Ht. unfold low_mask, const_vecs. rewrite E1, E2. apply cipher_ext; [exact Hbox| |exact HK|exact Ht].
  intros u Hu. exact (@low_point_bit p j i u Hu).
Qed.

Section Gen.
Variables (J : low_junk) (pi : list nat) (n bytes so ro : nat) (s0 s1 : list (list triple)).
Let bpr := div_ceil bytes w.
Let c := 16 * div_ceil bytes 16.
Hypothesis Hn : 0 < n.
Hypothesis Hbytes : 0 < bytes.
Hypothesis Hpi : is_perm n pi.
Hypothesis Hc : c <= bpr * w.
Hypothesis HD : rect n c (ljDelta J).
Hypothesis HA : rect n c (ljA J).
Hypothesis HB : rect n c (ljB J).
Hypothesis HS : ole_segs s0 s1.
Hypothesis He : even_segs s0.
Hypothesis Hd : demand (div_ceil (n * bpr) 128) lvs <= length (concat s0).

Lemma pi_len : length pi = n.
Proof using Hpi. rewrite (Permutation.Permutation_length Hpi). apply seq_length. Qed.

Lemma gmw_part l' : shaped p l' -> keyed p l' -> lmLin l' = lmLin l -> lmConst l' = lmConst l ->
  (forall r t, r <= lpRounds p -> t < lpBits p -> bitv (nth r (lmKeys l') 0%N) t = drawn_keys p l kbits r t) ->
  exists g0 g1 h0 h1 o0 o1,
    low_send_setup (ljHeap0 J) (ljIn0 J) p pi n bytes (low_init p n bytes) = Ok g0 /\
    low_recv_setup (ljHeap1 J) (ljIn1 J) p l' n bytes (low_init p n bytes) = Ok g1 /\
    gmw_exec lvs (ljHeap0 J) (ljHeap1 J) s0 s1 g0 g1 = Ok (h0, h1) /\
    get_output (ljHeap0 J) (ljOut0 J) 0 w (n * bpr) w h0 = Ok (h0, o0) /\
    get_output (ljHeap1 J) (ljOut1 J) 0 w (n * bpr) w h1 = Ok (h1, o1) /\
    rect (n * bpr) w o0 /\ rect (n * bpr) w o1 /\
    forall i q t, i < n -> q < bpr -> t < lpBits p ->
      xorb (sbit (nth (i * bpr + q) o0 []) t) (sbit (nth (i * bpr + q) o1 []) t) = low_mask p l kbits q (nth i pi 0) t.
Proof using Hw Hw0 Hbox Hrounds H2 HL Hn Hbytes Hpi Hc HS He Hd.
  intros S1 K1 E1 E2 HK. destruct HL as (LV & WD & OC & EV). pose proof pi_len as PL. pose proof (proj1 K1) as KL.
  assert (Hb : 0 < bpr) by (apply div_ceil_pos; assumption).
  assert (Hnb : 0 < n * bpr) by nia.
  set (xs0 := GRows w w (map (blk_bytes w) (low_points p pi bpr)) :: repeat GZero (lpRounds p + 1)).
  set (xs1 := GZero :: map (fun rk => GRows w w (repeat (blk_bytes w rk) (n * bpr))) (lmKeys l')).
  assert (ONE : (lpBits p + w * 8 - 1) / (w * 8) = w / w).
  { rewrite Nat.div_same by lia. rewrite Hw. symmetry. apply (Nat.div_unique _ _ 1 (8 * w - 1)); lia. }
  assert (NE : concat (map fst lvs) <> []).
  { destruct (OC (lpBits p * (2 + lpRounds p))) as (h & Hh & _).
    - unfold low_outs. cbn [concat]. rewrite app_nil_r. apply in_seq. lia.
    - intros E. rewrite E in Hh. exact Hh. }
  destruct (@end_to_end (n * bpr) (low_wires p) (low_ins p) (low_outs p) lvs Hnb (@low_io_ok p ltac:(lia)) LV NE
    (ljHeap0 J) (ljHeap1 J) (ljHeap0 J) (ljHeap1 J) (fun _ => ljIn0 J) (fun i => ljIn1 J (i - 1)) xs0 xs1 [None] [None] s0 s1)
    as (g0 & g1 & ids0 & ids1 & h0 & h1 & P0 & P1 & EX & OUT).
  - unfold xs0, low_ins. cbn [length]. rewrite repeat_length, map_length, seq_length. lia.
  - unfold xs1, low_ins. cbn [length]. rewrite !map_length, seq_length, KL. lia.
  - intros i b x Hb' Hx. destruct (low_ins_nth Hb') as [Li ->]. rewrite seq_length. destruct i as [|i]; cbn [xs0 nth_error] in Hx.
    + injection Hx as <-. cbn [given_ok]. split; [exact Hw0|]. split; [exact ONE|]. rewrite map_length, points_len, PL. reflexivity.
    + apply nth_error_In in Hx. apply repeat_spec in Hx. subst x. exact I.
  - intros i b x Hb' Hx. destruct (low_ins_nth Hb') as [Li ->]. rewrite seq_length. destruct i as [|i]; cbn [xs1 nth_error] in Hx.
    + injection Hx as <-. exact I.
    + rewrite nth_error_map in Hx. destruct (nth_error (lmKeys l') i) as [rk|]; [|discriminate]. cbn [option_map] in Hx. injection Hx as <-.
      cbn [given_ok]. split; [exact Hw0|]. split; [exact ONE|]. apply repeat_length.
  - split; [reflexivity|]. intros [|i] b d _ Hd'; cbn [nth_error] in Hd'; [discriminate|destruct i; discriminate].
  - split; [reflexivity|]. intros [|i] b d _ Hd'; cbn [nth_error] in Hd'; [discriminate|destruct i; discriminate].
  - exact WD.
  - exact OC.
  - exact HS.
  - exact He.
  - exact Hd.
  - unfold prepare in P0, P1. apply bind_ok in P0, P1. destruct P0 as (g0' & G0 & T0), P1 as (g1' & G1 & T1).
    unfold take_all in T0, T1. cbn [length forN get nth_error bind fst snd app] in T0, T1. injection T0 as <- <-. injection T1 as <- <-.
    destruct (OUT 0 (seq (lpBits p * (2 + lpRounds p)) (lpBits p)) w w (ljHeap0 J) (ljHeap1 J) (ljOut0 J) (ljOut1 J) eq_refl Hw0) as (o0 & o1 & O0 & O1 & L0 & L1 & F0 & F1 & V & _).
    { rewrite seq_length. exact ONE. }
    exists g0', g1', h0, h1, o0, o1. unfold low_init. rewrite send_setup_give by assumption. rewrite recv_setup_give by exact KL. rewrite size_w. fold bpr.
    split; [exact G0|]. split; [exact G1|]. split; [exact EX|]. split; [exact O0|]. split; [exact O1|]. split; [split; assumption|]. split; [split; assumption|].
    intros i q t Hi Hq Ht. destruct (@circuit_ok p l) as (s & ES & _ & VS).
    { unfold shaped in *. rewrite <- E1, <- E2. exact S1. }
    { exact H2. }
    set (e := fun v => bitv (if v / lpBits p =? 0 then low_point p q (nth i pi 0) else nth (v / lpBits p - 1) (lmKeys l') 0%N) (v mod lpBits p)).
    assert (EE : forall a u, u < lpBits p -> e (lpBits p * a + u) = bitv (if a =? 0 then low_point p q (nth i pi 0) else nth (a - 1) (lmKeys l') 0%N) u).
    { intros a u Hu. unfold e. replace ((lpBits p * a + u) / lpBits p) with a.
      - replace ((lpBits p * a + u) mod lpBits p) with u; [reflexivity|]. symmetry. rewrite Nat.add_comm, Nat.mul_comm, Nat.mod_add by lia. apply Nat.mod_small. exact Hu.
      - symmetry. rewrite Nat.mul_comm, Nat.div_add_l by lia. rewrite Nat.div_small by exact Hu. lia. }
    rewrite (V (i * bpr + q) t (lpBits p * (2 + lpRounds p) + t) e).
    + rewrite (EV s ES) by (unfold low_outs; cbn [concat]; rewrite app_nil_r; apply in_seq; lia).
      rewrite (VS e t Ht : eval (snd s) e (lpBits p * (2 + lpRounds p) + t) = _). unfold target, low_mask. apply cipher_ext; [exact Hbox| | |exact Ht].
      * intros u Hu. pose proof (EE 0 u Hu) as X. rewrite Nat.mul_0_r in X. cbn [Nat.add Nat.eqb] in X. rewrite X. exact (@low_point_bit p q (nth i pi 0) u Hu).
      * intros r u Hr Hu. unfold kvec, wKey. rewrite EE by exact Hu. cbn [Nat.add Nat.eqb]. replace (S r - 1) with r by lia. apply HK; assumption.
    + nia.
    + rewrite seq_nth_error by exact Ht. reflexivity.
    + intros a b x y u v Hb' Hx Hy Hv. destruct (low_ins_nth Hb') as [La ->]. assert (Lu : u < lpBits p) by (pose proof (nth_error_lt Hv) as X; rewrite seq_length in X; exact X).
      rewrite seq_nth_error in Hv by exact Lu. injection Hv as <-. rewrite EE by exact Lu. assert (Lr : i * bpr + q < n * bpr) by nia.
      destruct a as [|a]; cbn [xs0 xs1 nth_error] in Hx, Hy.
      * injection Hx as <-. injection Hy as <-. cbn [Nat.eqb given_bit]. rewrite xorb_false_r.
        rewrite (nth_indep _ [] (blk_bytes w 0%N)) by (rewrite map_length, points_len, PL; exact Lr). rewrite map_nth. rewrite nth_points by (rewrite ?PL; assumption).
        symmetry. apply blk_sbit. lia.
      * cbn [Nat.eqb]. replace (S a - 1) with a by lia. apply nth_error_In in Hx. apply repeat_spec in Hx. subst x.
        rewrite nth_error_map in Hy. destruct (nth_error (lmKeys l') a) as [rk|] eqn:ER; [|discriminate]. cbn [option_map] in Hy. injection Hy as <-. cbn [given_bit]. rewrite xorb_false_l.
        rewrite (nth_error_nth _ _ _ ER). rewrite (nth_indep _ [] (blk_bytes w rk)) by (rewrite repeat_length; exact Lr). rewrite nth_repeat. symmetry. apply blk_sbit. lia.
Qed.

(* the masks of the receiver *)
Lemma masks_part l' : shaped p l' -> keyed p l' -> lmLin l' = lmLin l -> lmConst l' = lmConst l ->
  (forall r t, r <= lpRounds p -> t < lpBits p -> bitv (nth r (lmKeys l') 0%N) t = drawn_keys p l kbits r t) ->
  exists a, low_masks p l' bpr (ljA J) = Ok a /\ length (concat a) = n * c /\
    forall i j t, i < n -> j < c -> N.testbit (cel c (concat a) i j) (N.of_nat t) = (t <? 8) && low_mask p l kbits (j / w) i (8 * (j mod w) + t).
Proof using Hw Hw0 Hbox Hrounds Hc HA Hn Hbytes Hd.
  intros S1 K1 E1 E2 HK. destruct HA as [AL AF]. unfold low_masks. rewrite AL, size_w.
  destruct (@mapO_ok nat (list N) (fun i => do a <- mapO (fun j => lm_encrypt p l' (low_point p j i)) (seq 0 bpr); Ok (copy_min (nth i (ljA J) []) (concat (map (blk_bytes w) a))))
    (fun i r => i < n -> length r = c /\ forall j t, j < c -> N.testbit (nth j r 0%N) (N.of_nat t) = (t <? 8) && low_mask p l kbits (j / w) i (8 * (j mod w) + t)) (seq 0 n)) as (a & Ea & Fa).
  - intros i _. destruct (@mapO_ok nat N (fun j => lm_encrypt p l' (low_point p j i)) (fun j y => forall t, t < lpBits p -> bitv y t = low_mask p l kbits j i t) (seq 0 bpr)) as (ys & Ey & Fy).
    { intros j _. exact (encrypt_point j i S1 K1 E1 E2 HK). }
    rewrite Ey. cbn [bind]. eexists. split; [reflexivity|]. intros Li.
    pose proof (forall2_len Fy) as Ly. rewrite seq_length in Ly.
    assert (RL : length (nth i (ljA J) []) = c) by (rewrite Forall_forall in AF; apply AF; apply nth_In; lia).
    assert (BF : Forall (fun r => length r = w) (map (blk_bytes w) ys)) by (apply Forall_forall; intros r Hr; apply in_map_iff in Hr; destruct Hr as (y & <- & _); apply blk_bytes_len).
    assert (CL : length (concat (map (blk_bytes w) ys)) = bpr * w) by (rewrite (@concat_length _ _ w), map_length, Ly; [reflexivity|rewrite Forall_forall in BF; exact BF]).
    rewrite copy_min_len by (rewrite RL, CL; exact Hc). rewrite RL. split; [rewrite firstn_length, CL; lia|].
    intros j t Hj. rewrite nth_firstn_lt by exact Hj. pose proof (Nat.mod_upper_bound j w ltac:(lia)) as Mw.
    assert (Dw : j / w < bpr) by (apply Nat.div_lt_upper_bound; lia).
    rewrite (@nth_blocks _ w) by (try exact BF; try rewrite map_length, Ly; lia).
    rewrite (nth_indep _ [] (blk_bytes w 0%N)) by (rewrite map_length, Ly; exact Dw). rewrite map_nth. rewrite blk_byte by exact Mw. destruct (Nat.ltb_spec t 8) as [Lt|Lt]; [|reflexivity].
    cbn [andb]. pose proof (@forall2_nth _ _ _ _ _ (j / w) 0 0%N Fy) as Q. rewrite seq_length in Q. specialize (Q Dw). rewrite seq_nth in Q by exact Dw. apply Q. lia.
  - exists a. split; [exact Ea|]. pose proof (forall2_len Fa) as La. rewrite seq_length in La.
    assert (Q : forall i, i < n -> length (nth i a []) = c /\ forall j t, j < c -> N.testbit (nth j (nth i a []) 0%N) (N.of_nat t) = (t <? 8) && low_mask p l kbits (j / w) i (8 * (j mod w) + t)).
    { intros i Hi. pose proof (@forall2_nth _ _ _ _ _ i 0 [] Fa) as Q. rewrite seq_length in Q. specialize (Q Hi). rewrite seq_nth in Q by exact Hi. exact (Q Hi). }
    assert (RR : forall r, In r a -> length r = c) by (intros r Hr; apply (In_nth _ _ []) in Hr; destruct Hr as (i & Hi & <-); apply Q; lia).
    split; [rewrite (@concat_length _ _ c RR), La; reflexivity|]. intros i j t Hi Hj. unfold cel. rewrite (@nth_concat _ 0%N _ c _ _ RR) by (rewrite ?La; assumption).
    apply Q; assumption.
Qed.

Theorem gen_ok : exists s r, lowmc_gen p rng kbits lf kf lvs J pi n bytes so ro s0 s1 = Ok (s, r) /\
  csPerm s = pi /\ csOff s = so /\ crOff r = ro /\ (so = ro -> cor_rel n c s r) /\
  (forall i j t, i < n -> j < c -> N.testbit (cel c (dat (crA r)) i j) (N.of_nat t) = (t <? 8) && low_mask p l kbits (j / w) i (8 * (j mod w) + t)).
Proof using Hw Hw0 Hbox Hrounds Hl H2 HL Hn Hbytes Hpi Hc HD HA HB HS He Hd.
  destruct rekeyed as (l' & EK & S1 & K1 & E1 & E2 & HK).
  destruct (gmw_part S1 K1 E1 E2 HK) as (g0 & g1 & h0 & h1 & o0 & o1 & G0 & G1 & EX & O0 & O1 & R0 & R1 & V).
  destruct (masks_part S1 K1 E1 E2 HK) as (a & EA & LA & VA).
  destruct (@low_rows_ok (ljDelta J) bpr o0 w n c Hw0 HD R0 Hc) as [LD VD].
  destruct (@low_rows_ok (ljB J) bpr o1 w n c Hw0 HB R1 Hc) as [LB VB].
  exists (CorS pi (Mat n c (concat (low_rows (ljDelta J) bpr o0))) so), (CorR (Mat n c (concat a)) (Mat n c (concat (low_rows (ljB J) bpr o1))) ro).
  split; [|split; [reflexivity|split; [reflexivity|split; [reflexivity|split]]]].
  - unfold lowmc_gen. rewrite size_w. fold bpr c. rewrite (proj2 (Nat.eqb_eq _ _) pi_len). rewrite (proj2 (Nat.eqb_neq n 0)) by lia. cbn [negb throw_if bind].
    rewrite Hl. cbn [bind]. rewrite EK. cbn [bind]. rewrite G0. cbn [bind]. rewrite G1. cbn [bind]. rewrite EX. cbn [bind fst snd]. rewrite O0. cbn [bind]. rewrite O1. cbn [bind]. rewrite EA. reflexivity.
  - intros ->. unfold cor_rel. cbn [csPerm csDelta csOff crA crB crOff rows cols dat]. do 11 (split; [first [exact Hpi|reflexivity|assumption]|]).
    intros i j Hi Hj. rewrite VD, VB by assumption. pose proof (nthp Hpi Hi) as [_ Np]. pose proof (Nat.mod_upper_bound j w ltac:(lia)) as Mw.
    assert (Dw : j / w < bpr) by (apply Nat.div_lt_upper_bound; lia).
    apply N.bits_inj. intros tt'. replace tt' with (N.of_nat (N.to_nat tt')) by lia. generalize (N.to_nat tt'). clear tt'. intros t. rewrite N.lxor_spec, VA by assumption.
    destruct (Nat.ltb_spec t 8) as [Lt|Lt]; cbn [andb].
    + rewrite <- !sbit_byte by exact Lt. apply V; [exact Hi|exact Dw|]. rewrite Hw. lia.
    + rewrite (output_bytes _ _ O0 Lt), (output_bytes _ _ O1 Lt). reflexivity.
  - exact VA.
Qed.
End Gen.
End Run.
