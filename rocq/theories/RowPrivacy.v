(* Proofs about the messages of the key multiplication. *)
From Verif Require Import Base Words Mod3Model Mod3Spec Mod3Proofs ConvModel ConvSpec KeyMultModel KeyMultSpec KeyMultProofs
  PrfModel PrivSpec ConvPrivacy PrfViewModel.

Lemma nthN_blk l c : Forall blk l -> blk (nthN l c).
Proof. intros H. apply nth_blk. exact H. Qed.

Lemma row_val_lt cols s c l : row_in cols s -> row_val s c l < 3.
Proof.
  intros [_ H]. unfold row_val. destruct (srMsb s) as [xm|].
  - apply trit_lt, H.
  - destruct (N.testbit _ _); cbn; lia.
Qed.

Lemma row_val_hi cols s c l : row_in cols s -> row_blk s -> (128 <= l)%N -> row_val s c l = 0.
Proof.
  intros [_ H] [B1 B2] Hl. unfold row_val. destruct (srMsb s) as [xm|].
  - unfold trit. rewrite (nthN_blk c B2 Hl), (nthN_blk c B1 Hl). reflexivity.
  - rewrite (nthN_blk c B1 Hl). reflexivity.
Qed.

(* the message before the pad *)
Definition row_plain (s : srow) (ms ls : list N) : outcome (list N * list N) :=
  let buf := repeat 0%N (length (srLsb s)) in
  match srMsb s with
  | Some xm => if srKey s then mod3Sub_span buf buf ms ls xm (srLsb s) else mod3Add_span buf buf ms ls xm (srLsb s)
  | None => if srKey s then mod3Sub1_span buf buf ms ls (srLsb s) else mod3Add1_span buf buf ms ls (srLsb s)
  end.

Lemma msg_plain s ms ls pad : km_row_msg s ms ls pad =
  do m <- row_plain s ms ls; Ok (map (fun p => N.lxor (fst p) (snd p)) (combine (fst m ++ snd m) pad)).
Proof. reflexivity. Qed.

Lemma row_plain_ok s cols t : row_in cols s -> trits_ok cols t ->
  exists m, row_plain s (fst t) (snd t) = Ok m /\ length (fst m) = cols /\ length (snd m) = cols /\
    forall c l, c < cols -> tvalid (nthN (fst m) c) (nthN (snd m) c) l /\
      trit (nthN (fst m) c) (nthN (snd m) c) l =
        (trit (nthN (fst t) c) (nthN (snd t) c) l + if srKey s then 3 - row_val s c l else row_val s c l) mod 3.
Proof.
  intros Hin (Lm & Ll & _ & _ & HV). destruct t as [ms ls]. cbn [fst snd] in *.
  change (forall c l, c < cols -> tvalid (nthN ms c) (nthN ls c) l) in HV. unfold row_plain. destruct Hin as [Hx Hm]. rewrite Hx.
  set (buf := repeat 0%N cols). assert (Lb : length buf = cols) by apply repeat_length. unfold row_val.
  destruct (srMsb s) as [xm|].
  - destruct Hm as [Hxm HVx]. destruct (srKey s).
    + unfold mod3Sub_span. destruct (mod3Add_span_spec Lb Lb Lm Ll Hx Hxm) as (m & E & L1 & L0 & Hr).
      exists m. split; [exact E|]. split; [exact L1|]. split; [exact L0|]. intros c l Hc. destruct (Hr c Hc) as [G1 G0].
      apply nth_error_nthN in G1, G0. rewrite G1, G0. destruct (mod3Sub_lane (HV c l Hc) (HVx c l)) as [Va Ta].
      split; [exact Va|]. unfold mod3Sub in Ta. rewrite Ta. pose proof (trit_lt (HVx c l)). f_equal. lia.
    + destruct (mod3Add_span_spec Lb Lb Lm Ll Hxm Hx) as (m & E & L1 & L0 & Hr).
      exists m. split; [exact E|]. split; [exact L1|]. split; [exact L0|]. intros c l Hc. destruct (Hr c Hc) as [G1 G0].
      apply nth_error_nthN in G1, G0. rewrite G1, G0. exact (mod3Add_lane (HV c l Hc) (HVx c l)).
  - destruct (srKey s).
    + destruct (mod3Sub1_span_spec Lb Lb Lm Ll Hx) as (m & E & L1 & L0 & Hr).
      exists m. split; [exact E|]. split; [exact L1|]. split; [exact L0|]. intros c l Hc. destruct (Hr c Hc) as [G1 G0].
      apply nth_error_nthN in G1, G0. rewrite G1, G0. destruct (mod3Sub1_lane (nthN (srLsb s) c) (HV c l Hc)) as [Va Ta].
      split; [exact Va|]. rewrite Ta. f_equal. destruct (N.testbit (nthN (srLsb s) c) l); cbn [b2n]; lia.
    + destruct (mod3Add1_span_spec Lb Lb Lm Ll Hx) as (m & E & L1 & L0 & Hr).
      exists m. split; [exact E|]. split; [exact L1|]. split; [exact L0|]. intros c l Hc. destruct (Hr c Hc) as [G1 G0].
      apply nth_error_nthN in G1, G0. rewrite G1, G0. exact (mod3Add1_lane (nthN (srLsb s) c) (HV c l Hc)).
Qed.

(* vectors with the same trits are the same *)
Lemma trit_bits m l m' l' i : tvalid m l i -> tvalid m' l' i -> trit m l i = trit m' l' i ->
  N.testbit m i = N.testbit m' i /\ N.testbit l i = N.testbit l' i.
Proof.
  unfold tvalid, trit. destruct (N.testbit m i), (N.testbit l i), (N.testbit m' i), (N.testbit l' i); cbn; intros; try discriminate; split; reflexivity.
Qed.

Lemma trits_ext cols (a b : list N * list N) : length (fst a) = cols -> length (snd a) = cols -> length (fst b) = cols -> length (snd b) = cols ->
  (forall c l, c < cols -> tvalid (nthN (fst a) c) (nthN (snd a) c) l) -> (forall c l, c < cols -> tvalid (nthN (fst b) c) (nthN (snd b) c) l) ->
  (forall c l, c < cols -> trit (nthN (fst a) c) (nthN (snd a) c) l = trit (nthN (fst b) c) (nthN (snd b) c) l) -> a = b.
Proof.
  intros A1 A0 B1 B0 Va Vb H. destruct a as [a1 a0], b as [b1 b0]. cbn [fst snd] in *. f_equal.
  - apply (nthN_ext A1 B1). intros c Hc. apply N.bits_inj. intros l. apply (trit_bits (Va c l Hc) (Vb c l Hc) (H c l Hc)).
  - apply (nthN_ext A0 B0). intros c Hc. apply N.bits_inj. intros l. apply (trit_bits (Va c l Hc) (Vb c l Hc) (H c l Hc)).
Qed.

(* the vector with given trits below lane 128 *)
Fixpoint word_of (f : nat -> bool) (n : nat) : N :=
  match n with 0 => 0%N | S n => N.lor (word_of f n) (if f n then 2 ^ N.of_nat n else 0)%N end.

Lemma word_of_bit f n l : N.testbit (word_of f n) l = (N.to_nat l <? n) && f (N.to_nat l).
Proof.
  induction n as [|n IH]; cbn [word_of]; [apply N.bits_0|]. rewrite N.lor_spec, IH.
  destruct (Nat.ltb_spec (N.to_nat l) n) as [H|H].
  - rewrite (proj2 (Nat.ltb_lt (N.to_nat l) (S n))) by lia. cbn [andb].
    assert ((if f n then 2 ^ N.of_nat n else 0)%N = (if f n then 2 ^ N.of_nat n else 0)%N) as _ by reflexivity.
    destruct (f n); [rewrite N.pow2_bits_false by lia|rewrite N.bits_0]; apply orb_false_r.
  - cbn [andb orb]. destruct (Nat.ltb_spec (N.to_nat l) (S n)) as [H'|H'].
    + assert (l = N.of_nat n) as -> by lia. rewrite Nat2N.id. destruct (f n); [apply N.pow2_bits_true|apply N.bits_0].
    + destruct (f n); [apply N.pow2_bits_false; lia|apply N.bits_0].
Qed.

Definition trits_of (cols : nat) (f : nat -> nat -> nat) : list N * list N :=
  (map (fun c => word_of (fun l => f c l =? 2) 128) (seq 0 cols), map (fun c => word_of (fun l => f c l =? 1) 128) (seq 0 cols)).

Lemma trits_of_ok cols f : (forall c l, f c l < 3) ->
  trits_ok cols (trits_of cols f) /\
  forall c l, c < cols -> trit (nthN (fst (trits_of cols f)) c) (nthN (snd (trits_of cols f)) c) l = if N.to_nat l <? 128 then f c (N.to_nat l) else 0.
Proof.
  intros Hf. unfold trits_of.
  assert (Bw : forall g, blk (word_of g 128)).
  { intros g l Hl. rewrite word_of_bit. destruct (Nat.ltb_spec (N.to_nat l) 128); [lia|reflexivity]. }
  assert (Fm : forall g : nat -> nat -> bool, Forall blk (map (fun c => word_of (g c) 128) (seq 0 cols))).
  { intros g. apply Forall_forall. intros w Hw. apply in_map_iff in Hw. destruct Hw as (c & <- & _). apply Bw. }
  assert (T : forall c l, c < cols -> let a := nthN (map (fun c => word_of (fun l => f c l =? 2) 128) (seq 0 cols)) c in
      let b := nthN (map (fun c => word_of (fun l => f c l =? 1) 128) (seq 0 cols)) c in
      tvalid a b l /\ trit a b l = if N.to_nat l <? 128 then f c (N.to_nat l) else 0).
  { intros c l Hc. unfold nthN. rewrite !nth_map_seq by exact Hc. cbv zeta. unfold tvalid, trit. rewrite !word_of_bit.
    destruct (N.to_nat l <? 128); [|split; reflexivity]. cbn [andb]. specialize (Hf c (N.to_nat l)).
    destruct (f c (N.to_nat l)) as [|[|[|k]]]; [split; reflexivity..|lia]. }
  split.
  - split; [cbn [fst]; rewrite map_length, seq_length; reflexivity|]. split; [cbn [snd]; rewrite map_length, seq_length; reflexivity|].
    split; [apply (Fm (fun c l => f c l =? 2))|]. split; [apply (Fm (fun c l => f c l =? 1))|].
    intros c l Hc. exact (proj1 (T c l Hc)).
  - intros c l Hc. exact (proj2 (T c l Hc)).
Qed.

(* the sampled trits that give with input s' the message which t gives with s *)
Definition move (cols : nat) (s s' : srow) (t : list N * list N) : list N * list N :=
  trits_of cols (fun c l => let l := N.of_nat l in
    (trit (nthN (fst t) c) (nthN (snd t) c) l + (if srKey s then 3 - row_val s c l else row_val s c l)
      + (if srKey s then row_val s' c l else 3 - row_val s' c l)) mod 3).

Lemma move_trit cols s s' t c l : row_in cols s -> row_in cols s' -> row_blk s -> row_blk s' -> trits_ok cols t -> c < cols ->
  trit (nthN (fst (move cols s s' t)) c) (nthN (snd (move cols s s' t)) c) l =
  (trit (nthN (fst t) c) (nthN (snd t) c) l + (if srKey s then 3 - row_val s c l else row_val s c l)
      + (if srKey s then row_val s' c l else 3 - row_val s' c l)) mod 3.
Proof.
  intros I I' B B' (_ & _ & B1 & B2 & V) Hc. unfold move.
  match goal with |- context [trits_of cols ?F] => destruct (@trits_of_ok cols F) as [_ T] end.
  { intros c' l'. apply Nat.mod_upper_bound. lia. }
  rewrite T by exact Hc. destruct (Nat.ltb_spec (N.to_nat l) 128) as [Hl|Hl]; [cbv zeta; rewrite N2Nat.id; reflexivity|].
  assert (Hl' : (128 <= l)%N) by lia. unfold trit. rewrite (nthN_blk c B1 Hl'), (nthN_blk c B2 Hl'), (row_val_hi c I B Hl'), (row_val_hi c I' B' Hl').
  destruct (srKey s); reflexivity.
Qed.

Lemma move_ok cols s s' t : trits_ok cols (move cols s s' t).
Proof. apply trits_of_ok. intros c l. apply Nat.mod_upper_bound. lia. Qed.

Lemma move_back cols s s' t : srKey s' = srKey s -> row_in cols s -> row_in cols s' -> row_blk s -> row_blk s' -> trits_ok cols t ->
  move cols s' s (move cols s s' t) = t.
Proof.
  intros K I I' B B' Ht. pose proof (move_ok cols s s' t) as Hm. pose proof (move_ok cols s' s (move cols s s' t)) as Hmm.
  apply (@trits_ext cols); try apply Ht; try apply Hmm.
  intros c l Hc. rewrite (move_trit l I' I B' B Hm Hc), (move_trit l I I' B B' Ht Hc), K.
  destruct Ht as (_ & _ & _ & _ & V). change (forall c l, c < cols -> tvalid (nthN (fst t) c) (nthN (snd t) c) l) in V. pose proof (trit_lt (V c l Hc)) as L.
  pose proof (row_val_lt c l I) as R. pose proof (row_val_lt c l I') as R'.
  generalize dependent (trit (nthN (fst t) c) (nthN (snd t) c) l). generalize dependent (row_val s c l). generalize dependent (row_val s' c l).
  clear. intros a Ha b Hb d Hd. destruct (srKey s);
    (destruct a as [|[|[|]]]; [| | |lia]); (destruct b as [|[|[|]]]; [| | |lia]); (destruct d as [|[|[|]]]; [| | |lia]); reflexivity.
Qed.

(* the receiver whose key bit is 1 knows the pad *)
Lemma row_hides_share cols s s' pad : srKey s' = srKey s -> row_in cols s -> row_in cols s' -> row_blk s -> row_blk s' ->
  hides (trits_ok cols) (fun r t => km_row_msg r (fst t) (snd t) pad) s s'.
Proof.
  intros K I I' B B'. exists (move cols s s'), (move cols s' s). split.
  - intros t Ht. split; [apply move_ok|]. split; [apply move_back; assumption|].
    destruct (row_plain_ok I Ht) as (m & E & L1 & L0 & H). destruct (row_plain_ok I' (move_ok cols s s' t)) as (m' & E' & L1' & L0' & H').
    rewrite !msg_plain, E, E'. cbn [bind].
    assert (m' = m) as ->; [|reflexivity]. apply (@trits_ext cols); try assumption.
    + intros c l Hc. apply (H' c l Hc).
    + intros c l Hc. apply (H c l Hc).
    + intros c l Hc. rewrite (proj2 (H c l Hc)), (proj2 (H' c l Hc)), (move_trit l I I' B B' Ht Hc), K.
      destruct Ht as (_ & _ & _ & _ & V). change (forall c l, c < cols -> tvalid (nthN (fst t) c) (nthN (snd t) c) l) in V. pose proof (trit_lt (V c l Hc)) as L.
      pose proof (row_val_lt c l I) as R. pose proof (row_val_lt c l I') as R'.
      generalize dependent (trit (nthN (fst t) c) (nthN (snd t) c) l). generalize dependent (row_val s c l). generalize dependent (row_val s' c l).
      clear. intros a Ha b Hb d Hd. destruct (srKey s);
        (destruct a as [|[|[|]]]; [| | |lia]); (destruct b as [|[|[|]]]; [| | |lia]); (destruct d as [|[|[|]]]; [| | |lia]); reflexivity.
  - intros t Ht. split; [apply move_ok|]. apply move_back; auto.
Qed.

(* ---------------- the receiver whose key bit is 0 knows the trits ---------------- *)
Definition xorl (a b : list N) : list N := map (fun p => N.lxor (fst p) (snd p)) (combine a b).

Lemma xorl_length : forall a b, length a = length b -> length (xorl a b) = length b.
Proof. intros a b H. unfold xorl. rewrite map_length, combine_length. lia. Qed.
Lemma xorl_xorl : forall a b, length a = length b -> xorl a (xorl a b) = b.
Proof.
  induction a as [|x a IH]; intros [|y b] H; cbn in *; try discriminate; [reflexivity|]. f_equal; [|apply IH; lia].
  rewrite <- N.lxor_assoc, N.lxor_nilpotent, N.lxor_0_l. reflexivity.
Qed.
Lemma xorl_swap : forall a b p, length a = length p -> length b = length p -> xorl b (xorl (xorl a b) p) = xorl a p.
Proof.
  induction a as [|x a IH]; intros [|y b] [|z p] H1 H2; cbn in *; try discriminate; [reflexivity|]. f_equal; [|apply IH; lia].
  rewrite (N.lxor_comm x y), N.lxor_assoc, <- (N.lxor_assoc y y), N.lxor_nilpotent, N.lxor_0_l. reflexivity.
Qed.
Lemma xorl_blk : forall a b, Forall blk a -> Forall blk b -> Forall blk (xorl a b).
Proof.
  intros a b Ha. revert b. induction Ha as [|x a Hx Ha IH]; intros b Hb; unfold xorl; cbn; [constructor|].
  destruct Hb as [|y b Hy Hb]; cbn; constructor; [apply blk_lxor; assumption|apply (IH b Hb)].
Qed.

Lemma plain_blk s cols t m : row_in cols s -> row_blk s -> trits_ok cols t -> row_plain s (fst t) (snd t) = Ok m ->
  length (fst m ++ snd m) = 2 * cols /\ Forall blk (fst m ++ snd m).
Proof.
  intros I B Ht E. destruct (row_plain_ok I Ht) as (m' & E' & L1 & L0 & H). rewrite E in E'. injection E' as <-.
  split; [rewrite app_length; lia|].
  destruct Ht as (T1 & T0 & B1 & B0 & V).
  assert (Z : forall c, c < cols -> blk (nthN (fst m) c) /\ blk (nthN (snd m) c)).
  { intros c Hc. assert (G : forall l, (128 <= l)%N -> N.testbit (nthN (fst m) c) l = false /\ N.testbit (nthN (snd m) c) l = false).
    { intros l Hl. destruct (H c l Hc) as [_ T]. rewrite (row_val_hi c I B Hl) in T. unfold trit at 2 in T.
      rewrite (nthN_blk c B1 Hl), (nthN_blk c B0 Hl) in T. unfold trit in T.
      destruct (srKey s), (N.testbit (nthN (fst m) c) l), (N.testbit (nthN (snd m) c) l); cbn in T; try discriminate; split; reflexivity. }
    split; intros l Hl; apply (G l Hl). }
  apply Forall_app. split; apply Forall_forall; intros w Hw; destruct (In_nth _ _ 0%N Hw) as (c & Lc & <-); apply (Z c); lia.
Qed.

Lemma row_hides_pad cols s s' t : row_in cols s -> row_in cols s' -> row_blk s -> row_blk s' -> trits_ok cols t ->
  hides (pad_ok cols) (fun r pad => km_row_msg r (fst t) (snd t) pad) s s'.
Proof.
  intros I I' B B' Ht. destruct (row_plain_ok I Ht) as (m & E & _). destruct (row_plain_ok I' Ht) as (m' & E' & _).
  destruct (plain_blk I B Ht E) as [L Bm]. destruct (plain_blk I' B' Ht E') as [L' Bm'].
  set (a := fst m ++ snd m) in *. set (b := fst m' ++ snd m') in *.
  assert (Ld : length (xorl a b) = 2 * cols) by (rewrite xorl_length; lia).
  assert (Q : forall p, pad_ok cols p -> pad_ok cols (xorl (xorl a b) p) /\ xorl (xorl a b) (xorl (xorl a b) p) = p).
  { intros p [Lp Bp]. split; [|apply xorl_xorl; lia]. split; [rewrite xorl_length; lia|]. apply xorl_blk; [apply xorl_blk; assumption|exact Bp]. }
  exists (xorl (xorl a b)), (xorl (xorl a b)). split; [|exact Q].
  intros p Hp. destruct (Q p Hp) as [Q1 Q2]. split; [exact Q1|]. split; [exact Q2|].
  rewrite !msg_plain, E, E'. cbn [bind]. f_equal. fold a b.
  destruct Hp as [Lp _]. apply (@xorl_swap a b p); lia.
Qed.

(* ---------------- the row of the code is of this form ---------------- *)
Lemma stream_length g n : length (stream g n) = n.
Proof. unfold stream. rewrite map_length, seq_length. reflexivity. Qed.
Lemma stream_nth g n i : i < n -> nthN (stream g n) i = pRnd g (pIdx g + N.of_nat i)%N.
Proof. intros H. unfold nthN, stream. rewrite nth_map_seq by exact H. reflexivity. Qed.
Lemma xorl_nth : forall a b i, i < length a -> length a = length b -> nthN (xorl a b) i = N.lxor (nthN a i) (nthN b i).
Proof.
  induction a as [|x a IH]; intros [|y b] i Hi H; cbn in *; try lia. destruct i as [|i]; [reflexivity|]. apply IH; lia.
Qed.

Lemma row_is fuel cols s : row_in cols s ->
  km_send_row fuel s = Hang \/
  exists p msg xs t, km_send_row fuel s = Ok (p, (msg, xs)) /\ trits_ok cols t /\
    sample_prng fuel (srOt0 s) cols = Ok (fst p, t) /\
    km_row_msg s (fst t) (snd t) (stream (srOt1 s) (2 * cols)) = Ok msg.
Proof.
  intros Hin. unfold km_send_row, sample_prng. rewrite (proj1 Hin).
  destruct (sampleMod3Lookup_ok fuel (pRnd (srOt0 s)) (pIdx (srOt0 s)) cols) as [E|(idx' & ms & ls & E & Lm & Ll & HG)].
  { left. rewrite E. reflexivity. }
  right. rewrite E. cbn [bind fst snd].
  assert (HT : trits_ok cols (ms, ls)).
  { assert (G : forall c, c < cols -> exists m l, nth_error ms c = Some m /\ nth_error ls c = Some l /\ good_block m l).
    { intros c Hc. destruct (nth_error ms c) as [m|] eqn:Em; [|apply nth_error_None in Em; lia].
      destruct (nth_error ls c) as [l|] eqn:El; [|apply nth_error_None in El; lia]. exists m, l. split; [reflexivity|]. split; [reflexivity|]. exact (HG c m l Em El). }
    assert (LB : forall m, (m < 2 ^ 128)%N -> blk m).
    { intros m H i Hi. destruct (N.eq_dec m 0) as [->|Hm]; [apply N.bits_0|].
      apply N.bits_above_log2. apply N.log2_lt_pow2 in H; [|lia]. lia. }
    split; [exact Lm|]. split; [exact Ll|]. cbn [fst snd]. split; [|split].
    - apply Forall_forall. intros w Hw. destruct (In_nth_error _ _ Hw) as [c Hc]. assert (Lc : c < cols) by (rewrite <- Lm; apply nth_error_Some; congruence).
      destruct (G c Lc) as (m & l & E1 & _ & Gm & _). rewrite Hc in E1. injection E1 as <-. exact (LB _ Gm).
    - apply Forall_forall. intros w Hw. destruct (In_nth_error _ _ Hw) as [c Hc]. assert (Lc : c < cols) by (rewrite <- Ll; apply nth_error_Some; congruence).
      destruct (G c Lc) as (m & l & _ & E1 & _ & Gl & _). rewrite Hc in E1. injection E1 as <-. exact (LB _ Gl).
    - intros c l Hc. destruct (G c Hc) as (m & l' & E1 & E2 & _ & _ & V & _). apply nth_error_nthN in E1, E2. change (tvalid (nthN ms c) (nthN ls c) l). rewrite E1, E2. apply V. }
  destruct (row_core Hin Lm Ll HG) as (m1 & m0 & x1 & x0 & E1 & M1 & M0 & X1 & X0 & _). cbv zeta in E1.
  assert (EP : row_plain s ms ls = Ok (m1, m0)).
  { unfold row_plain. rewrite (proj1 Hin). cbv zeta. clear -E1. destruct (srMsb s) as [xm|], (srKey s);
      match type of E1 with bind ?A _ = _ => destruct A as [q| | |]; try discriminate end; cbn [bind] in E1;
      try (match type of E1 with bind ?A _ = _ => destruct A as [q2| | |]; try discriminate end; cbn [bind] in E1);
      congruence. }
  rewrite E1. cbn [bind fst snd].
  destruct (@xorVector_spec m1 (srOt1 s) cols M1) as (a & Ea & La & Ha). rewrite Ea. cbn [bind fst snd].
  destruct (@xorVector_spec m0 (Prng (pRnd (srOt1 s)) (pIdx (srOt1 s) + N.of_nat cols)) cols M0) as (b & Eb & Lb & Hb).
  rewrite Eb. cbn [bind fst snd pRnd pIdx] in *.
  eexists _, (a ++ b), (x1, x0), (ms, ls). split; [reflexivity|]. split; [exact HT|]. split; [reflexivity|].
  cbn [fst snd]. rewrite msg_plain, EP. cbn [bind fst snd]. f_equal.
  change (xorl (m1 ++ m0) (stream (srOt1 s) (2 * cols)) = a ++ b).
  assert (LM : length (m1 ++ m0) = 2 * cols) by (rewrite app_length; lia).
  apply (nthN_ext (n := 2 * cols)); [rewrite xorl_length; rewrite ?stream_length; lia|rewrite app_length; lia|].
  intros i Hi. rewrite xorl_nth by (rewrite ?stream_length; lia). rewrite stream_nth by exact Hi. unfold nthN.
  destruct (Nat.lt_ge_cases i cols) as [Hc|Hc].
  - rewrite !app_nth1 by lia. symmetry. apply (Ha i Hc).
  - rewrite !app_nth2 by lia. rewrite M1, La. symmetry. unfold nthN in Hb. rewrite (Hb (i - cols)) by lia. f_equal. f_equal. lia.
Qed.
