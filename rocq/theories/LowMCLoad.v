(* loadMatrix accepts exactly the texts of matrices, for C58. *)
From Verif Require Import Base LowMCModel LowMCSpec LowMCMat LowMCProofs.

Lemma upd_upd A (l : list A) i x y : upd (upd l i x) i y = upd l i y.
Proof. revert i. induction l as [|a l IH]; intros [|i]; cbn; auto. now rewrite IH. Qed.
Lemma upd_same A (l : list A) i x : nth_error l i = Some x -> upd l i x = l.
Proof. revert i. induction l as [|a l IH]; intros [|i]; cbn; intro H; try discriminate; [congruence|]. now rewrite IH. Qed.

Definition chr (c : N) : Prop := c = 48%N \/ c = 49%N.
Definition lstate := (option N * list N * list N)%type.
Definition lstep (i j : nat) (s : lstate) : outcome lstate :=
  let io := read_char (fst s) in
  match fst io with
  | None => UB
  | Some c =>
    if (c =? 48)%N then do x <- get (snd s) i; do m <- set (snd s) i (put_bit x j false); Ok (io, m)
    else if (c =? 49)%N then do x <- get (snd s) i; do m <- set (snd s) i (put_bit x j true); Ok (io, m)
    else Throw
  end.
Definition lrow (n i : nat) (s : lstate) : outcome lstate :=
  do s <- forN 0 n (lstep i) s;
  let io := read_char (fst s) in
  match fst io with
  | None => UB
  | Some c => if (c =? 10)%N then Ok (io, snd s) else Throw
  end.
Lemma load_unfold rows n f : load_matrix rows n f = (do s <- forN 0 rows (lrow n) ((None, f), repeat 0%N rows); Ok (snd s)).
Proof. reflexivity. Qed.

Fixpoint putl (x : N) (j : nat) (bits : list N) : N :=
  match bits with [] => x | b :: bs => putl (put_bit x j (b =? 49)%N) (j + 1) bs end.

Lemma putl_bit bits : forall x j t, bit_at (putl x j bits) t =
  if (j <=? t) && (t <? j + length bits) then (nth (t - j) bits 0 =? 49)%N else bit_at x t.
Proof.
  induction bits as [|b bs IH]; intros x j t; cbn [putl length].
  - replace ((j <=? t) && (t <? j + 0)) with false; [reflexivity|]. symmetry. apply andb_false_iff.
    destruct (Nat.leb_spec j t); [right; apply Nat.ltb_ge; lia|now left].
  - rewrite IH. rewrite bit_put. destruct (Nat.eqb_spec t j) as [->|NE].
    + replace (j + 1 <=? j) with false by (symmetry; apply Nat.leb_gt; lia). cbn [andb].
      rewrite Nat.leb_refl. replace (j <? j + S (length bs)) with true by (symmetry; apply Nat.ltb_lt; lia). cbn [andb]. now rewrite Nat.sub_diag.
    + destruct (Nat.leb_spec (j + 1) t).
      * replace (j <=? t) with true by (symmetry; apply Nat.leb_le; lia). replace (j + 1 + length bs) with (j + S (length bs)) by lia.
        cbn [andb]. destruct (t <? j + S (length bs)); [|reflexivity]. replace (t - j) with (S (t - (j + 1))) by lia. reflexivity.
      * replace (j <=? t) with false by (symmetry; apply Nat.leb_gt; lia). reflexivity.
Qed.

Lemma lstep_char i j c d f m x : chr d -> nth_error m i = Some x ->
  lstep i j ((c, d :: f), m) = Ok ((Some d, f), upd m i (put_bit x j (d =? 49)%N)).
Proof.
  intros D X. unfold lstep. cbn [fst snd read_char]. assert (L : i < length m) by (apply (@nth_error_lt _ _ _ _ X)).
  destruct D as [-> | ->]; cbn [N.eqb Pos.eqb]; unfold get; rewrite X; cbn [bind]; rewrite set_lt by exact L; reflexivity.
Qed.
Lemma lstep_ok i j c f m s' : lstep i j ((c, f), m) = Ok s' ->
  (exists d f', f = d :: f' /\ chr d) \/ (f = [] /\ exists d m', chr d /\ s' = ((Some d, []), m')).
Proof.
  unfold lstep. cbn [fst snd]. destruct f as [|d f]; cbn [read_char fst snd].
  - destruct c as [d|]; [|discriminate]. intro H. right. split; [reflexivity|].
    destruct (N.eqb_spec d 48) as [->|N1].
    + apply bind_ok in H. destruct H as (x & _ & H). apply bind_ok in H. destruct H as (m' & _ & H). injection H as <-. exists 48%N, m'. split; [now left|reflexivity].
    + destruct (N.eqb_spec d 49) as [->|N2]; [|discriminate].
      apply bind_ok in H. destruct H as (x & _ & H). apply bind_ok in H. destruct H as (m' & _ & H). injection H as <-. exists 49%N, m'. split; [now right|reflexivity].
  - intro H. left. exists d, f. split; [reflexivity|]. destruct (N.eqb_spec d 48) as [->|N1]; [now left|]. destruct (N.eqb_spec d 49) as [->|N2]; [now right|discriminate].
Qed.

Lemma chars_ok i bits : forall j c f m x, Forall chr bits -> nth_error m i = Some x ->
  exists c', forN j (length bits) (lstep i) ((c, bits ++ f), m) = Ok ((c', f), upd m i (putl x j bits)) /\
    (bits = [] \/ exists d, chr d /\ c' = Some d).
Proof.
  induction bits as [|b bs IH]; intros j c f m x D X.
  - exists c. cbn. rewrite upd_same by exact X. auto.
  - inversion D; subst. cbn [length app]. rewrite forN_S. rewrite (@lstep_char i j c b _ m x) by assumption. cbn [bind].
    destruct (IH (j + 1) (Some b) f (upd m i (put_bit x j (b =? 49)%N)) (put_bit x j (b =? 49)%N)) as (c' & E & F); [assumption|apply nth_error_upd_eq, (@nth_error_lt _ _ _ _ X)|].
    exists c'. rewrite E. rewrite upd_upd. split; [reflexivity|]. right. destruct F as [-> | F]; [|exact F].
    cbn in E. injection E as E _. exists b. split; [assumption|congruence].
Qed.
Lemma eof_stays i k : forall j d m s', chr d -> forN j k (lstep i) ((Some d, []), m) = Ok s' -> exists m' d', chr d' /\ s' = ((Some d', []), m').
Proof.
  induction k as [|k IH]; intros j d m s' D H; [injection H as <-; eauto|]. rewrite forN_S in H. apply bind_ok in H. destruct H as (s1 & E & H).
  destruct (@lstep_ok _ _ _ _ _ _ E) as [(a & b & F & _)|(_ & a & m1 & A & ->)]; [discriminate|]. apply (IH _ _ _ _ A H).
Qed.
Lemma chars_split i k : forall j c f m s', i < length m -> forN j k (lstep i) ((c, f), m) = Ok s' ->
  (exists bits f', f = bits ++ f' /\ length bits = k /\ Forall chr bits) \/ (exists d m', chr d /\ s' = ((Some d, []), m')).
Proof.
  induction k as [|k IH]; intros j c f m s' L H; [left; exists [], f; auto|]. rewrite forN_S in H. apply bind_ok in H. destruct H as (s1 & E & H).
  destruct (@lstep_ok _ _ _ _ _ _ E) as [(a & b & -> & A)|(-> & a & m1 & A & ->)].
  - destruct (@nth_error_ex _ _ _ L) as (x & X). rewrite (@lstep_char i j c a b m x A X) in E. injection E as <-.
    destruct (IH _ _ _ _ _ ltac:(rewrite upd_length; exact L) H) as [(bits & f' & -> & LB & B)|R]; [|now right].
    left. exists (a :: bits), f'. split; [reflexivity|]. cbn. split; [lia|now constructor].
  - right. destruct (@eof_stays _ _ _ _ _ _ A H) as (m' & d' & D' & ->). eauto.
Qed.

Lemma row_accept n i c f m bits x : length bits = n -> Forall chr bits -> nth_error m i = Some x ->
  lrow n i ((c, bits ++ 10%N :: f), m) = Ok ((Some 10%N, f), upd m i (putl x 0 bits)).
Proof.
  intros L B X. unfold lrow. destruct (@chars_ok i bits 0 c (10%N :: f) m x B X) as (c' & E & _). rewrite L in E. rewrite E. reflexivity.
Qed.
Lemma row_only n i c f m s' : i < length m -> 0 < n -> lrow n i ((c, f), m) = Ok s' ->
  exists bits f', f = bits ++ 10%N :: f' /\ length bits = n /\ Forall chr bits.
Proof.
  intros L N0 H. unfold lrow in H. apply bind_ok in H. destruct H as (s & E & H).
  destruct (@chars_split _ _ _ _ _ _ _ L E) as [(bits & f' & -> & LB & B)|(d & m' & D & ->)].
  - destruct (@nth_error_ex _ _ _ L) as (x & X). destruct (@chars_ok i bits 0 c f' m x B X) as (c' & E' & F). rewrite LB in E'. rewrite E' in E. injection E as <-.
    cbn [fst snd] in H. destruct f' as [|d f']; cbn [read_char fst snd] in H.
    + exfalso. destruct F as [-> | (d & D & ->)]; [cbn in LB; lia|]. destruct D as [-> | ->]; discriminate.
    + exists bits, f'. destruct (N.eqb_spec d 10) as [->|]; [auto|discriminate].
  - exfalso. cbn in H. destruct D as [-> | ->]; discriminate.
Qed.

Lemma line_bits n bits : length bits = n -> Forall chr bits -> line_text n (putl 0 0 bits) = bits ++ [10%N] /\ small n (putl 0 0 bits).
Proof.
  intros L B. split.
  - unfold line_text. f_equal. apply nth_error_ext. intro t. rewrite nth_error_map, nth_error_seq. destruct (Nat.ltb_spec t n) as [T|T].
    + cbn [option_map Nat.add]. change (bitv (putl 0 0 bits) t) with (bit_at (putl 0 0 bits) t). rewrite putl_bit. cbn [Nat.leb Nat.add andb]. rewrite L.
      replace (t <? n) with true by (symmetry; now apply Nat.ltb_lt). rewrite Nat.sub_0_r. rewrite (@nth_error_nth_lt _ bits t 0%N) by lia. f_equal.
      rewrite Forall_forall in B. destruct (B (nth t bits 0%N)) as [-> | ->]; [apply nth_In; lia|reflexivity|reflexivity].
    + cbn [option_map]. symmetry. apply nth_error_None. lia.
  - apply small_iff. intros t T. rewrite putl_bit. rewrite L. replace (t <? 0 + n) with false by (symmetry; apply Nat.ltb_ge; lia). rewrite andb_false_r. apply bit_0.
Qed.
Lemma bits_line n x : small n x -> exists bits, length bits = n /\ Forall chr bits /\ line_text n x = bits ++ [10%N] /\ putl 0 0 bits = x.
Proof.
  intros S0. exists (map (fun j => if bitv x j then 49%N else 48%N) (seq 0 n)).
  assert (L : length (map (fun j => if bitv x j then 49%N else 48%N) (seq 0 n)) = n) by now rewrite map_length, seq_length.
  assert (B : Forall chr (map (fun j => if bitv x j then 49%N else 48%N) (seq 0 n))).
  { apply Forall_map, Forall_forall. intros j _. destruct (bitv x j); [now right|now left]. }
  split; [exact L|]. split; [exact B|]. split; [reflexivity|].
  apply (@bits_eq_small n); [apply (line_bits L B)|exact S0|]. intros t T. rewrite putl_bit. rewrite L. cbn [Nat.leb andb Nat.add].
  replace (t <? n) with true by (symmetry; now apply Nat.ltb_lt). rewrite Nat.sub_0_r.
  rewrite (nth_indep _ 0%N (if bitv x 0 then 49%N else 48%N)) by lia. rewrite (map_nth (fun j => if bitv x j then 49%N else 48%N)), seq_nth by exact T. cbn [Nat.add].
  change (bit_at x t) with (bitv x t). now destruct (bitv x t).
Qed.

Lemma upd_app A (a b : list A) x y : upd (a ++ y :: b) (length a) x = a ++ x :: b.
Proof. induction a; cbn; congruence. Qed.
Lemma nth_app_len A (a b : list A) y : nth_error (a ++ y :: b) (length a) = Some y.
Proof. induction a; cbn; auto. Qed.

Lemma rows_accept n ms : forall c f pre, Forall (small n) ms ->
  exists c', forN (length pre) (length ms) (lrow n) ((c, mat_text n ms ++ f), pre ++ repeat 0%N (length ms)) = Ok ((c', f), pre ++ ms).
Proof.
  induction ms as [|x ms IH]; intros c f pre F; [exists c; reflexivity|].
  inversion F; subst. cbn [length repeat]. rewrite forN_S. unfold mat_text. cbn [map concat]. destruct (bits_line H1) as (bits & L & B & -> & P).
  rewrite <- !app_assoc. cbn [app]. rewrite (@row_accept n (length pre) c _ _ bits 0%N L B) by apply nth_app_len. cbn [bind]. rewrite upd_app, P.
  destruct (IH (Some 10%N) f (pre ++ [x]) H2) as (c' & E). exists c'. rewrite app_length in E. cbn [length] in E. rewrite <- !app_assoc in E. exact E.
Qed.
Lemma rows_only n k : 0 < n -> forall c f pre s', forN (length pre) k (lrow n) ((c, f), pre ++ repeat 0%N k) = Ok s' ->
  exists ms f', length ms = k /\ Forall (small n) ms /\ f = mat_text n ms ++ f'.
Proof.
  intro N0. induction k as [|k IH]; intros c f pre s' H; [exists [], f; auto|]. cbn [repeat] in H. rewrite forN_S in H. apply bind_ok in H. destruct H as (s1 & E & H).
  assert (L : length pre < length (pre ++ 0%N :: repeat 0%N k)) by (rewrite app_length; cbn; lia).
  destruct (@row_only _ _ _ _ _ _ L N0 E) as (bits & f1 & -> & LB & B). rewrite (@row_accept n (length pre) c f1 _ bits 0%N LB B) in E by apply nth_app_len. injection E as <-.
  rewrite upd_app in H. destruct (IH (Some 10%N) f1 (pre ++ [putl 0 0 bits]) s') as (ms & f' & LM & FM & ->).
  { rewrite app_length. cbn [length]. rewrite <- app_assoc. exact H. }
  destruct (line_bits LB B) as (T & SM). exists (putl 0 0 bits :: ms), f'. split; [cbn; lia|]. split; [now constructor|].
  unfold mat_text. cbn [map concat]. rewrite T. rewrite <- !app_assoc. reflexivity.
Qed.

Lemma load_iff rows n f m : 0 < n -> (load_matrix rows n f = Ok m <->
  length m = rows /\ Forall (fun x => (x < 2 ^ N.of_nat n)%N) m /\ exists rest, f = mat_text n m ++ rest).
Proof.
  intro N0. rewrite load_unfold. split.
  - intro H. apply bind_ok in H. destruct H as (s & E & H). injection H as <-.
    destruct (@rows_only n rows N0 None f [] s E) as (ms & f' & LM & FM & ->).
    destruct (@rows_accept n ms None f' [] FM) as (c' & E'). cbn [length app] in E'. rewrite LM in E'. rewrite E' in E. injection E as <-. cbn [snd]. eauto.
  - intros (L & F & rest & ->). destruct (@rows_accept n m None rest [] F) as (c' & E). cbn [length app] in E. rewrite L in E. rewrite E. reflexivity.
Qed.

(* ---------------- what the instance is made of ---------------- *)
Lemma rand_bits_bit rng n pos i : i < n -> bit_at (rand_bits rng n pos) i = rng (pos + i).
Proof.
  unfold rand_bits. assert (G : forall k lo t j, bit_at (fold_left (fun t i => put_bit t i (rng (pos + i))) (seq lo k) t) j =
    if (lo <=? j) && (j <? lo + k) then rng (pos + j) else bit_at t j).
  { induction k as [|k IH]; intros lo t j; cbn [seq fold_left].
    - replace ((lo <=? j) && (j <? lo + 0)) with false; [reflexivity|]. symmetry. apply andb_false_iff.
      destruct (Nat.leb_spec lo j); [right; apply Nat.ltb_ge; lia|now left].
    - rewrite IH, bit_put. destruct (Nat.eqb_spec j lo) as [->|NE].
      + replace (S lo <=? lo) with false by (symmetry; apply Nat.leb_gt; lia). rewrite Nat.leb_refl.
        replace (lo <? lo + S k) with true by (symmetry; apply Nat.ltb_lt; lia). reflexivity.
      + replace (S lo + k) with (lo + S k) by lia. destruct (Nat.leb_spec (S lo) j), (Nat.leb_spec lo j); try lia; reflexivity. }
  intro H. rewrite G. cbn [Nat.leb Nat.add andb]. apply Nat.ltb_lt in H. now rewrite H.
Qed.
Lemma rand_mat_bit rng rows n pos i j : i < rows -> j < n -> bit_at (nth i (rand_mat rng rows n pos) 0%N) j = rng (pos + i * n + j).
Proof.
  intros I J. unfold rand_mat. rewrite (nth_indep _ 0%N (rand_bits rng n (pos + 0 * n))) by (rewrite map_length, seq_length; exact I).
  rewrite (map_nth (fun i => rand_bits rng n (pos + i * n))), seq_nth by exact I. apply rand_bits_bit, J.
Qed.

Lemma lin_stream p fuel rng lf n : forall r ls pos, exists ls',
  forN r n (fun r (s : list (list N) * list (list N) * nat) =>
    let '(ls, is, pos) := s in
    do m <- make_mat (Nat.eqb (lpBits p)) false fuel rng (lf r) (lpBits p) (lpBits p) pos;
    do is <- (if false then do i <- invert_matrix (lpBits p) (fst m); Ok (is ++ [i]) else Ok is);
    Ok (ls ++ [fst m], is, snd m)) (ls, [], pos) = Ok (ls ++ ls', [], pos + n * (lpBits p * lpBits p)) /\
  ls' = map (fun k => rand_mat rng (lpBits p) (lpBits p) (pos + k * (lpBits p * lpBits p))) (seq 0 n).
Proof.
  induction n as [|n IH]; intros r ls pos; [exists []; cbn; rewrite app_nil_r, Nat.add_0_r; auto|].
  rewrite forN_S. cbn [make_mat bind fst snd].
  destruct (IH (r + 1) (ls ++ [rand_mat rng (lpBits p) (lpBits p) pos]) (pos + lpBits p * lpBits p)) as (ls' & E & L).
  exists (rand_mat rng (lpBits p) (lpBits p) pos :: ls'). split.
  - etransitivity; [exact E|]. rewrite <- app_assoc. cbn [app Nat.mul]. rewrite Nat.add_assoc. reflexivity.
  - rewrite L. cbn [seq map Nat.mul]. rewrite Nat.add_0_r. f_equal. rewrite <- seq_shift, map_map. apply map_ext. intro k. cbn [Nat.mul]. now rewrite Nat.add_assoc.
Qed.
Lemma key_stream p fuel rng kf n : forall r ks pos, exists ks',
  forN r n (fun r (s : list (list N) * nat) =>
    do m <- make_mat (Nat.leb (Nat.min (lpBits p) (lpKey p))) false fuel rng (kf r) (lpBits p) (lpKey p) (snd s);
    Ok (fst s ++ [fst m], snd m)) (ks, pos) = Ok (ks ++ ks', pos + n * (lpBits p * lpKey p)) /\
  ks' = map (fun k => rand_mat rng (lpBits p) (lpKey p) (pos + k * (lpBits p * lpKey p))) (seq 0 n).
Proof.
  induction n as [|n IH]; intros r ks pos; [exists []; cbn; rewrite app_nil_r, Nat.add_0_r; auto|].
  rewrite forN_S. cbn [make_mat bind fst snd].
  destruct (IH (r + 1) (ks ++ [rand_mat rng (lpBits p) (lpKey p) pos]) (pos + lpBits p * lpKey p)) as (ls' & E & L).
  exists (rand_mat rng (lpBits p) (lpKey p) pos :: ls'). split.
  - etransitivity; [exact E|]. rewrite <- app_assoc. cbn [app Nat.mul]. rewrite Nat.add_assoc. reflexivity.
  - rewrite L. cbn [seq map Nat.mul]. rewrite Nat.add_0_r. f_equal. rewrite <- seq_shift, map_map. apply map_ext. intro k. cbn [Nat.mul]. now rewrite Nat.add_assoc.
Qed.
Lemma nth_map_seq0 A (f : nat -> A) n k d : k < n -> nth k (map f (seq 0 n)) d = f k.
Proof. intro K. rewrite (nth_indep _ d (f 0)) by (rewrite map_length, seq_length; exact K). now rewrite map_nth, seq_nth by exact K. Qed.

Lemma stream_ok p fuel rng lf kf key : (key < 2 ^ N.of_nat (lpKey p))%N -> exists l, lm_new p false fuel rng lf kf key = Ok l /\
  (forall r i j, r < lpRounds p -> i < lpBits p -> j < lpBits p ->
     bitv (nth i (nth r (lmLin l) []) 0%N) j = rng (r * (lpBits p * lpBits p) + i * lpBits p + j)) /\
  (forall r j, r < lpRounds p -> j < lpBits p ->
     bitv (nth r (lmConst l) 0%N) j = rng (lpRounds p * (lpBits p * lpBits p) + r * lpBits p + j)) /\
  (forall r i j, r <= lpRounds p -> i < lpBits p -> j < lpKey p ->
     bitv (nth i (nth r (lmKeyMat l) []) 0%N) j =
     rng (lpRounds p * (lpBits p * lpBits p) + lpRounds p * lpBits p + r * (lpBits p * lpKey p) + i * lpKey p + j)).
Proof.
  intro K. unfold lm_new, instantiate.
  destruct (@lin_stream p fuel rng lf (lpRounds p) 0 [] 0) as (ls & E & L). rewrite E. cbn [bind app Nat.add].
  destruct (@key_stream p fuel rng kf (lpRounds p + 1) 0 [] (lpRounds p * (lpBits p * lpBits p) + lpRounds p * lpBits p)) as (ks & E2 & L2). rewrite E2. cbn [bind fst app].
  assert (F : Forall (sized (lpBits p) (lpKey p)) ks).
  { rewrite L2. apply Forall_map, Forall_forall. intros k _. apply rand_mat_sized. }
  assert (LK : length ks = lpRounds p + 1) by (rewrite L2, map_length, seq_length; reflexivity).
  match goal with |- context [set_key p ?l0 key] => destruct (@set_key_ok p l0 key LK F K) as (l' & E' & _ & _ & A & _ & B & _ & C) end.
  exists l'. split; [exact E'|]. rewrite A, B, C. cbn [lmLin lmConst lmKeyMat]. rewrite L, L2. split; [|split].
  - intros r i j R I J. rewrite nth_map_seq0 by exact R. cbn [Nat.add]. apply rand_mat_bit; assumption.
  - intros r j R J. rewrite nth_map_seq0 by exact R. apply rand_bits_bit, J.
  - intros r i j R I J. rewrite nth_map_seq0 by lia. apply rand_mat_bit; assumption.
Qed.

Lemma files_ok p fuel rng lf kf key l : 0 < lpBits p -> 0 < lpKey p -> lm_new p true fuel rng lf kf key = Ok l ->
  (forall r f, r < lpRounds p -> lf r = Some f -> exists rest, f = mat_text (lpBits p) (nth r (lmLin l) []) ++ rest) /\
  (forall r f, r <= lpRounds p -> kf r = Some f -> exists rest, f = mat_text (lpKey p) (nth r (lmKeyMat l) []) ++ rest).
Proof.
  intros B0 K0 H. unfold lm_new in H. apply bind_ok in H. destruct H as (l0 & E & H). unfold set_key in H. apply bind_ok in H. destruct H as (kk & _ & H).
  injection H as <-. cbn [lmLin lmKeyMat]. unfold instantiate in E.
  apply bind_ok in E. destruct E as ([[ls is] pos] & E1 & H). apply bind_ok in H. destruct H as ([ks pos2] & E2 & H). injection H as <-. cbn [lmLin lmKeyMat fst].
  assert (MM : forall good rows n file pos m pos', 0 < n -> make_mat good true fuel rng (Some file) rows n pos = Ok (m, pos') -> exists rest, file = mat_text n m ++ rest).
  { intros good rows n file q m q' N0 E. unfold make_mat in E. apply bind_ok in E. destruct E as (mm & E & E'). apply bind_ok in E'. destruct E' as (rk & _ & E').
    apply bind_ok in E'. destruct E' as (u & _ & E'). injection E' as <- <-. apply (load_iff rows file mm N0) in E. apply E. }
  split.
  - assert (G : length ls = lpRounds p /\ forall r f, r < length ls -> lf r = Some f -> exists rest, f = mat_text (lpBits p) (nth r ls []) ++ rest).
    { revert E1. apply (@forN_keep _ (fun r (s : list (list N) * list (list N) * nat) => let '(ls, _, _) := s in
        length ls = r /\ forall r f, r < length ls -> lf r = Some f -> exists rest, f = mat_text (lpBits p) (nth r ls []) ++ rest)).
      - split; [reflexivity|]. intros r f R. cbn in R. lia.
      - intros r [[a b] c] s' Hr (A & B) E. apply bind_ok in E. destruct E as ([m pm] & Em & E). cbn [fst snd] in E. apply bind_ok in E. destruct E as (is' & _ & E). injection E as <-.
        split; [rewrite app_length; cbn; lia|]. intros r0 f R F. rewrite app_length in R. cbn in R. destruct (Nat.eq_dec r0 r) as [->|NE].
        + rewrite app_nth2 by lia. rewrite A, Nat.sub_diag. cbn [nth]. rewrite F in Em. exact (MM _ _ _ _ _ _ _ B0 Em).
        + rewrite app_nth1 by lia. apply B; [lia|exact F]. }
    destruct G as [G1 G2]. rewrite G1 in G2. exact G2.
  - assert (G : length ks = lpRounds p + 1 /\ forall r f, r < length ks -> kf r = Some f -> exists rest, f = mat_text (lpKey p) (nth r ks []) ++ rest).
    { refine (@forN_keep _ (fun r (s : list (list N) * nat) =>
        length (fst s) = r /\ forall r f, r < length (fst s) -> kf r = Some f -> exists rest, f = mat_text (lpKey p) (nth r (fst s) []) ++ rest) _ (lpRounds p + 1) 0 _ (ks, pos2) _ _ E2).
      - split; [reflexivity|]. intros r f R. cbn in R. lia.
      - intros r [a c] s' Hr (A & B) E. cbn [fst snd] in *. apply bind_ok in E. destruct E as ([m pm] & Em & E). injection E as <-. cbn [fst].
        split; [rewrite app_length; cbn; lia|]. intros r0 f R F. rewrite app_length in R. cbn in R. destruct (Nat.eq_dec r0 r) as [->|NE].
        + rewrite app_nth2 by lia. rewrite A, Nat.sub_diag. cbn [nth]. rewrite F in Em. exact (MM _ _ _ _ _ _ _ K0 Em).
        + rewrite app_nth1 by lia. apply B; [lia|exact F]. }
    destruct G as [G1 G2]. rewrite G1 in G2. intros r f R. apply G2. lia.
Qed.
