From Verif Require Import Base ConvModel ConvProofs PermCorProofs CompPermProofs GmwModel GmwSpec.
From Coq Require Import Permutation.

(* ---------------- loading the triples ---------------- *)

Definition qlen (n : nat) (q : quad) : Prop :=
  length (qA q) = n /\ length (qB q) = n /\ length (qC q) = n /\ length (qD q) = n.

(* the triples of a quad as (multiplier, addend) pairs *)
Definition quad_triples (q : quad) : list triple := combine (qA q) (qB q) ++ combine (qC q) (qD q).

Lemma combine_fst_snd A B (l : list (A * B)) : combine (map fst l) (map snd l) = l.
Proof. induction l as [|[a b] l IH]; simpl; auto. rewrite IH. reflexivity. Qed.

Lemma load_part_len role m cur : 2 * m <= length cur -> qlen m (load_part role m cur).
Proof.
  intros H. unfold load_part, qlen.
  assert (length (firstn m cur) = m) by (rewrite firstn_length; lia).
  assert (length (firstn m (skipn m cur)) = m) by (rewrite firstn_length, skipn_length; lia).
  destruct role; simpl; rewrite ?map_length; auto.
Qed.

Lemma load_part_triples role m cur : 2 * m <= length cur ->
  Permutation (quad_triples (load_part role m cur) ++ skipn (2 * m) cur) cur.
Proof.
  intros H. unfold load_part, quad_triples.
  assert (E : cur = firstn m cur ++ firstn m (skipn m cur) ++ skipn (2 * m) cur).
  { rewrite <- (firstn_skipn m cur) at 1. f_equal.
    rewrite <- (firstn_skipn m (skipn m cur)) at 1. f_equal.
    replace (2 * m) with (m + m) by lia. apply skipn_add. }
  destruct role; simpl; rewrite !combine_fst_snd, <- app_assoc; rewrite E at 4.
  - reflexivity.
  - rewrite !app_assoc. apply Permutation_app_tail, Permutation_app_comm.
Qed.

Lemma combine_app A B : forall (l1 l2 : list A) (m1 m2 : list B), length l1 = length m1 ->
  combine (l1 ++ l2) (m1 ++ m2) = combine l1 m1 ++ combine l2 m2.
Proof.
  induction l1 as [|a l1 IH]; intros l2 [|b m1] m2 H; simpl in *; try discriminate; auto.
  f_equal. apply IH. lia.
Qed.

Lemma qapp_triples n m p q : qlen n p -> qlen m q ->
  Permutation (quad_triples (qapp p q)) (quad_triples p ++ quad_triples q).
Proof.
  intros (Ha & Hb & Hc & Hd) _. unfold quad_triples, qapp; simpl.
  rewrite !combine_app by congruence. rewrite <- !app_assoc. apply Permutation_app_head.
  rewrite !app_assoc. apply Permutation_app_tail, Permutation_app_comm.
Qed.

Lemma even_half n : Nat.even n = true -> 2 * (n / 2) = n.
Proof. intros H. apply Nat.even_spec in H. destruct H as [k ->]. rewrite (Nat.mul_comm 2 k), Nat.div_mul; lia. Qed.

Lemma load_ok role : forall segs need cur,
  Nat.even (length cur) = true -> even_segs segs ->
  2 * need <= length cur + length (concat segs) ->
  exists q cur' segs', load role need cur segs = Ok (q, cur', segs') /\ qlen need q /\
    Nat.even (length cur') = true /\ even_segs segs' /\
    length cur' + length (concat segs') + 2 * need = length cur + length (concat segs) /\
    Permutation (quad_triples q ++ cur' ++ concat segs') (cur ++ concat segs).
Proof.
  induction segs as [|s segs IH]; intros need cur He Hes Hn; cbn [load].
  all: pose proof (even_half He) as Hh.
  all: assert (Hm : 2 * load_min need cur <= length cur) by (unfold load_min; lia).
  all: assert (Hev : Nat.even (length (skipn (2 * load_min need cur) cur)) = true).
  1,3: rewrite skipn_length, Nat.even_sub by lia; rewrite He, Nat.even_mul; reflexivity.
  all: destruct (Nat.eqb_spec need (load_min need cur)) as [E|E].
  1,3: (exists (load_part role (load_min need cur) cur), (skipn (2 * load_min need cur) cur);
        eexists; split; [reflexivity|]; repeat split; auto;
        try (rewrite E at 2; apply load_part_len; exact Hm);
        try (rewrite E at 1; apply load_part_len; exact Hm);
        [ rewrite skipn_length; lia
        | rewrite app_assoc; apply Permutation_app_tail, load_part_triples; exact Hm ]).
  - exfalso. unfold load_min in E. simpl in Hn. lia.
  - assert (Hl : load_min need cur = length cur / 2) by (unfold load_min in *; lia).
    assert (Hz : length (skipn (2 * load_min need cur) cur) = 0) by (rewrite skipn_length; lia).
    rewrite (proj2 (Nat.eqb_eq _ _) Hz).
    inversion Hes as [|? ? Hs Hss]; subst.
    destruct (IH (need - load_min need cur) s) as (q & c' & ss' & E1 & Hq & H1 & H2 & H3 & H4); auto.
    { simpl in Hn. rewrite app_length in Hn. lia. }
    rewrite E1. cbn [bind].
    exists (qapp (load_part role (load_min need cur) cur) q), c', ss'.
    destruct (@load_part_len role _ _ Hm) as (La & Lb & Lc & Ld).
    destruct Hq as (Qa & Qb & Qc & Qd).
    split; [reflexivity|]. split.
    { unfold qlen, qapp; simpl; rewrite !app_length. unfold load_min in *; lia. }
    split; [auto|]. split; [auto|]. split.
    { simpl. rewrite app_length. unfold load_min in *. lia. }
    rewrite (@qapp_triples (load_min need cur) (need - load_min need cur)) by (repeat split; auto).
    rewrite <- app_assoc, H4. simpl concat. apply length_zero_iff_nil in Hz.
    pose proof (@load_part_triples role _ _ Hm) as P. rewrite Hz, app_nil_r in P.
    apply Permutation_app_tail. exact P.
Qed.

(* pairing *)
Definition qrel (q0 q1 : quad) : Prop :=
  forall j, N.land (nth j (qA q0) 0%N) (nth j (qC q1) 0%N) = N.lxor (nth j (qB q0) 0%N) (nth j (qD q1) 0%N) /\
            N.land (nth j (qA q1) 0%N) (nth j (qC q0) 0%N) = N.lxor (nth j (qB q1) 0%N) (nth j (qD q0) 0%N).

Lemma Forall2_firstn A B (R : A -> B -> Prop) : forall n l m, Forall2 R l m -> Forall2 R (firstn n l) (firstn n m).
Proof. induction n; intros l m H; simpl; [constructor|]. destruct H; constructor; auto. Qed.
Lemma Forall2_skipn A B (R : A -> B -> Prop) : forall n l m, Forall2 R l m -> Forall2 R (skipn n l) (skipn n m).
Proof. induction n; intros l m H; simpl; auto. destruct H; [constructor|]; auto. Qed.

Lemma ole_nth (l m : list triple) : Forall2 ole_pos l m -> forall j,
  N.land (nth j (map fst l) 0%N) (nth j (map fst m) 0%N) =
  N.lxor (nth j (map snd l) 0%N) (nth j (map snd m) 0%N).
Proof. induction 1 as [|p q l m H HF IH]; intros [|j]; simpl; auto. Qed.

Lemma load_part_rel m c0 c1 : Forall2 ole_pos c0 c1 -> qrel (load_part false m c0) (load_part true m c1).
Proof.
  intros H j. unfold load_part; simpl. split.
  - apply ole_nth. apply Forall2_firstn, Forall2_skipn; auto.
  - rewrite N.land_comm, N.lxor_comm. apply ole_nth. apply Forall2_firstn; auto.
Qed.

Lemma qapp_rel n p0 p1 q0 q1 : qlen n p0 -> qlen n p1 -> qrel p0 p1 -> qrel q0 q1 -> qrel (qapp p0 q0) (qapp p1 q1).
Proof.
  intros (A0 & B0 & C0 & D0) (A1 & B1 & C1 & D1) Hp Hq j. unfold qapp; simpl.
  destruct (Nat.lt_ge_cases j n) as [L|L].
  - rewrite !app_nth1 by lia. apply Hp.
  - rewrite !app_nth2 by lia. rewrite A0, B0, C0, D0, A1, B1, C1, D1. apply Hq.
Qed.

Lemma load_rel : forall s0 s1, ole_segs s0 s1 -> forall need c0 c1 q0 c0' s0',
  Forall2 ole_pos c0 c1 -> load false need c0 s0 = Ok (q0, c0', s0') ->
  exists q1 c1' s1', load true need c1 s1 = Ok (q1, c1', s1') /\ qrel q0 q1 /\
    Forall2 ole_pos c0' c1' /\ ole_segs s0' s1'.
Proof.
  induction 1 as [|x y s0 s1 Hxy HF IH]; intros need c0 c1 q0 c0' s0' Hc; cbn [load].
  all: assert (Hl : length c0 = length c1) by (eapply Forall2_len; eauto).
  all: assert (Hm : load_min need c0 = load_min need c1) by (unfold load_min; rewrite Hl; reflexivity).
  all: rewrite <- Hm; rewrite !skipn_length, <- Hl.
  all: destruct (need =? load_min need c0).
  1,3: intros E; injection E as <- <- <-; do 3 eexists; split; [reflexivity|];
       split; [apply load_part_rel; auto|]; split; [apply Forall2_skipn; auto|constructor; auto].
  - destruct (_ =? 0); discriminate.
  - destruct (_ =? 0); [|discriminate]. intros E.
    destruct (load false (need - load_min need c0) x s0) as [[[q cc] ss]| | |] eqn:E1; try discriminate.
    cbn [bind] in E. injection E as <- <- <-.
    destruct (IH _ _ _ _ _ _ Hxy E1) as (q1 & c1' & s1' & E2 & R & Hc' & Hs').
    rewrite E2. cbn [bind]. do 3 eexists. split; [reflexivity|]. split; auto.
    assert (Hmm : 2 * load_min need c0 <= length c0).
    { unfold load_min. pose proof (Nat.div_mod (length c0) 2). lia. }
    apply (@qapp_rel (load_min need c0) (load_part false (load_min need c0) c0) (load_part true (load_min need c0) c1)).
    + apply load_part_len. lia.
    + apply load_part_len. lia.
    + apply load_part_rel. auto.
    + exact R.
Qed.

(* ---------------- the protocol as pure functions ---------------- *)

Notation row mem i := (nth i mem (@nil N)).

Definition lin_out (role : bool) (t : gate_type) (x y : list N) : list N :=
  match t with
  | GCopy => x
  | GXor => map2 N.lxor x y
  | _ => if role then map (fun z => N.lxor z all_one) (map2 N.lxor x y) else map2 N.lxor x y
  end.
Definition lin_step (role : bool) (mem : list (list N)) (g : gate) : list (list N) :=
  if nonlinear (gType g) then mem
  else upd mem (gOut g) (lin_out role (gType g) (row mem (gIn0 g)) (row mem (gIn1 g))).
Definition lin_run role gs mem := fold_left (lin_step role) gs mem.

Definition gmsg (role : bool) (w : nat) (q : quad) (g : gate) (mem : list (list N)) (j : nat) : list N :=
  mult_send role (gType g) (slice (qA q) j w) (slice (qC q) j w) (row mem (gIn0 g)) (row mem (gIn1 g)).
Fixpoint msgs_of (role : bool) (w : nat) (q : quad) (gs : list gate) (mem : list (list N)) (j : nat) : list (list N) :=
  match gs with
  | [] => []
  | g :: gs' =>
    if nonlinear (gType g) then gmsg role w q g mem j :: msgs_of role w q gs' mem (j + w)
    else msgs_of role w q gs' (lin_step role mem g) j
  end.
Definition gres (role : bool) (w : nat) (q : quad) (g : gate) (mem : list (list N)) (j : nat) (m : list N) : list N :=
  mult_recv role w (gType g) (slice (qB q) j w) (slice (qC q) j w) (slice (qD q) j w)
    (row mem (gIn0 g)) (row mem (gIn1 g)) m.
Fixpoint nl_run (role : bool) (w : nat) (q : quad) (gs : list gate) (mem : list (list N)) (j : nat) (ms : list (list N)) : list (list N) :=
  match gs with
  | [] => mem
  | g :: gs' =>
    if nonlinear (gType g) then
      nl_run role w q gs' (upd mem (gOut g) (gres role w q g mem j (hd [] ms))) (j + w) (tl ms)
    else nl_run role w q gs' mem j ms
  end.

(* both parties, each gate completed before the next *)
Fixpoint seq_run (w : nat) (q0 q1 : quad) (gs : list gate) (mem0 mem1 : list (list N)) (j : nat) :=
  match gs with
  | [] => (mem0, mem1)
  | g :: gs' =>
    if nonlinear (gType g) then
      seq_run w q0 q1 gs'
        (upd mem0 (gOut g) (gres false w q0 g mem0 j (gmsg true w q1 g mem1 j)))
        (upd mem1 (gOut g) (gres true w q1 g mem1 j (gmsg false w q0 g mem0 j))) (j + w)
    else seq_run w q0 q1 gs' (lin_step false mem0 g) (lin_step true mem1 g) j
  end.

Lemma nthu A (l : list A) i x j d :
  nth j (upd l i x) d = if (i =? j) && (i <? length l) then x else nth j l d.
Proof.
  revert i j. induction l as [|a l IH]; intros [|i] [|j]; cbn [upd nth Nat.eqb andb length]; auto.
  - destruct (i =? j); reflexivity.
  - rewrite IH. reflexivity.
Qed.
Lemma row_upd_ne mem i j r : i <> j -> row (upd mem i r) j = row mem j.
Proof. intros H. rewrite nthu. destruct (Nat.eqb_spec i j); [contradiction|reflexivity]. Qed.

Lemma upd_comm A : forall (l : list A) i j x y, i <> j -> upd (upd l i x) j y = upd (upd l j y) i x.
Proof.
  induction l as [|a l IH]; intros [|i] [|j] x y H; cbn [upd]; auto; try congruence.
  f_equal. apply IH. congruence.
Qed.

(* a write to a wire the linear gates neither read nor write commutes with them *)
Definition unread (gs : list gate) (o : nat) : Prop := forall h, In h gs -> ~ reads h o.

Lemma lin_out_reads role g mem o r : nonlinear (gType g) = false -> ~ reads g o ->
  lin_out role (gType g) (row (upd mem o r) (gIn0 g)) (row (upd mem o r) (gIn1 g)) =
  lin_out role (gType g) (row mem (gIn0 g)) (row mem (gIn1 g)).
Proof.
  intros Hl Hr. unfold reads in Hr.
  assert (H0 : o <> gIn0 g) by (intros E; apply Hr; auto).
  rewrite (row_upd_ne _ _ H0).
  destruct (gType g) eqn:E; try discriminate; simpl; auto;
    (assert (H1 : o <> gIn1 g) by (intros E'; apply Hr; right; split; [congruence|auto]));
    rewrite (row_upd_ne _ _ H1); reflexivity.
Qed.

Lemma lin_run_upd role o r : forall gs mem, unread gs o ->
  (forall h, In h gs -> nonlinear (gType h) = false -> gOut h <> o) ->
  lin_run role gs (upd mem o r) = upd (lin_run role gs mem) o r.
Proof.
  induction gs as [|g gs IH]; intros mem Hu Ho; simpl; auto.
  unfold lin_run in *. simpl. rewrite <- IH.
  - f_equal. unfold lin_step. destruct (nonlinear (gType g)) eqn:E; auto.
    rewrite lin_out_reads; auto; [|apply Hu; left; auto].
    apply upd_comm. intros Eq; apply (Ho g); simpl; auto.
  - intros h Hh. apply Hu; right; auto.
  - intros h Hh. apply Ho; right; auto.
Qed.

Lemma nonlin_reads0 g : reads g (gIn0 g).
Proof. left; auto. Qed.
Lemma nonlin_reads1 g : nonlinear (gType g) = true -> reads g (gIn1 g).
Proof. intros H. right. split; auto. intros E. rewrite E in H. discriminate. Qed.

Lemma msgs_of_upd role w q o r : forall gs mem j, unread gs o ->
  (forall h, In h gs -> nonlinear (gType h) = false -> gOut h <> o) ->
  msgs_of role w q gs (upd mem o r) j = msgs_of role w q gs mem j.
Proof.
  induction gs as [|g gs IH]; intros mem j Hu Ho; simpl; auto.
  assert (Hu' : unread gs o) by (intros h Hh; apply Hu; right; auto).
  assert (Ho' : forall h, In h gs -> nonlinear (gType h) = false -> gOut h <> o) by (intros h Hh; apply Ho; right; auto).
  destruct (nonlinear (gType g)) eqn:E.
  - rewrite IH by auto. f_equal. unfold gmsg.
    rewrite !row_upd_ne; auto; intros ->; apply (Hu g); auto using nonlin_reads0, nonlin_reads1; left; auto.
  - unfold lin_step. rewrite E. rewrite lin_out_reads; auto; [|apply Hu; left; auto].
    rewrite upd_comm; [apply IH; auto|]. intros Eq; apply (Ho g); simpl; auto.
Qed.

Lemma lin_run_keep role i : forall gs mem,
  (forall h, In h gs -> nonlinear (gType h) = false -> gOut h <> i) ->
  row (lin_run role gs mem) i = row mem i.
Proof.
  unfold lin_run. induction gs as [|g gs IH]; intros mem H; simpl; auto.
  rewrite IH by (intros h Hh; apply H; right; auto).
  unfold lin_step. destruct (nonlinear (gType g)) eqn:E; auto.
  apply row_upd_ne. apply H; simpl; auto.
Qed.

(* the rounds structure (all sends, then all receives) computes the sequential run *)
Lemma proto_seq w q0 q1 : forall gs mem0 mem1 j, levelled gs ->
  (nl_run false w q0 gs (lin_run false gs mem0) j (msgs_of true w q1 gs mem1 j),
   nl_run true w q1 gs (lin_run true gs mem1) j (msgs_of false w q0 gs mem0 j)) =
  seq_run w q0 q1 gs mem0 mem1 j.
Proof.
  induction gs as [|g gs IH]; intros mem0 mem1 j Hl; [reflexivity|].
  inversion Hl as [|? ? Hl' Hg]; subst.
  cbn [nl_run msgs_of seq_run]. destruct (nonlinear (gType g)) eqn:E.
  - specialize (Hg eq_refl). rewrite <- IH by auto. cbn [hd tl].
    assert (Hu : unread gs (gOut g)) by (intros h Hh; apply (Hg h Hh)).
    assert (Ho : forall h, In h gs -> nonlinear (gType h) = false -> gOut h <> gOut g)
      by (intros h Hh Hn; apply (Hg h Hh); auto).
    rewrite !msgs_of_upd, !lin_run_upd by auto.
    assert (L : forall role mem, lin_run role (g :: gs) mem = lin_run role gs mem)
      by (intros; unfold lin_run; simpl; unfold lin_step at 2; rewrite E; auto).
    assert (K : forall role mem m q, gres role w q g (lin_run role gs mem) j m = gres role w q g mem j m).
    { intros. unfold gres.
      rewrite !lin_run_keep; auto; intros h Hh Hn He; destruct (Hg h Hh) as [_ H2]; destruct (H2 Hn) as [H3 _];
        apply H3; rewrite He; auto using nonlin_reads0, nonlin_reads1. }
    rewrite !L, !K. reflexivity.
  - rewrite <- IH by auto. reflexivity.
Qed.

(* ---------------- one lane ---------------- *)

Lemma nth_map2 A B C (f : A -> B -> C) l m i da db dc : i < length l -> i < length m ->
  nth i (map2 f l m) dc = f (nth i l da) (nth i m db).
Proof.
  intros H1 H2. apply nth_error_nth. rewrite nth_error_map2.
  rewrite (nth_error_nth_lt da H1), (nth_error_nth_lt db H2). reflexivity.
Qed.

Lemma ones_bit k : (k < 128)%N -> N.testbit all_one k = true.
Proof. intros H. apply N.ones_spec_low. exact H. Qed.

Lemma imask_bit b k : (k < 128)%N -> N.testbit (imask b) k = b.
Proof. intros H. destruct b; unfold imask; [apply ones_bit; auto|apply N.bits_0]. Qed.

(* the algebra of one nonlinear gate on bits *)
Lemma mult_bits t x0 y0 x1 y1 a0 b0 c0 d0 a1 b1 c1 d1 : nonlinear t = true ->
  a0 && c1 = xorb b0 d1 -> a1 && c0 = xorb b1 d0 ->
  xorb
   (xorb (xorb (xorb (xorb x0 (invertA t) && xorb y0 (invertB t)) (xorb (xorb x0 (invertA t) && xorb c1 y1) b0))
      (xorb (c0 && xorb a1 x1) d0)) (invertC t))
   (xorb (xorb (xorb (x1 && xorb c0 (xorb y0 (invertB t))) b1) (xorb (c1 && xorb a0 (xorb x0 (invertA t))) d1)) (x1 && y1))
  = gfun t (xorb x0 x1) (xorb y0 y1).
Proof.
  intros Ht H0 H1.
  assert (E0 : d1 = xorb b0 (a0 && c1)) by (rewrite H0; destruct b0, d1; reflexivity).
  assert (E1 : d0 = xorb b1 (a1 && c0)) by (rewrite H1; destruct b1, d0; reflexivity).
  subst. clear H0 H1.
  destruct t; try discriminate; destruct x0, y0, x1, y1, a0, b0, c0, a1, b1, c1; reflexivity.
Qed.

Lemma nth_slice A (l : list A) o n i d : i < n -> nth i (slice l o n) d = nth (o + i) l d.
Proof.
  intros H. destruct (Nat.lt_ge_cases (o + i) (length l)) as [L|L].
  - apply nth_error_nth. rewrite nth_error_slice. destruct (Nat.ltb_spec i n); [|lia]. apply nth_error_nth_lt; auto.
  - rewrite (nth_overflow l) by lia. apply nth_overflow. unfold slice. rewrite firstn_length, skipn_length. lia.
Qed.

Lemma send_u_len t a x : length (send_u t a x) = Nat.min (length a) (length x).
Proof. apply map2_length. Qed.
Lemma send_w_len t a x : length (send_w t a x) = Nat.min (length a) (length x).
Proof. apply map2_length. Qed.

Lemma mult_send_len role t w a c x y : length a = w -> length c = w -> length x = w -> length y = w ->
  length (mult_send role t a c x y) = 2 * w.
Proof. intros. unfold mult_send. destruct role; rewrite app_length, send_u_len, send_w_len; lia. Qed.

Lemma mult_recv_len role t w b c d x y m : length b = w -> length c = w -> length d = w ->
  length x = w -> length y = w -> length m = 2 * w -> length (mult_recv role w t b c d x y m) = w.
Proof.
  intros. unfold mult_recv, recv_u, recv_w.
  destruct role; rewrite ?map_length, ?map2_length, ?firstn_length, ?skipn_length; lia.
Qed.

Lemma firstn_app_len A (l m : list A) n : length l = n -> firstn n (l ++ m) = l.
Proof. intros <-. rewrite firstn_app, Nat.sub_diag, firstn_all. simpl. apply app_nil_r. Qed.
Lemma skipn_app_len A (l m : list A) n : length l = n -> skipn n (l ++ m) = m.
Proof. intros <-. rewrite skipn_app, Nat.sub_diag, skipn_all. reflexivity. Qed.

Lemma gate_lane t w a0 b0 c0 d0 a1 b1 c1 d1 x0 y0 x1 y1 i k :
  nonlinear t = true -> i < w -> (k < 128)%N ->
  length a0 = w -> length b0 = w -> length c0 = w -> length d0 = w ->
  length a1 = w -> length b1 = w -> length c1 = w -> length d1 = w ->
  length x0 = w -> length y0 = w -> length x1 = w -> length y1 = w ->
  N.land (nth i a0 0%N) (nth i c1 0%N) = N.lxor (nth i b0 0%N) (nth i d1 0%N) ->
  N.land (nth i a1 0%N) (nth i c0 0%N) = N.lxor (nth i b1 0%N) (nth i d0 0%N) ->
  let z0 := mult_recv false w t b0 c0 d0 x0 y0 (mult_send true t a1 c1 x1 y1) in
  let z1 := mult_recv true w t b1 c1 d1 x1 y1 (mult_send false t a0 c0 x0 y0) in
  xorb (N.testbit (nth i z0 0%N) k) (N.testbit (nth i z1 0%N) k) =
  gfun t (xorb (N.testbit (nth i x0 0%N) k) (N.testbit (nth i x1 0%N) k))
         (xorb (N.testbit (nth i y0 0%N) k) (N.testbit (nth i y1 0%N) k)).
Proof.
  intros Ht Hi Hk La0 Lb0 Lc0 Ld0 La1 Lb1 Lc1 Ld1 Lx0 Ly0 Lx1 Ly1 O0 O1 z0 z1.
  subst z0 z1. unfold mult_send, mult_recv.
  assert (Ls1 : length (send_w GAnd c1 y1) = w) by (rewrite send_w_len; lia).
  assert (Ls2 : length (send_u GAnd a1 x1) = w) by (rewrite send_u_len; lia).
  assert (Ls3 : length (send_w t c0 y0) = w) by (rewrite send_w_len; lia).
  assert (Ls4 : length (send_u t a0 x0) = w) by (rewrite send_u_len; lia).
  rewrite !firstn_app_len, !skipn_app_len by auto.
  unfold recv_u, recv_w.
  rewrite (@nth_map_d _ _ _ _ _ 0%N) by (rewrite !map2_length; lia).
  rewrite !(@nth_map2 _ _ _ _ _ _ _ 0%N 0%N) by (rewrite ?map2_length; lia).
  unfold send_u, send_w.
  rewrite !(@nth_map2 _ _ _ _ _ _ _ 0%N 0%N) by (rewrite ?map2_length; lia).
  apply (f_equal (fun z => N.testbit z k)) in O0. apply (f_equal (fun z => N.testbit z k)) in O1.
  rewrite N.land_spec, N.lxor_spec in O0, O1.
  rewrite <- (@mult_bits t _ _ _ _ _ _ _ _ _ _ _ _ Ht O0 O1).
  cbn [invertA invertB].
  assert (MA : forall x, N.testbit (if invertA t then N.lxor all_one x else x) k = xorb (N.testbit x k) (invertA t)).
  { intros x. destruct (invertA t); rewrite ?N.lxor_spec, ?(ones_bit Hk); destruct (N.testbit x k); reflexivity. }
  assert (MU : forall a x, N.testbit (if invertA t then N.lxor (N.lxor a x) all_one else N.lxor a x) k =
     xorb (N.testbit a k) (xorb (N.testbit x k) (invertA t))).
  { intros a x. destruct (invertA t); rewrite ?N.lxor_spec, ?(ones_bit Hk); destruct (N.testbit x k), (N.testbit a k); reflexivity. }
  assert (MW : forall a x, N.testbit (if invertB t then N.lxor a (N.lxor x all_one) else N.lxor a x) k =
     xorb (N.testbit a k) (xorb (N.testbit x k) (invertB t))).
  { intros a x. destruct (invertB t); rewrite ?N.lxor_spec, ?(ones_bit Hk); destruct (N.testbit x k), (N.testbit a k); reflexivity. }
  repeat first [rewrite N.lxor_spec | rewrite N.land_spec | rewrite MA | rewrite MU | rewrite MW | rewrite (imask_bit _ Hk)].
  reflexivity.
Qed.

Lemma lin_lane t x0 y0 x1 y1 w i k : nonlinear t = false -> t <> GOther -> i < w -> (k < 128)%N ->
  length x0 = w -> length y0 = w -> length x1 = w -> length y1 = w ->
  xorb (N.testbit (nth i (lin_out false t x0 y0) 0%N) k) (N.testbit (nth i (lin_out true t x1 y1) 0%N) k) =
  gfun t (xorb (N.testbit (nth i x0 0%N) k) (N.testbit (nth i x1 0%N) k))
         (xorb (N.testbit (nth i y0 0%N) k) (N.testbit (nth i y1 0%N) k)).
Proof.
  intros Ht Ho Hi Hk L0 L1 L2 L3.
  destruct t; try discriminate; try congruence; unfold lin_out, gfun; auto.
  - rewrite !(@nth_map2 _ _ _ _ _ _ _ 0%N 0%N) by lia. rewrite !N.lxor_spec.
    destruct (N.testbit (nth i x0 0%N) k), (N.testbit (nth i x1 0%N) k), (N.testbit (nth i y0 0%N) k),
      (N.testbit (nth i y1 0%N) k); reflexivity.
  - rewrite (@nth_map_d _ _ _ _ _ 0%N) by (rewrite !map2_length; lia).
    rewrite !(@nth_map2 _ _ _ _ _ _ _ 0%N 0%N) by lia. rewrite !N.lxor_spec, (ones_bit Hk).
    destruct (N.testbit (nth i x0 0%N) k), (N.testbit (nth i x1 0%N) k), (N.testbit (nth i y0 0%N) k),
      (N.testbit (nth i y1 0%N) k); reflexivity.
Qed.

Lemma lin_out_len role t w x y : length x = w -> length y = w -> length (lin_out role t x y) = w.
Proof. intros. destruct t, role; simpl; rewrite ?map_length, ?map2_length; lia. Qed.

Lemma mem_row wires w mem i : mem_ok wires w mem -> i < wires -> length (row mem i) = w.
Proof.
  intros [L F] H. rewrite Forall_forall in F. apply F. apply nth_In. lia.
Qed.
Lemma Forall_upd A (P : A -> Prop) : forall l i x, Forall P l -> P x -> Forall P (upd l i x).
Proof. induction l as [|a l IH]; intros [|i] x H Hx; simpl; auto; inversion H; subst; constructor; auto. Qed.
Lemma mem_upd wires w mem i r : mem_ok wires w mem -> length r = w -> mem_ok wires w (upd mem i r).
Proof. intros [L F] H. split; [rewrite upd_length; auto|apply Forall_upd; auto]. Qed.

Definition gates_ok (wires : nat) (gs : list gate) : Prop :=
  forall g, In g gs -> gIn0 g < wires /\ gIn1 g < wires /\ gOut g < wires /\ gType g <> GOther.

Lemma step_ext e e' g : (forall i, e i = e' i) -> forall i, step e g i = step e' g i.
Proof. intros H i. unfold step, put. rewrite !H. reflexivity. Qed.
Lemma eval_ext gs : forall e e', (forall i, e i = e' i) -> forall i, eval gs e i = eval gs e' i.
Proof. unfold eval. induction gs as [|g gs IH]; intros e e' H i; simpl; auto. apply IH. apply step_ext. auto. Qed.

Lemma shared_upd wires w m0 m1 o r0 r1 c k i : mem_ok wires w m0 -> mem_ok wires w m1 -> o < wires ->
  shared (upd m0 o r0) (upd m1 o r1) c k i =
  put (shared m0 m1 c k) o (xorb (N.testbit (nth c r0 0%N) k) (N.testbit (nth c r1 0%N) k)) i.
Proof.
  intros [L0 _] [L1 _] H. unfold shared, wbit, put. rewrite !nthu.
  rewrite Nat.eqb_sym. destruct (Nat.eqb_spec i o) as [->|]; auto.
  destruct (Nat.ltb_spec o (length m0)); [|lia]. destruct (Nat.ltb_spec o (length m1)); [|lia]. reflexivity.
Qed.

Lemma qslice n q j w : qlen n q -> j + w <= n ->
  length (slice (qA q) j w) = w /\ length (slice (qB q) j w) = w /\
  length (slice (qC q) j w) = w /\ length (slice (qD q) j w) = w.
Proof. intros (A & B & C & D) H. rewrite !slice_length by lia. auto. Qed.

Lemma count_cons g gs : count_nonlinear (g :: gs) = (if nonlinear (gType g) then 1 else 0) + count_nonlinear gs.
Proof. unfold count_nonlinear. simpl. destruct (nonlinear (gType g)); reflexivity. Qed.

Lemma seq_run_ok wires w n q0 q1 : qlen n q0 -> qlen n q1 -> qrel q0 q1 ->
  forall gs mem0 mem1 j, mem_ok wires w mem0 -> mem_ok wires w mem1 -> gates_ok wires gs ->
  j + w * count_nonlinear gs <= n ->
  exists m0 m1, seq_run w q0 q1 gs mem0 mem1 j = (m0, m1) /\ mem_ok wires w m0 /\ mem_ok wires w m1 /\
    forall c k, c < w -> (k < 128)%N -> forall i, shared m0 m1 c k i = eval gs (shared mem0 mem1 c k) i.
Proof.
  intros Q0 Q1 QR. induction gs as [|g gs IH]; intros mem0 mem1 j M0 M1 Hg Hn.
  - exists mem0, mem1. simpl. auto.
  - destruct (Hg g (or_introl eq_refl)) as (G0 & G1 & G2 & G3).
    assert (Hgs : gates_ok wires gs) by (intros h Hh; apply Hg; right; auto).
    rewrite count_cons in Hn.
    pose proof (mem_row M0 G0) as R00. pose proof (mem_row M0 G1) as R01.
    pose proof (mem_row M1 G0) as R10. pose proof (mem_row M1 G1) as R11.
    cbn [seq_run]. destruct (nonlinear (gType g)) eqn:E.
    + assert (Hj : j + w <= n) by (clear - Hn; nia).
      destruct (qslice Q0 Hj) as (A0 & B0 & C0 & D0). destruct (qslice Q1 Hj) as (A1 & B1 & C1 & D1).
      destruct (IH (upd mem0 (gOut g) (gres false w q0 g mem0 j (gmsg true w q1 g mem1 j)))
                   (upd mem1 (gOut g) (gres true w q1 g mem1 j (gmsg false w q0 g mem0 j))) (j + w))
        as (m0 & m1 & E1 & H0 & H1 & H2); auto.
      { apply mem_upd; auto. apply mult_recv_len; auto. apply mult_send_len; auto. }
      { apply mem_upd; auto. apply mult_recv_len; auto. apply mult_send_len; auto. }
      { clear - Hn. nia. }
      exists m0, m1. repeat split; auto; try apply H0; try apply H1.
      intros c k Hc Hk i. rewrite H2 by auto. unfold eval at 2. simpl. apply eval_ext.
      intros i'. rewrite (shared_upd _ _ _ _ _ M0 M1 G2). unfold step. unfold put.
      destruct (i' =? gOut g); auto.
      apply gate_lane; auto; rewrite !nth_slice by auto; apply QR.
    + destruct (IH (lin_step false mem0 g) (lin_step true mem1 g) j) as (m0 & m1 & E1 & H0 & H1 & H2); auto.
      { unfold lin_step. rewrite E. apply mem_upd; auto. apply lin_out_len; auto. }
      { unfold lin_step. rewrite E. apply mem_upd; auto. apply lin_out_len; auto. }
      exists m0, m1. repeat split; auto; try apply H0; try apply H1.
      intros c k Hc Hk i. rewrite H2 by auto. unfold eval at 2. simpl. apply eval_ext.
      intros i'. unfold lin_step. rewrite E. rewrite (shared_upd _ _ _ _ _ M0 M1 G2). unfold step, put.
      destruct (i' =? gOut g); auto.
      apply (@lin_lane _ _ _ _ _ w); auto.
Qed.

(* ---------------- buffers ---------------- *)

Lemma batch_pos : 0 < batch_size.
Proof. unfold batch_size. apply Nat.neq_0_lt_0, Nat.pow_nonzero. discriminate. Qed.
Lemma batch_val : batch_size = 2 ^ 14.
Proof. reflexivity. Qed.
Global Opaque batch_size.

Lemma round_up_mul y r : 0 < y -> round_up (y * r) y = y * r.
Proof.
  intros H. unfold round_up.
  replace (y * r + y - 1) with ((y - 1) + r * y) by lia.
  rewrite Nat.div_add by lia. rewrite Nat.div_small by lia. lia.
Qed.
Lemma round_up_ge x y : 0 < y -> x <= round_up x y.
Proof.
  intros H. unfold round_up. pose proof (Nat.div_mod (x + y - 1) y). 
  pose proof (Nat.mod_upper_bound (x + y - 1) y). nia.
Qed.
Lemma round_up_le x y r : 0 < y -> x <= y * r -> round_up x y <= y * r.
Proof.
  intros H Hx. rewrite <- (@round_up_mul y r) by auto. unfold round_up.
  apply Nat.mul_le_mono_r. apply Nat.div_le_mono; lia.
Qed.
Lemma round_up_mult x y : exists r, round_up x y = y * r.
Proof. unfold round_up. exists ((x + y - 1) / y). lia. Qed.

Lemma round_up_min B y r : 0 < y -> round_up (Nat.min B (y * r)) y = Nat.min (round_up B y) (y * r).
Proof.
  intros H. pose proof (@round_up_ge B y H). destruct (Nat.le_ge_cases B (y * r)) as [L|L].
  - rewrite Nat.min_l by auto. pose proof (@round_up_le B y r H L). lia.
  - rewrite !Nat.min_r by lia. apply round_up_mul. auto.
Qed.

(* chunk sizes with enough fuel *)
Definition chunks (M n : nat) : list nat := chunk_sizes (S n) M n.

Lemma chunk_fuel M : 0 < M -> forall f f' n, n < f -> n < f' -> chunk_sizes f M n = chunk_sizes f' M n.
Proof.
  intros HM. induction f as [|f IH]; intros [|f'] n H H'; try lia. cbn [chunk_sizes].
  destruct (Nat.eqb_spec n 0); auto. f_equal. apply IH; lia.
Qed.
Lemma chunks_0 M : chunks M 0 = [].
Proof. reflexivity. Qed.
Lemma chunks_S M n : 0 < M -> 0 < n -> chunks M n = Nat.min M n :: chunks M (n - Nat.min M n).
Proof.
  intros HM Hn. unfold chunks. cbn [chunk_sizes]. destruct (Nat.eqb_spec n 0); [lia|].
  f_equal. change (if n - Nat.min M n =? 0 then [] else _) with (chunk_sizes (S (n - Nat.min M n)) M (n - Nat.min M n)).
  apply chunk_fuel; lia.
Qed.

Definition maxmsg (w : nat) : nat := round_up batch_size (2 * w).
Lemma maxmsg_pos w : 0 < w -> 0 < maxmsg w.
Proof. intros H. unfold maxmsg. pose proof batch_pos. pose proof (@round_up_ge batch_size (2 * w)). lia. Qed.

(* the buffer state in the send loop, K nonlinear gates to go *)
Definition buf_inv (w K cap rem : nat) (acc : list N) : Prop :=
  (cap = 0 /\ acc = [] /\ rem = 2 * w * K) \/
  (exists t T, cap = 2 * w * T /\ length acc = 2 * w * t /\ t < T /\ rem + cap = 2 * w * K + length acc).

Lemma send_alloc_ok w K s : 0 < w -> buf_inv w (S K) (sCap s) (sRem s) (sAcc s) ->
  exists cap rem acc t T, send_alloc w s = Ok (SSt (sMem s) (sJ s) cap acc rem (sMsgs s)) /\
    cap = 2 * w * T /\ length acc = 2 * w * t /\ t < T /\ rem + cap = 2 * w * S K + length acc /\
    acc = sAcc s /\
    cap :: chunks (maxmsg w) rem = (if sCap s =? 0 then [] else [sCap s]) ++ chunks (maxmsg w) (sRem s).
Proof.
  intros Hw [(H1 & H2 & H3)|(t & T & H1 & H2 & H3 & H4)]; unfold send_alloc.
  - rewrite H1. cbn [Nat.eqb andb]. destruct (Nat.eqb_spec (sRem s) 0) as [E|E]; [nia|]. cbn [negb].
    destruct (Nat.eqb_spec w 0); [lia|].
    rewrite H3, round_up_min by lia. fold (maxmsg w).
    pose proof (maxmsg_pos Hw) as Hp.
    destruct (Nat.ltb_spec (2 * w * S K) (Nat.min (maxmsg w) (2 * w * S K))); [lia|].
    destruct (round_up_mult batch_size (2 * w)) as [r Hr]. fold (maxmsg w) in Hr.
    exists (Nat.min (maxmsg w) (2 * w * S K)). do 2 eexists. exists 0, (Nat.min r (S K)).
    split; [reflexivity|].
    rewrite <- Nat.mul_min_distr_l, <- Hr. split; [reflexivity|]. split; [simpl; lia|].
    split; [|split; [simpl length; lia|split; [auto|]]].
    + destruct r; [|lia]. lia.
    + cbn [Nat.eqb app]. rewrite (@chunks_S (maxmsg w) (2 * w * S K) Hp) by lia. reflexivity.
  - destruct (Nat.eqb_spec (sCap s) 0) as [E|E]; [nia|]. cbn [andb].
    exists (sCap s), (sRem s), (sAcc s), t, T. split; [destruct s; reflexivity|]. repeat split; auto.
Qed.

Lemma send_gates_ok role wires w n q : 0 < w -> qlen n q ->
  forall gs mem j cap acc rem msgs, mem_ok wires w mem -> gates_ok wires gs ->
  j + w * count_nonlinear gs <= n -> buf_inv w (count_nonlinear gs) cap rem acc ->
  exists msgs', send_gates role w q gs (SSt mem j cap acc rem msgs) =
      Ok (SSt (lin_run role gs mem) (j + w * count_nonlinear gs) 0 [] 0 (msgs ++ msgs')) /\
    concat msgs' = acc ++ concat (msgs_of role w q gs mem j) /\
    map (@length N) msgs' = (if cap =? 0 then [] else [cap]) ++ chunks (maxmsg w) rem.
Proof.
  intros Hw Hq. induction gs as [|g gs IH]; intros mem j cap acc rem msgs HM Hg Hn HB.
  - exists []. destruct HB as [(-> & -> & E)|(t & T & H1 & H2 & H3 & H4)].
    + unfold count_nonlinear in *. simpl in *. rewrite Nat.mul_0_r in E. subst rem. rewrite Nat.mul_0_r, Nat.add_0_r, app_nil_r. auto.
    + exfalso. unfold count_nonlinear in H4. simpl in H4. nia.
  - destruct (Hg g (or_introl eq_refl)) as (G0 & G1 & G2 & G3).
    assert (Hgs : gates_ok wires gs) by (intros h Hh; apply Hg; right; auto).
    pose proof (mem_row HM G0) as R0. pose proof (mem_row HM G1) as R1.
    destruct HM as [HL HF]. assert (HM : mem_ok wires w mem) by (split; auto).
    cbn [send_gates]. unfold send_gate. cbn [sMem].
    rewrite !(getn []) by lia. cbn [bind]. rewrite count_cons in *.
    destruct (nonlinear (gType g)) eqn:E.
    + set (K := count_nonlinear gs) in *. cbn [Nat.add] in HB.
      destruct (@send_alloc_ok w K (SSt mem j cap acc rem msgs) Hw HB)
        as (cap1 & rem1 & acc1 & t & T & EA & H1 & H2 & H3 & H4 & H5 & H6).
      cbn [sMem sJ sCap sAcc sRem sMsgs] in *. subst acc1.
      assert (Hj : j + w <= n) by (clear - Hn; nia).
      destruct (qslice Hq Hj) as (QA & QB & QC & QD).
      assert (Em : length (gmsg role w q g mem j) = 2 * w) by (apply mult_send_len; auto).
      destruct Hq as (LA & LB & LC & LD).
      assert (HH : forall s, (do s <- send_alloc w (SSt mem j cap acc rem msgs);
         do a <- readN (qA q) (sJ s) w; do c <- readN (qC q) (sJ s) w;
         if sCap s <? length (sAcc s ++ mult_send role (gType g) a c (row mem (gIn0 g)) (row mem (gIn1 g))) then UB
         else if length (sAcc s ++ mult_send role (gType g) a c (row mem (gIn0 g)) (row mem (gIn1 g))) =? sCap s
         then Ok (SSt (sMem s) (sJ s + w) 0 [] (sRem s) (sMsgs s ++ [sAcc s ++ mult_send role (gType g) a c (row mem (gIn0 g)) (row mem (gIn1 g))]))
         else Ok (SSt (sMem s) (sJ s + w) (sCap s) (sAcc s ++ mult_send role (gType g) a c (row mem (gIn0 g)) (row mem (gIn1 g))) (sRem s) (sMsgs s))) = s ->
         (if S t =? T then Ok (SSt mem (j + w) 0 [] rem1 (msgs ++ [acc ++ gmsg role w q g mem j]))
          else Ok (SSt mem (j + w) cap1 (acc ++ gmsg role w q g mem j) rem1 msgs)) = s).
      { intros s <-. rewrite EA. cbn [bind sJ sMem sCap sAcc sRem sMsgs].
        rewrite !readN_ok by lia. cbn [bind]. fold (gmsg role w q g mem j).
        rewrite app_length, Em, H2, H1.
        destruct (Nat.ltb_spec (2 * w * T) (2 * w * t + 2 * w)); [nia|].
        destruct (Nat.eqb_spec (S t) T), (Nat.eqb_spec (2 * w * t + 2 * w) (2 * w * T)); try nia; reflexivity. }
      match goal with |- context [bind ?X _] => assert (EX : X = if S t =? T
          then Ok (SSt mem (j + w) 0 [] rem1 (msgs ++ [acc ++ gmsg role w q g mem j]))
          else Ok (SSt mem (j + w) cap1 (acc ++ gmsg role w q g mem j) rem1 msgs)) end.
      { symmetry. destruct (gType g) eqn:ET; try discriminate; apply HH; reflexivity. }
      rewrite EX. clear EX HH.
      cbn [msgs_of]. rewrite E. unfold lin_run at 1. simpl fold_left. unfold lin_step at 2. rewrite E.
      fold (lin_run role gs mem).
      destruct (Nat.eqb_spec (S t) T) as [ET|ET]; cbn [bind].
      * destruct (IH mem (j + w) 0 [] rem1 (msgs ++ [acc ++ gmsg role w q g mem j])) as (ms' & E1 & E2 & E3); auto.
        { fold K. clear - Hn. nia. }
        { left. repeat split. fold K. nia. }
        exists ((acc ++ gmsg role w q g mem j) :: ms'). split; [|split].
        -- rewrite E1. do 2 f_equal; [fold K; lia|]. rewrite <- app_assoc. reflexivity.
        -- simpl. rewrite E2. simpl. rewrite <- app_assoc. reflexivity.
        -- cbn [map]. rewrite E3, <- H6. simpl. rewrite app_length, Em. f_equal. nia.
      * destruct (IH mem (j + w) cap1 (acc ++ gmsg role w q g mem j) rem1 msgs) as (ms' & E1 & E2 & E3); auto.
        { fold K. clear - Hn. nia. }
        { right. exists (S t), T. rewrite app_length, Em. fold K. repeat split; nia. }
        exists ms'. split; [|split].
        -- rewrite E1. do 2 f_equal. fold K. lia.
        -- rewrite E2, <- app_assoc. reflexivity.
        -- rewrite E3, <- H6. destruct (Nat.eqb_spec cap1 0); [nia|]. reflexivity.
    + assert (Hs : (match gType g with
        | GCopy => do mem' <- set mem (gOut g) (row mem (gIn0 g)); Ok (SSt mem' j cap acc rem msgs)
        | GXor => do mem' <- set mem (gOut g) (map2 N.lxor (row mem (gIn0 g)) (row mem (gIn1 g))); Ok (SSt mem' j cap acc rem msgs)
        | _ => do mem' <- set mem (gOut g) (lin_out role (gType g) (row mem (gIn0 g)) (row mem (gIn1 g))); Ok (SSt mem' j cap acc rem msgs)
        end) = Ok (SSt (lin_step role mem g) j cap acc rem msgs)).
      { unfold lin_step. rewrite E. rewrite !set_lt by lia. cbn [bind].
        destruct (gType g); try discriminate; try congruence; reflexivity. }
      match goal with |- context [bind ?X _] => assert (EX : X = Ok (SSt (lin_step role mem g) j cap acc rem msgs)) end.
      { rewrite <- Hs. destruct (gType g); try discriminate; try congruence; reflexivity. }
      rewrite EX. cbn [bind]. clear EX Hs.
      destruct (IH (lin_step role mem g) j cap acc rem msgs) as (ms' & E1 & E2 & E3); auto.
      { unfold lin_step. rewrite E. apply mem_upd; auto. apply lin_out_len; auto. }
      exists ms'. split; [exact E1|]. cbn [msgs_of]. rewrite E. auto.
Qed.

Lemma concat_len_const A n : forall ms : list (list A), Forall (fun m => length m = n) ms -> length (concat ms) = n * length ms.
Proof. induction 1 as [|m ms H HF IH]; simpl; [lia|]. rewrite app_length, IH. lia. Qed.

Lemma recv_fill_ok w mem j buf rem msgs K : 0 < w ->
  length buf + rem = 2 * w * S K -> (exists t, length buf = 2 * w * t) -> rem = length (concat msgs) ->
  map (@length N) msgs = chunks (maxmsg w) rem ->
  exists buf' rem' msgs', recv_fill w (RSt mem j buf rem msgs) = Ok (RSt mem j buf' rem' msgs') /\
    buf' ++ concat msgs' = buf ++ concat msgs /\ (exists t, length buf' = 2 * w * S t) /\
    rem' = length (concat msgs') /\ map (@length N) msgs' = chunks (maxmsg w) rem'.
Proof.
  intros Hw Hl [t Ht] Hr Hc. unfold recv_fill. cbn [rBuf rRem rMsgs rMem rJ].
  destruct buf as [|b0 buf].
  - cbn [length Nat.add] in Hl. destruct (Nat.eqb_spec w 0); [lia|].
    pose proof (maxmsg_pos Hw) as Hp.
    rewrite Hl, round_up_min by lia. fold (maxmsg w).
    destruct (Nat.ltb_spec (2 * w * S K) (Nat.min (maxmsg w) (2 * w * S K))); [lia|].
    rewrite (@chunks_S _ rem Hp) in Hc by lia. rewrite Hl in *.
    destruct msgs as [|m msgs]; [discriminate|]. cbn [map] in Hc.
    assert (Hm : length m = Nat.min (maxmsg w) (2 * w * S K)) by congruence.
    assert (Hms : map (@length N) msgs = chunks (maxmsg w) (2 * w * S K - Nat.min (maxmsg w) (2 * w * S K))) by congruence.
    rewrite recv_n_ok by auto. cbn [bind].
    exists m. do 2 eexists. split; [reflexivity|]. split; [reflexivity|].
    simpl concat in Hr. rewrite app_length in Hr.
    split; [|split; [lia|auto]].
    destruct (round_up_mult batch_size (2 * w)) as [r Hrr]. fold (maxmsg w) in Hrr.
    rewrite Hrr, Nat.mul_min_distr_l in Hm.
    destruct r; [lia|]. exists (Nat.min r K). rewrite Hm. simpl Nat.min. reflexivity.
  - do 3 eexists. split; [reflexivity|]. split; [reflexivity|]. split; [|auto].
    destruct t; [simpl in Ht; lia|]. eauto.
Qed.

Lemma recv_gates_ok role wires w n q : 0 < w -> qlen n q ->
  forall gs mem j buf rem msgs ms, mem_ok wires w mem -> gates_ok wires gs ->
  j + w * count_nonlinear gs <= n ->
  length ms = count_nonlinear gs -> Forall (fun m => length m = 2 * w) ms ->
  buf ++ concat msgs = concat ms -> (exists t, length buf = 2 * w * t) ->
  rem = length (concat msgs) -> map (@length N) msgs = chunks (maxmsg w) rem ->
  recv_gates role w q gs (RSt mem j buf rem msgs) =
    Ok (RSt (nl_run role w q gs mem j ms) (j + w * count_nonlinear gs) [] 0 []).
Proof.
  intros Hw Hq. induction gs as [|g gs IH]; intros mem j buf rem msgs ms HM Hg Hn Lm Fm Hb Ht Hr Hc.
  - destruct ms; [|discriminate]. simpl in Hb. apply app_eq_nil in Hb. destruct Hb as [-> Hb].
    rewrite Hb in Hr. simpl in Hr. subst rem. rewrite chunks_0 in Hc. destruct msgs; [|discriminate].
    simpl. unfold count_nonlinear. simpl. rewrite Nat.mul_0_r, Nat.add_0_r. reflexivity.
  - destruct (Hg g (or_introl eq_refl)) as (G0 & G1 & G2 & G3).
    assert (Hgs : gates_ok wires gs) by (intros h Hh; apply Hg; right; auto).
    pose proof (mem_row HM G0) as R0. pose proof (mem_row HM G1) as R1.
    assert (HL : length mem = wires) by apply HM.
    cbn [recv_gates nl_run]. unfold recv_gate. rewrite count_cons in *.
    destruct (nonlinear (gType g)) eqn:E; [|cbn [bind]; apply IH; auto].
    set (K := count_nonlinear gs) in *. cbn [Nat.add] in Lm.
    assert (Hlen : length buf + rem = 2 * w * S K).
    { rewrite Hr, <- app_length, Hb, (concat_len_const Fm), Lm. reflexivity. }
    destruct (@recv_fill_ok w mem j buf rem msgs K Hw Hlen Ht Hr Hc) as (buf' & rem' & msgs' & EF & F1 & [t F2] & F3 & F4).
    rewrite EF. cbn [bind rMem rJ rBuf rRem rMsgs].
    rewrite !(getn []) by lia. cbn [bind].
    assert (Hj : j + w <= n) by (clear - Hn; nia).
    destruct (qslice Hq Hj) as (QA & QB & QC & QD). destruct (Hq) as (LA & LB & LC & LD).
    rewrite !readN_ok by nia. cbn [bind].
    rewrite set_lt by lia. cbn [bind].
    destruct ms as [|m ms]; [discriminate|].
    pose proof (Forall_inv Fm) as Hm. pose proof (Forall_inv_tail Fm) as Fm'. cbv beta in Hm.
    rewrite Hb in F1. simpl concat in F1.
    assert (Es : slice buf' 0 (2 * w) = m).
    { unfold slice. simpl skipn. apply (f_equal (firstn (2 * w))) in F1.
      rewrite (firstn_app_len _ Hm) in F1. rewrite <- F1. rewrite firstn_app.
      replace (2 * w - length buf') with 0 by (clear - F2; nia). rewrite firstn_O, app_nil_r. reflexivity. }
    assert (Es2 : skipn (2 * w) buf' ++ concat msgs' = concat ms).
    { apply (f_equal (skipn (2 * w))) in F1. rewrite (skipn_app_len _ Hm) in F1. rewrite <- F1.
      rewrite skipn_app. replace (2 * w - length buf') with 0 by (clear - F2; nia). reflexivity. }
    rewrite Es. cbn [hd tl].
    rewrite IH with (ms := ms); auto.
    + do 2 f_equal. fold K. lia.
    + apply mem_upd; auto. apply mult_recv_len; auto.
    + fold K. clear - Hn. nia.
    + exists t. rewrite skipn_length, F2. nia.
Qed.

Lemma msgs_of_len role wires w n q : qlen n q ->
  forall gs mem j, mem_ok wires w mem -> gates_ok wires gs -> j + w * count_nonlinear gs <= n ->
  length (msgs_of role w q gs mem j) = count_nonlinear gs /\
  Forall (fun m => length m = 2 * w) (msgs_of role w q gs mem j).
Proof.
  intros Hq. induction gs as [|g gs IH]; intros mem j HM Hg Hn; [split; [reflexivity|constructor]|].
  destruct (Hg g (or_introl eq_refl)) as (G0 & G1 & G2 & G3).
  assert (Hgs : gates_ok wires gs) by (intros h Hh; apply Hg; right; auto).
  pose proof (mem_row HM G0) as R0. pose proof (mem_row HM G1) as R1.
  cbn [msgs_of]. rewrite count_cons in *. destruct (nonlinear (gType g)) eqn:E.
  - assert (Hj : j + w <= n) by (clear - Hn; nia).
    destruct (qslice Hq Hj) as (QA & QB & QC & QD).
    destruct (IH mem (j + w)) as [L F]; auto; [clear - Hn; nia|].
    split; [simpl; lia|]. constructor; auto. apply mult_send_len; auto.
  - apply IH; auto. unfold lin_step. rewrite E. apply mem_upd; auto. apply lin_out_len; auto.
Qed.

Lemma lin_run_mem role wires w : forall gs mem, mem_ok wires w mem -> gates_ok wires gs ->
  mem_ok wires w (lin_run role gs mem).
Proof.
  unfold lin_run. induction gs as [|g gs IH]; intros mem HM Hg; simpl; auto.
  destruct (Hg g (or_introl eq_refl)) as (G0 & G1 & G2 & G3).
  apply IH; [|intros h Hh; apply Hg; right; auto].
  unfold lin_step. destruct (nonlinear (gType g)); auto.
  apply mem_upd; auto. apply lin_out_len; eapply mem_row; eauto.
Qed.

Lemma round2_ok wires w lv mem0 mem1 c0 c1 s0 s1 : 0 < w -> level_ok wires lv ->
  mem_ok wires w mem0 -> mem_ok wires w mem1 ->
  Forall2 ole_pos c0 c1 -> ole_segs s0 s1 ->
  Nat.even (length c0) = true -> even_segs s0 ->
  2 * w * snd lv <= length c0 + length (concat s0) ->
  exists m0 m1 c0' c1' s0' s1' t0 t1,
    round2 w lv (mem0, c0, s0) (mem1, c1, s1) = Ok ((m0, c0', s0'), (m1, c1', s1'), (t0, t1)) /\
    mem_ok wires w m0 /\ mem_ok wires w m1 /\
    (forall c k, c < w -> (k < 128)%N -> forall i, shared m0 m1 c k i = eval (fst lv) (shared mem0 mem1 c k) i) /\
    Forall2 ole_pos c0' c1' /\ ole_segs s0' s1' /\ Nat.even (length c0') = true /\ even_segs s0' /\
    length c0' + length (concat s0') + 2 * w * snd lv = length c0 + length (concat s0) /\
    map (@length N) t0 = chunks (maxmsg w) (2 * w * snd lv) /\
    map (@length N) t1 = chunks (maxmsg w) (2 * w * snd lv).
Proof.
  intros Hw (Hlev & Hcnt & Hg) M0 M1 HC HS He Hes Hn. fold (gates_ok wires (fst lv)) in Hg.
  destruct (@load_ok false s0 (w * snd lv) c0 He Hes) as (q0 & c0' & s0' & E0 & Q0 & He' & Hes' & Hlen & _); [lia|].
  destruct (@load_rel _ _ HS _ _ _ _ _ _ HC E0) as (q1 & c1' & s1' & E1 & QR & HC' & HS').
  assert (Q1 : qlen (w * snd lv) q1).
  { assert (He1 : Nat.even (length c1) = true) by (rewrite <- (Forall2_len HC); auto).
    assert (Hes1 : even_segs s1).
    { clear - HS Hes. induction HS; auto. inversion Hes; subst. constructor; [|apply IHHS; auto].
      rewrite <- (Forall2_len H). auto. }
    assert (Hl1 : length (concat s1) = length (concat s0)).
    { clear - HS. induction HS; auto. simpl. rewrite !app_length, (Forall2_len H). lia. }
    destruct (@load_ok true s1 (w * snd lv) c1 He1 Hes1) as (q & cc & ss & E & Q & _).
    { rewrite Hl1, <- (Forall2_len HC). lia. }
    rewrite E in E1. assert (q = q1) by congruence. subst. exact Q. }
  unfold round2, round_send. rewrite E0, E1. cbn [bind].
  assert (HN : 0 + w * count_nonlinear (fst lv) <= w * snd lv) by (rewrite Hcnt; lia).
  assert (HB : buf_inv w (count_nonlinear (fst lv)) 0 (w * snd lv * 2) []) by (left; repeat split; rewrite Hcnt; lia).
  destruct (@send_gates_ok false wires w _ q0 Hw Q0 _ mem0 0 0 [] (w * snd lv * 2) [] M0 Hg HN HB) as (t0 & S0 & T0 & L0).
  destruct (@send_gates_ok true wires w _ q1 Hw Q1 _ mem1 0 0 [] (w * snd lv * 2) [] M1 Hg HN HB) as (t1 & S1 & T1 & L1).
  rewrite S0, S1. cbn [bind sRem sCap sMem sMsgs Nat.eqb andb app].
  unfold round_recv.
  destruct (@msgs_of_len false wires w _ q0 Q0 (fst lv) mem0 0 M0 Hg HN) as [ML0 MF0].
  destruct (@msgs_of_len true wires w _ q1 Q1 (fst lv) mem1 0 M1 Hg HN) as [ML1 MF1].
  cbn [Nat.eqb app] in T0, T1, L0, L1.
  assert (R0 : w * snd lv * 2 = length (concat t1)) by (rewrite T1, (concat_len_const MF1), ML1, Hcnt; lia).
  assert (R1 : w * snd lv * 2 = length (concat t0)) by (rewrite T0, (concat_len_const MF0), ML0, Hcnt; lia).
  rewrite (@recv_gates_ok false wires w _ q0 Hw Q0 (fst lv) _ 0 [] _ t1 (msgs_of true w q1 (fst lv) mem1 0));
    auto using lin_run_mem; [|exists 0; simpl; lia].
  cbn [bind rRem rMsgs rMem Nat.eqb].
  rewrite (@recv_gates_ok true wires w _ q1 Hw Q1 (fst lv) _ 0 [] _ t0 (msgs_of false w q0 (fst lv) mem0 0));
    auto using lin_run_mem; [|exists 0; simpl; lia].
  cbn [bind rRem rMsgs rMem Nat.eqb].
  pose proof (@proto_seq w q0 q1 (fst lv) mem0 mem1 0 Hlev) as PS.
  destruct (@seq_run_ok wires w _ q0 q1 Q0 Q1 QR (fst lv) mem0 mem1 0 M0 M1 Hg HN) as (m0 & m1 & ES & K0 & K1 & K2).
  rewrite ES in PS.
  replace m0 with (nl_run false w q0 (fst lv) (lin_run false (fst lv) mem0) 0 (msgs_of true w q1 (fst lv) mem1 0)) in * by congruence.
  replace m1 with (nl_run true w q1 (fst lv) (lin_run true (fst lv) mem1) 0 (msgs_of false w q0 (fst lv) mem0 0)) in * by congruence.
  do 8 eexists. split; [reflexivity|].
  replace (2 * w * snd lv) with (w * snd lv * 2) by lia.
  split; [exact K0|]. split; [exact K1|]. split; [exact K2|].
  split; [exact HC'|]. split; [exact HS'|]. split; [exact He'|]. split; [exact Hes'|].
  split; [lia|]. auto.
Qed.

Lemma demand_cons w lv lvs : demand w (lv :: lvs) = 2 * w * count_nonlinear (fst lv) + demand w lvs.
Proof. reflexivity. Qed.

Lemma eval_app gs hs e : eval (gs ++ hs) e = eval hs (eval gs e).
Proof. apply fold_left_app. Qed.

Lemma rounds2_ok wires w : 0 < w -> forall lvs mem0 mem1 c0 c1 s0 s1,
  Forall (level_ok wires) lvs -> mem_ok wires w mem0 -> mem_ok wires w mem1 ->
  Forall2 ole_pos c0 c1 -> ole_segs s0 s1 ->
  Nat.even (length c0) = true -> even_segs s0 ->
  demand w lvs <= length c0 + length (concat s0) ->
  exists m0 m1 c0' c1' s0' s1' tr,
    rounds2 w lvs (mem0, c0, s0) (mem1, c1, s1) = Ok ((m0, c0', s0'), (m1, c1', s1'), tr) /\
    mem_ok wires w m0 /\ mem_ok wires w m1 /\
    (forall c k, c < w -> (k < 128)%N -> forall i,
       shared m0 m1 c k i = eval (concat (map fst lvs)) (shared mem0 mem1 c k) i) /\
    length c0' + length (concat s0') + demand w lvs = length c0 + length (concat s0) /\
    Forall2 (fun lv t => map (@length N) (fst t) = chunks (maxmsg w) (2 * w * count_nonlinear (fst lv)) /\
                         map (@length N) (snd t) = chunks (maxmsg w) (2 * w * count_nonlinear (fst lv))) lvs tr.
Proof.
  intros Hw. induction lvs as [|lv lvs IH]; intros mem0 mem1 c0 c1 s0 s1 HL M0 M1 HC HS He Hes Hd.
  - do 7 eexists. split; [reflexivity|]. simpl. repeat split; auto; try apply M0; try apply M1.
  - inversion HL as [|? ? H1 H2]; subst. rewrite demand_cons in Hd.
    assert (Hc : snd lv = count_nonlinear (fst lv)) by apply H1.
    destruct (@round2_ok wires w lv mem0 mem1 c0 c1 s0 s1 Hw H1 M0 M1 HC HS He Hes)
      as (m0 & m1 & c0' & c1' & s0' & s1' & t0 & t1 & E & K0 & K1 & K2 & HC' & HS' & He' & Hes' & Hl & L0 & L1).
    { rewrite Hc. lia. }
    destruct (IH m0 m1 c0' c1' s0' s1') as (n0 & n1 & d0 & d1 & r0 & r1 & tr & E' & N0 & N1 & N2 & N3 & N4); auto.
    { rewrite Hc in Hl. lia. }
    cbn [rounds2]. rewrite E. cbn [bind]. rewrite E'. cbn [bind].
    do 7 eexists. split; [reflexivity|]. split; [auto|]. split; [auto|]. split.
    { intros c k Hcw Hk i. rewrite N2 by auto. simpl. rewrite eval_app. apply eval_ext. intros; apply K2; auto. }
    split. { rewrite demand_cons. rewrite Hc in Hl. lia. }
    constructor; auto. rewrite <- Hc. auto.
Qed.

Lemma gmw_run_ok wires w lvs mem0 mem1 s0 s1 : 0 < w ->
  Forall (level_ok wires) lvs -> concat (map fst lvs) <> [] -> mem_ok wires w mem0 -> mem_ok wires w mem1 ->
  ole_segs s0 s1 -> even_segs s0 -> demand w lvs <= length (concat s0) ->
  exists m0 m1 c0' c1' s0' s1' tr,
    gmw_run w lvs mem0 mem1 s0 s1 = Ok ((m0, c0', s0'), (m1, c1', s1'), tr) /\
    mem_ok wires w m0 /\ mem_ok wires w m1 /\
    (forall c k, c < w -> (k < 128)%N -> forall i,
       shared m0 m1 c k i = eval (concat (map fst lvs)) (shared mem0 mem1 c k) i) /\
    length c0' + length (concat s0') + demand w lvs = length (concat s0) /\
    Forall2 (fun lv t => map (@length N) (fst t) = chunks (maxmsg w) (2 * w * count_nonlinear (fst lv)) /\
                         map (@length N) (snd t) = chunks (maxmsg w) (2 * w * count_nonlinear (fst lv))) lvs tr.
Proof.
  intros Hw HL Hne M0 M1 HS Hes Hd. unfold gmw_run.
  destruct (Nat.eqb_spec (length (concat (map fst lvs))) 0) as [E|_]; [apply length_zero_iff_nil in E; contradiction|].
  apply (@rounds2_ok wires w Hw lvs mem0 mem1 [] [] s0 s1); auto.
Qed.

(* ---------------- statements for the properties ---------------- *)

Lemma chunks_sum M : 0 < M -> forall f n, n < f -> fold_right Nat.add 0 (chunk_sizes f M n) = n.
Proof.
  intros HM. induction f as [|f IH]; intros n H; [lia|]. cbn [chunk_sizes].
  destruct (Nat.eqb_spec n 0); [auto|]. cbn [fold_right]. rewrite IH by lia. lia.
Qed.

Lemma maxmsg_spec w : 0 < w -> (exists k, maxmsg w = 2 * w * k) /\ 2 ^ 14 <= maxmsg w < 2 ^ 14 + 2 * w.
Proof.
  intros Hw. unfold maxmsg. split; [destruct (round_up_mult batch_size (2 * w)) as [r ->]; eauto|].
  rewrite batch_val. generalize (2 ^ 14). intros B. split; [apply round_up_ge; lia|].
  unfold round_up. pose proof (Nat.div_mod (B + 2 * w - 1) (2 * w)).
  pose proof (Nat.mod_upper_bound (B + 2 * w - 1) (2 * w)). nia.
Qed.

(* in a round, the i-th nonlinear gate is masked with the i-th group of w triples *)
Lemma msgs_of_masks role w q : forall gs mem j,
  exists l : list (gate_type * list N * list N),
    map (fun p => fst (fst p)) l = map gType (filter (fun g => nonlinear (gType g)) gs) /\
    msgs_of role w q gs mem j =
      map (fun p => mult_send role (fst (fst (snd p))) (slice (qA q) (j + fst p * w) w) (slice (qC q) (j + fst p * w) w)
                     (snd (fst (snd p))) (snd (snd p))) (combine (seq 0 (length l)) l).
Proof.
  induction gs as [|g gs IH]; intros mem j.
  - exists []. auto.
  - cbn [msgs_of filter]. destruct (nonlinear (gType g)) eqn:E.
    + destruct (IH mem (j + w)) as (l & H1 & H2). exists ((gType g, row mem (gIn0 g), row mem (gIn1 g)) :: l).
      split; [simpl; rewrite H1; auto|]. rewrite H2. cbn [length seq combine map fst snd]. f_equal.
      * unfold gmsg. rewrite Nat.mul_0_l, Nat.add_0_r. reflexivity.
      * rewrite <- seq_shift. clear. generalize (seq 0 (length l)) as sq. intros sq. revert l.
        induction sq as [|a sq IH]; intros [|p l]; auto. cbn [map combine fst snd]. rewrite IH. f_equal.
        replace (j + S a * w) with (j + w + a * w) by lia. reflexivity.
    + apply (IH (lin_step role mem g) j).
Qed.

Lemma send_masks role wires w n q gs mem k : 0 < w -> qlen n q -> mem_ok wires w mem -> gates_ok wires gs ->
  k = count_nonlinear gs -> w * k <= n ->
  exists s l, send_gates role w q gs (SSt mem 0 0 [] (w * k * 2) []) = Ok s /\
    map (fun p => fst (fst p)) l = map gType (filter (fun g => nonlinear (gType g)) gs) /\
    concat (sMsgs s) =
      concat (map (fun p => mult_send role (fst (fst (snd p))) (slice (qA q) (fst p * w) w) (slice (qC q) (fst p * w) w)
                     (snd (fst (snd p))) (snd (snd p))) (combine (seq 0 k) l)).
Proof.
  intros Hw Hq HM Hg -> Hn.
  destruct (@send_gates_ok role wires w n q Hw Hq gs mem 0 0 [] (w * count_nonlinear gs * 2) [] HM Hg Hn) as (ms & E & C & _).
  { left. repeat split. lia. }
  destruct (msgs_of_masks role w q gs mem 0) as (l & H1 & H2).
  exists (SSt (lin_run role gs mem) (0 + w * count_nonlinear gs) 0 [] 0 ([] ++ ms)), l.
  split; [exact E|]. split; auto. cbn [sMsgs app]. rewrite C. cbn [app]. rewrite H2. f_equal.
  assert (L : length l = count_nonlinear gs).
  { apply (f_equal (@length _)) in H1. rewrite !map_length in H1. exact H1. }
  rewrite L. reflexivity.
Qed.

Lemma load_rounds_ok role : forall needs cur segs,
  Nat.even (length cur) = true -> even_segs segs ->
  2 * fold_right Nat.add 0 needs <= length cur + length (concat segs) ->
  exists qs cur' segs', load_rounds role needs cur segs = Ok (qs, cur', segs') /\
    Forall2 (fun n q => qlen n q) needs qs /\
    length cur' + length (concat segs') + 2 * fold_right Nat.add 0 needs = length cur + length (concat segs) /\
    Permutation (concat (map quad_triples qs) ++ cur' ++ concat segs') (cur ++ concat segs).
Proof.
  induction needs as [|n needs IH]; intros cur segs He Hes Hn.
  - exists [], cur, segs. simpl. repeat split; auto.
  - cbn [fold_right] in Hn.
    destruct (@load_ok role segs n cur He Hes) as (q & c & s & E & Q & He' & Hes' & HL & HP); [lia|].
    destruct (IH c s He' Hes') as (qs & c' & s' & E' & Q' & HL' & HP'); [lia|].
    exists (q :: qs), c', s'. cbn [load_rounds]. rewrite E. cbn [bind]. rewrite E'. cbn [bind].
    split; auto. split; [constructor; auto|]. split; [cbn [fold_right]; lia|].
    cbn [map concat]. rewrite <- app_assoc, HP'. exact HP.
Qed.

Lemma load_rounds_rel : forall needs s0 s1 c0 c1 qs0 c0' s0', ole_segs s0 s1 -> Forall2 ole_pos c0 c1 ->
  load_rounds false needs c0 s0 = Ok (qs0, c0', s0') ->
  exists qs1 c1' s1', load_rounds true needs c1 s1 = Ok (qs1, c1', s1') /\ Forall2 qrel qs0 qs1.
Proof.
  induction needs as [|n needs IH]; intros s0 s1 c0 c1 qs0 c0' s0' HS HC E; cbn [load_rounds] in *.
  - assert (qs0 = []) by congruence. subst. do 3 eexists. split; [reflexivity|constructor].
  - destruct (load false n c0 s0) as [[[q c] s]| | |] eqn:E0; try discriminate. cbn [bind] in E.
    destruct (@load_rel _ _ HS _ _ _ _ _ _ HC E0) as (q1 & c1' & s1' & E1 & QR & HC' & HS').
    destruct (load_rounds false needs c s) as [[[qs cc] ss]| | |] eqn:E2; try discriminate. cbn [bind] in E.
    destruct (IH _ _ _ _ _ _ _ HS' HC' E2) as (qs1 & c2 & s2 & E3 & F).
    rewrite E1. cbn [bind]. rewrite E3. cbn [bind]. do 3 eexists. split; [reflexivity|].
    assert (qs0 = q :: qs) by congruence. subst. constructor; auto.
Qed.

(* the run consumes exactly what iterated loading consumes *)
Lemma rounds2_loads w : forall lvs mem0 mem1 c0 c1 s0 s1 m0 m1 c0' c1' s0' s1' tr,
  rounds2 w lvs (mem0, c0, s0) (mem1, c1, s1) = Ok ((m0, c0', s0'), (m1, c1', s1'), tr) ->
  (exists qs, load_rounds false (map (fun lv => w * snd lv) lvs) c0 s0 = Ok (qs, c0', s0')) /\
  (exists qs, load_rounds true (map (fun lv => w * snd lv) lvs) c1 s1 = Ok (qs, c1', s1')).
Proof.
  induction lvs as [|lv lvs IH]; intros mem0 mem1 c0 c1 s0 s1 m0 m1 c0' c1' s0' s1' tr H; cbn [rounds2 map load_rounds] in *.
  - assert (c0 = c0' /\ s0 = s0' /\ c1 = c1' /\ s1 = s1') as (-> & -> & -> & ->) by (repeat split; congruence). split; eauto.
  - unfold round2, round_send in H.
    destruct (load false (w * snd lv) c0 s0) as [[[q0 d0] t0]| | |]; try discriminate. cbn [bind] in *.
    destruct (send_gates false _ _ _ _) as [ss0| | |]; try discriminate. cbn [bind] in *.
    destruct (_ && _); try discriminate. cbn [bind] in *.
    destruct (load true (w * snd lv) c1 s1) as [[[q1 d1] t1]| | |]; try discriminate. cbn [bind] in *.
    destruct (send_gates true _ _ _ _) as [ss1| | |]; try discriminate. cbn [bind] in *.
    destruct (_ && _); try discriminate. cbn [bind] in *.
    destruct (round_recv false _ _ _ _ _) as [r0| | |]; try discriminate. cbn [bind] in *.
    destruct (round_recv true _ _ _ _ _) as [r1| | |]; try discriminate. cbn [bind] in *.
    destruct (rounds2 w lvs _ _) as [[[[[a b] c] [[a' b'] c']] tr']| | |] eqn:E; try discriminate. cbn [bind] in *.
    assert (b = c0' /\ c = s0' /\ b' = c1' /\ c' = s1') as (-> & -> & -> & ->) by (repeat split; congruence).
    destruct (IH _ _ _ _ _ _ _ _ _ _ _ _ _ E) as [[qs0 E0] [qs1 E1]]. rewrite E0, E1. cbn [bind]. split; eauto.
Qed.

Lemma Forall2_imp A B (P Q : A -> B -> Prop) : (forall a b, P a b -> Q a b) -> forall l m, Forall2 P l m -> Forall2 Q l m.
Proof. intros H l m F. induction F; constructor; auto. Qed.

(* a decision procedure for level_ok, used by the examples *)
Definition readsb (g : gate) (i : nat) : bool :=
  (i =? gIn0 g) || (match gType g with GCopy => false | _ => true end && (i =? gIn1 g)).
Lemma readsb_ok g i : readsb g i = false -> ~ reads g i.
Proof.
  unfold readsb, reads. intros H. apply orb_false_iff in H. destruct H as [H1 H2]. apply Nat.eqb_neq in H1.
  intros [E|[E1 E2]]; [contradiction|]. destruct (gType g); try congruence;
    (cbn [andb] in H2; apply Nat.eqb_neq in H2; contradiction).
Qed.
Fixpoint levelledb (gs : list gate) : bool :=
  match gs with
  | [] => true
  | g :: gs' => levelledb gs' &&
    (negb (nonlinear (gType g)) ||
     forallb (fun h => negb (readsb h (gOut g)) &&
       (nonlinear (gType h) || (negb (readsb g (gOut h)) && negb (gOut h =? gOut g)))) gs')
  end.
Lemma levelledb_ok gs : levelledb gs = true -> levelled gs.
Proof.
  induction gs as [|g gs IH]; cbn [levelledb]; intros H; constructor.
  - apply IH. apply andb_true_iff in H. tauto.
  - intros Hn h Hh. apply andb_true_iff in H. destruct H as [_ H]. rewrite Hn in H. cbn [negb orb] in H.
    rewrite forallb_forall in H. specialize (H h Hh). apply andb_true_iff in H. destruct H as [H1 H2].
    apply negb_true_iff in H1. split; [apply readsb_ok; auto|].
    intros Hl. rewrite Hl in H2. cbn [orb] in H2. apply andb_true_iff in H2. destruct H2 as [H2 H3].
    apply negb_true_iff in H2, H3. split; [apply readsb_ok; auto|apply Nat.eqb_neq; auto].
Qed.
Definition level_okb (wires : nat) (lv : level) : bool :=
  levelledb (fst lv) && (snd lv =? count_nonlinear (fst lv)) &&
  forallb (fun g => (gIn0 g <? wires) && (gIn1 g <? wires) && (gOut g <? wires) &&
    match gType g with GOther => false | _ => true end) (fst lv).
Lemma level_okb_ok wires lvs : forallb (level_okb wires) lvs = true -> Forall (level_ok wires) lvs.
Proof.
  intros H. apply Forall_forall. intros lv Hlv. rewrite forallb_forall in H. specialize (H lv Hlv).
  unfold level_okb in H. apply andb_true_iff in H. destruct H as [H H3]. apply andb_true_iff in H. destruct H as [H1 H2].
  split; [apply levelledb_ok; auto|]. split; [apply Nat.eqb_eq; auto|].
  intros g Hg. rewrite forallb_forall in H3. specialize (H3 g Hg).
  repeat (apply andb_true_iff in H3; destruct H3 as [H3 ?]).
  rewrite Nat.ltb_lt in *. repeat split; auto. intros E. rewrite E in *. discriminate.
Qed.
