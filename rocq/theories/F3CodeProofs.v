From Verif Require Import Base Words Mod3Model Mod3Spec Mod3Proofs PermSpec PermProofs F2CodeProofs F3CodeModel F3CodeSpec.

Lemma getn A (l : list A) i d : i < length l -> get l i = Ok (nth i l d).
Proof. intros H. apply get_Ok, nth_error_nth_lt. exact H. Qed.

(* ---------- three schedules in lockstep ---------- *)
(* the accumulate passes, shared shape *)
Definition passes S (step : nat -> nat -> S -> outcome S) (k : nat) (perms : list (list nat)) (s : S) : outcome S :=
  do s <- forN 1 (k - 1) (fun i s => step i (i - 1) s) s;
  do last <- perms_back perms;
  forN 0 (length perms - 1) (fun j s =>
    do P <- get perms j;
    forN 1 (k - 1) (fun i s => do pi <- get P i; do pi1 <- get P (i - 1); step pi pi1 s) s) s.

Definition perms_ok (k : nat) (perms : list (list nat)) : Prop :=
  perms <> [] /\ forall P, In P perms -> is_perm k P.

Lemma perms_back_ok k perms : perms_ok k perms -> exists P, perms_back perms = Ok P /\ is_perm k P.
Proof.
  intros [H1 H2]. unfold perms_back. destruct perms as [|P0 ps]; [congruence|].
  destruct (get_lt (l := P0 :: ps) (i := length (P0 :: ps) - 1)) as [P [E F]]; [cbn [length]; lia|].
  exists P. split; auto. apply H2. eapply nth_error_In, F.
Qed.

Lemma passes_sim S T (R : S -> T -> Prop) stepS stepT k perms :
  perms_ok k perms ->
  (forall d e s t, d < k -> e < k -> d <> e -> R s t ->
     exists s' t', stepS d e s = Ok s' /\ stepT d e t = Ok t' /\ R s' t') ->
  forall s t, R s t ->
  exists s' t', passes stepS k perms s = Ok s' /\ passes stepT k perms t = Ok t' /\ R s' t'.
Proof.
  intros HP Hstep s t HR. unfold passes.
  destruct (forN_sim (R := fun _ => R) (f := fun i s => stepS i (i - 1) s) (g := fun i t => stepT i (i - 1) t)
     (n := k - 1) (i := 1) (s := s) (t := t)) as (s1 & t1 & E1 & E2 & R1); auto.
  { intros i x y Hi Hxy. apply Hstep; auto; lia. }
  rewrite E1, E2. cbn [bind]. destruct (perms_back_ok HP) as [P [EP _]]. rewrite EP. cbn [bind].
  apply (forN_sim (R := fun _ => R)
    (f := fun j s => do P <- get perms j; forN 1 (k - 1) (fun i s => do pi <- get P i; do pi1 <- get P (i - 1); stepS pi pi1 s) s)
    (g := fun j s => do P <- get perms j; forN 1 (k - 1) (fun i s => do pi <- get P i; do pi1 <- get P (i - 1); stepT pi pi1 s) s)
    (n := length perms - 1) (i := 0)); auto.
  intros j x y Hj Hxy. destruct (get_lt (l := perms) (i := j)) as [Q [EQ FQ]]; [lia|]. rewrite EQ. cbn [bind].
  assert (HQ : is_perm k Q) by (apply HP; eapply nth_error_In, FQ).
  apply (forN_sim (R := fun _ => R)
    (f := fun i s => do pi <- get Q i; do pi1 <- get Q (i - 1); stepS pi pi1 s)
    (g := fun i s => do pi <- get Q i; do pi1 <- get Q (i - 1); stepT pi pi1 s) (n := k - 1) (i := 1)); auto.
  intros i x' y' Hi Hxy'. pose proof (is_perm_length HQ) as HL.
  destruct (get_lt (l := Q) (i := i)) as [a [Ea Fa]]; [lia|].
  destruct (get_lt (l := Q) (i := i - 1)) as [b [Eb Fb]]; [lia|].
  rewrite Ea, Eb. cbn [bind]. apply Hstep; auto.
  - apply (is_perm_lt HQ Fa).
  - apply (is_perm_lt HQ Fb).
  - intros ->. pose proof (NoDup_nth_error_inj (is_perm_NoDup HQ) Fa Fb). lia.
Qed.

(* ---------- scalar encoder ---------- *)
Definition scalar_ok (k : nat) (x : list nat) : Prop := length x = k /\ forall v, In v x -> v < 3.

Lemma In_upd A (l : list A) i x v : In v (upd l i x) -> v = x \/ In v l.
Proof. revert i. induction l as [|a l IH]; intros [|i]; cbn [upd In]; intuition. destruct (IH _ H0); auto. Qed.

Lemma f3_acc_ok k d e x : length x = k -> d < k -> e < k ->
  f3_acc d e x = Ok (upd x d ((nth d x 0 + nth e x 0) mod 3)).
Proof.
  intros HL Hd He. unfold f3_acc. rewrite (getn (i := d) 0), (getn (i := e) 0) by lia. cbn [bind].
  apply set_lt. lia.
Qed.

Lemma out_loop n last (x : list nat) : n <= length last -> (forall p, In p last -> p < length x) ->
  exists out, forN 0 n (fun i out => do p <- get last i; do v <- get x p; set out i v) (repeat 0 n) = Ok out /\
    length out = n /\ forall i, i < n -> nth i out 0 = nth (nth i last 0) x 0.
Proof.
  intros Hn Hp.
  destruct (forN_inv (P := fun k out => length out = n /\ forall i, i < k -> nth i out 0 = nth (nth i last 0) x 0)
    (f := fun i out => do p <- get last i; do v <- get x p; set out i v) (n := n) (i := 0) (s := repeat 0 n)) as [out [E [HL H]]].
  - split; [apply repeat_length|lia].
  - intros i out Hi [HL H]. rewrite (getn (l := last) (i := i) 0) by lia. cbn [bind].
    rewrite (getn (l := x) 0) by (apply Hp, nth_In; lia). cbn [bind].
    rewrite set_lt by lia. eexists. split; [reflexivity|]. rewrite upd_length. split; auto.
    intros j Hj. rewrite nth_upd. destruct (Nat.eqb_spec i j) as [->|Hne]; cbn [andb].
    + destruct (Nat.ltb_spec j (length out)); [auto|lia].
    + apply H. lia.
  - exists out. auto.
Qed.

Lemma f3_encode_unfold k n perms x : length x = k ->
  f3_encode k n perms x n =
  (do x' <- passes f3_acc k perms x;
   do last <- perms_back perms;
   do out <- forN 0 n (fun i out => do p <- get last i; do v <- get x' p; set out i v) (repeat 0 n);
   Ok (x', out)).
Proof.
  intros HL. unfold f3_encode, passes, throw_if. rewrite HL, !Nat.eqb_refl. cbn [negb bind].
  destruct (forN 1 (k - 1) (fun i x0 => f3_acc i (i - 1) x0) x); cbn [bind]; auto.
  destruct (perms_back perms); cbn [bind]; auto.
Qed.

(* ---------- sliced step ---------- *)
Lemma dims_nth A (M : list (list A)) r c i : dims M r c -> i < r -> length (nth i M []) = c.
Proof. intros [H1 H2] Hi. apply H2, nth_In. lia. Qed.

Lemma dims_upd A (M : list (list A)) r c i row : dims M r c -> length row = c -> dims (upd M i row) r c.
Proof.
  intros [H1 H2] Hr. split; [rewrite upd_length; auto|]. intros x Hx. destruct (In_upd Hx) as [->|]; auto.
Qed.

Lemma nth_overwrite A (l : list A) o x i d : o + length x <= length l ->
  nth i (overwrite l o x) d = if (o <=? i) && (i <? o + length x) then nth (i - o) x d else nth i l d.
Proof.
  intros H. destruct (Nat.lt_ge_cases i (length l)) as [Hi|Hi].
  - apply Some_inj. rewrite <- nth_error_nth_lt by (rewrite overwrite_length; auto).
    rewrite nth_error_overwrite by auto.
    destruct (Nat.leb_spec o i), (Nat.ltb_spec i (o + length x)); cbn [andb];
      apply nth_error_nth_lt; lia.
  - rewrite nth_overflow by (rewrite overwrite_length; auto).
    destruct (Nat.ltb_spec i (o + length x)); [lia|]. rewrite andb_false_r, nth_overflow; auto.
Qed.

Lemma nth_slice A (l : list A) o n i d : i < n -> nth i (slice l o n) d = nth (o + i) l d.
Proof.
  intros Hi. unfold slice.
  destruct (Nat.lt_ge_cases (o + i) (length l)) as [Hl|Hl].
  - apply Some_inj. rewrite <- !nth_error_nth_lt; auto.
    + fold (slice l o n). rewrite nth_error_slice. destruct (Nat.ltb_spec i n); [auto|lia].
    + rewrite firstn_length, skipn_length. lia.
  - rewrite !nth_overflow; auto. rewrite firstn_length, skipn_length. lia.
Qed.

Lemma f3_acc_span_ok k len begin s d e msb lsb :
  dims msb k len -> dims lsb k len -> begin + s <= len -> d < k -> e < k ->
  exists m' l', f3_acc_span begin s d e (msb, lsb) = Ok (m', l') /\ dims m' k len /\ dims l' k len /\
    forall r c, (cell m' r c, cell l' r c) =
      if (r =? d) && ((begin <=? c) && (c <? begin + s))
      then mod3Add (cell msb d c) (cell lsb d c) (cell msb e c) (cell lsb e c)
      else (cell msb r c, cell lsb r c).
Proof.
  intros Dm Dl Hs Hd He. unfold f3_acc_span.
  pose proof (proj1 Dm) as Lm. pose proof (proj1 Dl) as Ll.
  rewrite (getn (l := msb) (i := d) []), (getn (l := lsb) (i := d) []),
    (getn (l := msb) (i := e) []), (getn (l := lsb) (i := e) []) by lia. cbn [bind].
  pose proof (dims_nth Dm Hd) as L1. pose proof (dims_nth Dl Hd) as L2.
  pose proof (dims_nth Dm He) as L3. pose proof (dims_nth Dl He) as L4.
  rewrite !readN_ok by lia. cbn [bind].
  destruct (mod3AddIn_span_spec (z1 := slice (nth d msb []) begin s) (z0 := slice (nth d lsb []) begin s)
     (y1 := slice (nth e msb []) begin s) (y0 := slice (nth e lsb []) begin s) (n := s)) as (r & E & R1 & R2 & R3);
    try (apply slice_length; lia).
  rewrite E. cbn [bind]. rewrite !writeN_ok by lia. cbn [bind]. rewrite !set_lt by lia. cbn [bind].
  eexists _, _. split; [reflexivity|]. split; [|split].
  - apply dims_upd; auto. rewrite overwrite_length; lia.
  - apply dims_upd; auto. rewrite overwrite_length; lia.
  - intros rr c. unfold cell. rewrite !nth_upd, Lm, Ll, (Nat.eqb_sym d rr).
    destruct (Nat.ltb_spec d k); [|lia]. rewrite !andb_true_r.
    destruct (Nat.eqb_spec rr d) as [->|Hne]; cbn [andb]; auto.
    rewrite !nth_overwrite, R1, R2 by lia.
    destruct (Nat.leb_spec begin c); cbn [andb]; auto.
    destruct (Nat.ltb_spec c (begin + s)); auto.
    destruct (R3 (c - begin)) as [Q1 Q2]; [lia|].
    apply nth_error_nth with (d := 0%N) in Q1. apply nth_error_nth with (d := 0%N) in Q2. rewrite Q1, Q2.
    unfold nthN. rewrite !nth_slice by lia. replace (begin + (c - begin)) with c by lia.
    symmetry. apply surjective_pairing.
Qed.

(* relation of a column with a scalar vector *)
Definition colrel (k : nat) (msb lsb : list (list N)) (c : nat) (i : N) (x : list nat) : Prop :=
  length x = k /\ forall r, r < k -> tvalid (cell msb r c) (cell lsb r c) i /\ trit (cell msb r c) (cell lsb r c) i = nth r x 0.

Lemma colrel_lane k msb lsb c i : length msb = k -> all_valid msb lsb -> colrel k msb lsb c i (lane_col msb lsb c i).
Proof.
  intros HL HV. split; [unfold lane_col; rewrite map_length, seq_length; auto|].
  intros r Hr. split; [apply HV|]. unfold lane_col.
  apply Some_inj. rewrite <- nth_error_nth_lt by (rewrite map_length, seq_length; lia).
  rewrite nth_error_map, nth_error_seq. destruct (Nat.ltb_spec r (length msb)); [reflexivity|lia].
Qed.

(* one batch, all columns at once: the relation is kept for every column, the ones in the
   batch advance with the scalar program, the others do not move *)
Lemma batch_passes k perms len begin s : perms_ok k perms -> begin + s <= len ->
  forall msb lsb, dims msb k len -> dims lsb k len ->
  exists m' l', passes (f3_acc_span begin s) k perms (msb, lsb) = Ok (m', l') /\
    dims m' k len /\ dims l' k len /\
    (forall r c, ~ (begin <= c < begin + s) -> cell m' r c = cell msb r c /\ cell l' r c = cell lsb r c) /\
    (forall c i x, begin <= c < begin + s -> colrel k msb lsb c i x ->
       exists x', passes f3_acc k perms x = Ok x' /\ colrel k m' l' c i x').
Proof.
  intros HP Hs msb lsb Dm Dl.
  set (R := fun (st st0 : list (list N) * list (list N)) => dims (fst st) k len /\ dims (snd st) k len /\
     forall r c, ~ (begin <= c < begin + s) -> cell (fst st) r c = cell msb r c /\ cell (snd st) r c = cell lsb r c).
  destruct (passes_sim (R := R) (stepS := f3_acc_span begin s) (stepT := fun _ _ t => Ok t) HP) with (s := (msb, lsb)) (t := (msb, lsb))
    as (st & t & E & _ & H1 & H2 & H3).
  { intros d e [m l] t0 Hd He _ (D1 & D2 & D3). cbn [fst snd] in *.
    destruct (f3_acc_span_ok D1 D2 Hs Hd He) as (m' & l' & E & D1' & D2' & HC).
    exists (m', l'), t0. split; auto. split; auto. unfold R; cbn [fst snd]. split; auto. split; auto.
    intros r c Hc. specialize (HC r c).
    assert (Hb : (begin <=? c) && (c <? begin + s) = false) by lia.
    rewrite Hb, andb_false_r in HC. inversion HC. rewrite H0, H1. auto. }
  { repeat split; auto; try apply Dm; try apply Dl. }
  destruct st as [m' l']. cbn [fst snd] in *.
  exists m', l'. split; auto. split; auto. split; auto. split; auto.
  intros c i x Hc Hrel.
  destruct (passes_sim (R := fun st x => dims (fst st) k len /\ dims (snd st) k len /\ colrel k (fst st) (snd st) c i x)
     (stepS := f3_acc_span begin s) (stepT := f3_acc) HP) with (s := (msb, lsb)) (t := x)
    as (st & x' & E' & E2 & _ & _ & H6); auto.
  { intros d e [m l] y Hd He Hde (D1 & D2 & HLy & Hy). cbn [fst snd] in *.
    destruct (f3_acc_span_ok D1 D2 Hs Hd He) as (m1 & l1 & E1 & D1' & D2' & HC).
    rewrite (f3_acc_ok HLy Hd He). exists (m1, l1). eexists. split; [exact E1|]. split; [reflexivity|].
    cbn [fst snd]. split; auto. split; auto. split; [rewrite upd_length; auto|].
    intros r Hr. specialize (HC r c).
    assert (Hb : (begin <=? c) && (c <? begin + s) = true) by lia. rewrite Hb, andb_true_r in HC.
    rewrite nth_upd, HLy, (Nat.eqb_sym d r). destruct (Nat.ltb_spec d k); [|lia]. rewrite andb_true_r.
    destruct (Nat.eqb_spec r d) as [erd|Hne]; [subst r|].
    - destruct (Hy d Hd) as [V1 T1], (Hy e He) as [V2 T2].
      pose proof (mod3Add_lane V1 V2) as HA. cbv zeta in HA. rewrite <- HC in HA. cbn [fst snd] in HA.
      rewrite T1, T2 in HA. exact HA.
    - inversion HC as [[Q1 Q2]]. rewrite Q1, Q2. apply Hy, Hr. }
  rewrite E in E'. inversion E'; subst st. exists x'. auto.
Qed.

Lemma f3_copy_ok k n len begin s i p (out inp : list (list N)) :
  dims out n len -> dims inp k len -> begin + s <= len -> i < n -> p < k ->
  exists out', f3_copy begin s i p out inp = Ok out' /\ dims out' n len /\
    forall r c, cell out' r c = if (r =? i) && ((begin <=? c) && (c <? begin + s)) then cell inp p c else cell out r c.
Proof.
  intros Do Di Hs Hi Hp. unfold f3_copy. pose proof (proj1 Do) as Lo. pose proof (proj1 Di) as Li.
  pose proof (dims_nth Do Hi) as L1. pose proof (dims_nth Di Hp) as L2.
  rewrite (getn (l := inp) (i := p) []) by lia. cbn [bind]. rewrite readN_ok by lia. cbn [bind].
  rewrite (getn (l := out) (i := i) []) by lia. cbn [bind].
  rewrite writeN_ok by (rewrite slice_length; lia). cbn [bind]. rewrite set_lt by lia.
  eexists. split; [reflexivity|]. split.
  - apply dims_upd; auto. rewrite overwrite_length; rewrite ?slice_length; lia.
  - intros r c. unfold cell. rewrite nth_upd, Lo, (Nat.eqb_sym i r). destruct (Nat.ltb_spec i n); [|lia]. rewrite andb_true_r.
    destruct (Nat.eqb_spec r i) as [->|Hne]; cbn [andb]; auto.
    rewrite nth_overwrite; rewrite slice_length by lia; [|lia].
    destruct (Nat.leb_spec begin c), (Nat.ltb_spec c (begin + s)); cbn [andb]; auto.
    rewrite nth_slice by lia. f_equal. lia.
Qed.

Lemma copy_loop k n len begin s last (om ol m l : list (list N)) :
  dims om n len -> dims ol n len -> dims m k len -> dims l k len -> begin + s <= len -> n <= k -> is_perm k last ->
  exists om' ol', forN 0 n (fun i (out : list (list N) * list (list N)) =>
      do pi <- get last i;
      do ol <- f3_copy begin s i pi (snd out) l;
      do om <- f3_copy begin s i pi (fst out) m;
      Ok (om, ol)) (om, ol) = Ok (om', ol') /\ dims om' n len /\ dims ol' n len /\
    forall r c, r < n -> (cell om' r c, cell ol' r c) =
      if (begin <=? c) && (c <? begin + s) then (cell m (nth r last 0) c, cell l (nth r last 0) c)
      else (cell om r c, cell ol r c).
Proof.
  intros D1 D2 D3 D4 Hs Hn HP. pose proof (is_perm_length HP) as HL.
  destruct (forN_inv (P := fun q (out : list (list N) * list (list N)) => dims (fst out) n len /\ dims (snd out) n len /\
     forall r c, r < n -> (cell (fst out) r c, cell (snd out) r c) =
      if (r <? q) && ((begin <=? c) && (c <? begin + s)) then (cell m (nth r last 0) c, cell l (nth r last 0) c)
      else (cell om r c, cell ol r c))
    (f := fun i (out : list (list N) * list (list N)) =>
      do pi <- get last i;
      do ol <- f3_copy begin s i pi (snd out) l;
      do om <- f3_copy begin s i pi (fst out) m;
      Ok (om, ol)) (n := n) (i := 0) (s := (om, ol))) as [[om' ol'] [E (H1 & H2 & H3)]].
  - cbn [fst snd]. split; auto.
  - intros q [a b] Hq (H1 & H2 & H3). cbn [fst snd] in *.
    rewrite (getn (l := last) (i := q) 0) by lia. cbn [bind].
    assert (Hp : nth q last 0 < k) by (apply (is_perm_lt HP (i := q)), nth_error_nth_lt; lia).
    destruct (f3_copy_ok H2 D4 Hs (i := q) (p := nth q last 0)) as (b' & E1 & B1 & B2); auto; [lia|].
    destruct (f3_copy_ok H1 D3 Hs (i := q) (p := nth q last 0)) as (a' & E2 & A1 & A2); auto; [lia|].
    rewrite E1, E2. cbn [bind]. eexists. split; [reflexivity|]. cbn [fst snd]. split; auto. split; auto.
    intros r c Hr. rewrite B2, A2. specialize (H3 r c Hr).
    destruct (Nat.eqb_spec r q) as [->|Hne]; cbn [andb].
    + destruct (Nat.ltb_spec q (q + 1)); [|lia]. cbn [andb].
      destruct ((begin <=? c) && (c <? begin + s)); auto. rewrite andb_false_r in H3. exact H3.
    + destruct (Nat.ltb_spec r q), (Nat.ltb_spec r (q + 1)); cbn [andb] in *; auto; lia.
  - exists om', ol'. cbn [fst snd] in *. split; auto. split; auto. split; auto.
    intros r c Hr. rewrite H3 by auto. destruct (Nat.ltb_spec r (0 + n)); [reflexivity|lia].
Qed.

Lemma f3_encode_span_correct k n perms batch len msb lsb om ol :
  n < k -> perms_ok k perms -> 0 < batch ->
  dims msb k len -> dims lsb k len -> dims om n len -> dims ol n len -> all_valid msb lsb ->
  exists io om' ol', f3_encode_span k n perms batch len len len len msb lsb om ol = Ok (io, (om', ol')) /\
    dims om' n len /\ dims ol' n len /\
    forall c i, c < len -> exists x' y, f3_encode k n perms (lane_col msb lsb c i) n = Ok (x', y) /\
      length y = n /\
      forall r, r < n -> tvalid (cell om' r c) (cell ol' r c) i /\ trit (cell om' r c) (cell ol' r c) i = nth r y 0.
Proof.
  intros Hn HP Hb Dm Dl Dom Dol HV.
  unfold f3_encode_span, throw_if. rewrite (proj1 Dm), (proj1 Dl), (proj1 Dom), (proj1 Dol), !Nat.eqb_refl.
  cbn [negb bind]. destruct (Nat.eqb_spec batch 0); [lia|].
  destruct (perms_back_ok HP) as [last [Elast Hlast]].
  pose proof (is_perm_length Hlast) as Llast.
  match goal with |- context [forN 0 ?bb ?f ?s] => set (body := f); set (nb := bb) end.
  (* scalar results *)
  assert (Hsc : forall c i x, c < len -> colrel k msb lsb c i x -> True) by auto.
  destruct (forN_inv (P := fun b (st : (list (list N) * list (list N)) * (list (list N) * list (list N))) =>
     dims (fst (fst st)) k len /\ dims (snd (fst st)) k len /\ dims (fst (snd st)) n len /\ dims (snd (snd st)) n len /\
     (forall r c, b * batch <= c -> cell (fst (fst st)) r c = cell msb r c /\ cell (snd (fst st)) r c = cell lsb r c) /\
     (forall c i, c < Nat.min len (b * batch) -> exists x' y, f3_encode k n perms (lane_col msb lsb c i) n = Ok (x', y) /\
      length y = n /\
      forall r, r < n -> tvalid (cell (fst (snd st)) r c) (cell (snd (snd st)) r c) i /\
          trit (cell (fst (snd st)) r c) (cell (snd (snd st)) r c) i = nth r y 0))
    (f := body) (n := nb) (i := 0) (s := ((msb, lsb), (om, ol)))) as [[[m' l'] [om' ol']] [E (H1 & H2 & H3 & H4 & H5 & H6)]].
  - cbn [fst snd]. repeat split; auto; try apply Dm; try apply Dl; try apply Dom; try apply Dol; intros; lia.
  - intros b [[m l] [a z]] Hb' (H1 & H2 & H3 & H4 & H5 & H6). cbn [fst snd] in *.
    unfold body.
    assert (Hbl : b * batch < len).
    { unfold nb in Hb'. assert (b + 1 <= (len + batch - 1) / batch) by lia.
      assert ((b + 1) * batch <= len + batch - 1).
      { pose proof (Nat.mul_div_le (len + batch - 1) batch ltac:(lia)). nia. }
      nia. }
    set (begin := b * batch) in *. set (s := Nat.min batch (len - begin)).
    assert (Hs : begin + s <= len) by (unfold s; lia).
    destruct (batch_passes HP Hs H1 H2) as (m' & l' & E & D1 & D2 & Hout & Hin).
    unfold passes in E.
    destruct (forN 1 (k - 1) (fun i s0 => f3_acc_span begin s i (i - 1) s0) (m, l)) as [io1| | |]; cbn [bind] in E |- *; try discriminate.
    rewrite Elast in E |- *. cbn [bind] in E |- *. rewrite E. cbn [bind fst snd].
    destruct (copy_loop (begin := begin) (s := s) (last := last) H3 H4 D1 D2) as (a' & z' & E2 & D3 & D4 & Hc); auto; [lia|].
    rewrite E2. cbn [bind]. eexists. split; [reflexivity|]. cbn [fst snd].
    split; auto. split; auto. split; auto. split; auto.
    replace ((b + 1) * batch) with (begin + batch) by (unfold begin; lia). split.
    + intros r c Hcc. destruct (Hout r c) as [Q1 Q2]; [unfold s; lia|]. rewrite Q1, Q2. apply H5. lia.
    + intros c i Hcc. destruct (Nat.lt_ge_cases c begin) as [Hlt|Hge].
      * destruct (H6 c i) as (x' & y & Q1 & Q2 & Q3); [lia|]. exists x', y. split; auto. split; auto.
        intros r Hr. specialize (Hc r c Hr). assert (Hf : (begin <=? c) && (c <? begin + s) = false) by lia.
        rewrite Hf in Hc. inversion Hc as [[W1 W2]]. rewrite W1, W2. apply Q3, Hr.
      * assert (Hcr : begin <= c < begin + s) by (unfold s; lia).
        destruct (Hin c i (lane_col msb lsb c i) Hcr) as (x' & Ex & Lx & Hx).
        { destruct (colrel_lane c i (proj1 Dm) HV) as [CL CR]. split; auto. intros r Hr.
          destruct (H5 r c Hge) as [-> ->]. apply CR, Hr. }
        rewrite f3_encode_unfold by (unfold lane_col; rewrite map_length, seq_length; apply Dm).
        rewrite Ex. cbn [bind]. rewrite Elast. cbn [bind].
        destruct (out_loop (n := n) (last := last) (x := x')) as (y & Ey & Ly & Hy).
        { lia. } { intros p Hp. destruct (In_nth_error _ _ Hp) as [q Hq]. rewrite Lx. apply (is_perm_lt Hlast Hq). }
        rewrite Ey. cbn [bind]. exists x', y. split; auto. split; auto. intros r Hr.
        specialize (Hc r c Hr). assert (Hf : (begin <=? c) && (c <? begin + s) = true) by lia.
        rewrite Hf in Hc. inversion Hc as [[W1 W2]]. rewrite W1, W2, Hy by auto. apply Hx.
        apply (is_perm_lt Hlast (i := r)), nth_error_nth_lt. lia.
  - cbn [fst snd] in *. exists (m', l'), om', ol'. split; auto. split; auto. split; auto.
    intros c i Hc. apply H6. apply Nat.min_glb_lt; auto. cbn [Nat.add]. unfold nb.
    pose proof (Nat.div_mod (len + batch - 1) batch ltac:(lia)).
    pose proof (Nat.mod_upper_bound (len + batch - 1) batch ltac:(lia)). nia.
Qed.

(* ---------- matrix ---------- *)
Definition dotn (row x : list nat) : nat := fold_right plus 0 (map2 mult row x).
Definition add3 (a b : list nat) : list nat := map2 (fun u v => (u + v) mod 3) a b.

Lemma dotn_add3 : forall a b x, length a = length x -> length b = length x ->
  dotn (add3 a b) x mod 3 = (dotn a x + dotn b x) mod 3.
Proof.
  induction a as [|u a IH]; intros [|v b] [|w x] H1 H2; cbn [length] in *; try lia; auto.
  unfold dotn, add3 in *. cbn [map2 fold_right].
  assert (E1 : forall p q, (((u + v) mod 3) * w + p) mod 3 = q mod 3 <-> ((u + v) * w + p) mod 3 = q mod 3).
  { intros p q. rewrite Nat.add_mod, Nat.mul_mod_idemp_l, <- Nat.add_mod by lia. tauto. }
  apply E1. rewrite Nat.add_mod, IH, <- Nat.add_mod by lia. f_equal. lia.
Qed.

Lemma f3_addRow_ok k d s (M : list (list nat)) : dims M k k -> d < k -> s < k -> d <> s ->
  exists M', f3_addRow k d s M = Ok M' /\ dims M' k k /\
    forall r, nth r M' [] = if r =? d then add3 (nth d M []) (nth s M []) else nth r M [].
Proof.
  intros D Hd Hs Hds. unfold f3_addRow. pose proof (proj1 D) as L.
  pose proof (dims_nth D Hd) as Ld. pose proof (dims_nth D Hs) as Ls.
  destruct (forN_inv (P := fun q M' => dims M' k k /\ (forall r, r <> d -> nth r M' [] = nth r M []) /\
      forall c, c < k -> nth c (nth d M' []) 0 = if c <? q then (nth c (nth d M []) 0 + nth c (nth s M []) 0) mod 3 else nth c (nth d M []) 0)
    (f := fun i M => do a <- get2 M d i; do b <- get2 M s i; set2 M d i ((a + b) mod 3)) (n := k) (i := 0) (s := M))
    as [M' [E (H1 & H2 & H3)]].
  - split; auto.
  - intros q M1 Hq (H1 & H2 & H3). unfold get2, set2. pose proof (proj1 H1) as L1.
    pose proof (dims_nth H1 Hd) as Ld1. pose proof (dims_nth H1 Hs) as Ls1.
    rewrite (getn (l := M1) (i := d) []), (getn (l := M1) (i := s) []) by lia. cbn [bind].
    rewrite (getn (l := nth d M1 []) (i := q) 0), (getn (l := nth s M1 []) (i := q) 0) by lia. cbn [bind].
    rewrite set_lt by lia. cbn [bind]. rewrite set_lt by lia. eexists. split; [reflexivity|]. split; [|split].
    + apply dims_upd; auto. rewrite upd_length. auto.
    + intros r Hr. rewrite nth_upd. destruct (Nat.eqb_spec d r); [congruence|]. cbn [andb]. apply H2, Hr.
    + intros c Hc. rewrite nth_upd, Nat.eqb_refl, L1. destruct (Nat.ltb_spec d k); [|lia]. cbn [andb].
      rewrite nth_upd, Ld1. destruct (Nat.eqb_spec q c) as [->|Hne]; cbn [andb].
      * destruct (Nat.ltb_spec c k); [|lia]. destruct (Nat.ltb_spec c (c + 1)); [|lia].
        rewrite H3 by auto. rewrite Nat.ltb_irrefl, H2 by auto. reflexivity.
      * rewrite H3 by auto. destruct (Nat.ltb_spec c q), (Nat.ltb_spec c (q + 1)); auto; lia.
  - exists M'. split; auto. split; auto. intros r. destruct (Nat.eqb_spec r d) as [->|Hne]; [|apply H2, Hne].
    pose proof (dims_nth H1 Hd) as Ld'.
    apply nth_error_ext_len.
    { unfold add3. rewrite map2_length. lia. }
    intros c Hc. rewrite (nth_error_nth_lt 0) by auto. unfold add3. rewrite nth_error_map2.
    rewrite !(nth_error_nth_lt (i := c) 0) by lia. rewrite H3 by lia.
    destruct (Nat.ltb_spec c (0 + k)); [reflexivity|lia].
Qed.

Lemma dotn_unit : forall k i x a, length x = k -> i < k ->
  dotn (map (fun j => if j =? a + i then 1 else 0) (seq a k)) x = nth i x 0.
Proof.
  induction k as [|k IH]; intros i [|w x] a HL Hi; cbn [length] in *; try lia.
  cbn [seq map]. unfold dotn. cbn [map2 fold_right]. fold (dotn (map (fun j => if j =? a + i then 1 else 0) (seq (S a) k)) x).
  destruct i as [|i].
  - rewrite Nat.add_0_r, Nat.eqb_refl.
    assert (E : dotn (map (fun j => if j =? a then 1 else 0) (seq (S a) k)) x = 0).
    { injection HL as HL. clear -HL. revert x HL. generalize (S a) at 1, (Nat.lt_succ_diag_r a).
      intros b Hb. revert b Hb. induction k as [|k IH]; intros b Hb [|y x] HL; cbn [length] in *; try lia; auto.
      cbn [seq map]. unfold dotn in *. cbn [map2 fold_right]. destruct (Nat.eqb_spec b a); [lia|]. rewrite IH; lia. }
    cbn [nth]. fold (dotn (map (fun j => if j =? a then 1 else 0) (seq (S a) k)) x). rewrite E. lia.
  - destruct (Nat.eqb_spec a (a + S i)); [lia|]. cbn [nth].
    rewrite (map_ext _ (fun j => if j =? S a + i then 1 else 0)) by (intros j; replace (a + S i) with (S a + i) by lia; reflexivity).
    change (0 * w + dotn (map (fun j => if j =? S a + i then 1 else 0) (seq (S a) k)) x = nth i x 0).
    rewrite IH by lia. lia.
Qed.

Lemma identity_rows k : exists M, forN 0 k (fun i M => set2 M i i 1) (repeat (repeat 0 k) k) = Ok M /\ dims M k k /\
   forall r, r < k -> nth r M [] = map (fun j => if j =? 0 + r then 1 else 0) (seq 0 k).
Proof.
  destruct (forN_inv (P := fun q M => dims M k k /\
     forall r, r < k -> nth r M [] = if r <? q then map (fun j => if j =? 0 + r then 1 else 0) (seq 0 k) else repeat 0 k)
     (f := fun i M => set2 M i i 1) (n := k) (i := 0) (s := repeat (repeat 0 k) k)) as [M [E [D H]]].
  - split.
    + split; [apply repeat_length|]. intros row Hr. apply repeat_spec in Hr. subst. apply repeat_length.
    + intros r Hr. apply nth_error_nth. rewrite nth_error_repeat. destruct (Nat.ltb_spec r k); [reflexivity|lia].
  - intros q M Hq [D H]. pose proof (proj1 D) as L. assert (Hqk : q < k) by lia. pose proof (dims_nth D Hqk) as Lq.
    unfold set2. rewrite (getn (l := M) (i := q) []) by lia. cbn [bind]. rewrite set_lt by lia. cbn [bind].
    rewrite set_lt by lia. eexists. split; [reflexivity|]. split.
    + apply dims_upd; auto. rewrite upd_length; auto.
    + intros r Hr. rewrite nth_upd, L. destruct (Nat.eqb_spec q r) as [->|Hne]; cbn [andb].
      * destruct (Nat.ltb_spec r k); [|lia]. destruct (Nat.ltb_spec r (r + 1)); [|lia].
        rewrite H by auto. rewrite Nat.ltb_irrefl.
        apply nth_error_ext_len; [rewrite upd_length, repeat_length, map_length, seq_length; auto|].
        intros j Hj. rewrite upd_length, repeat_length in Hj.
        rewrite nth_error_upd, nth_error_repeat, nth_error_map, nth_error_seq, repeat_length.
        destruct (Nat.ltb_spec j k); [|lia]. destruct (Nat.ltb_spec r k); [|lia]. cbn [option_map Nat.add].
        rewrite andb_true_r, (Nat.eqb_sym j r). destruct (r =? j); reflexivity.
      * rewrite H by auto. destruct (Nat.ltb_spec r q), (Nat.ltb_spec r (q + 1)); auto; lia.
  - exists M. split; auto. split; auto. intros r Hr. rewrite H by auto. destruct (Nat.ltb_spec r (0 + k)); [auto|lia].
Qed.

(* rows picked by last *)
Lemma pick_rows k n last (M : list (list nat)) : dims M k k -> n <= k -> is_perm k last ->
  exists R, forN 0 n (fun i R => forN 0 k (fun j R => do p <- get last i; do v <- get2 M p j; set2 R i j v) R)
     (repeat (repeat 0 k) n) = Ok R /\ dims R n k /\ forall r, r < n -> nth r R [] = nth (nth r last 0) M [].
Proof.
  intros D Hn HP. pose proof (is_perm_length HP) as HL.
  destruct (forN_inv (P := fun q R => dims R n k /\ forall r, r < q -> r < n -> nth r R [] = nth (nth r last 0) M [])
    (f := fun i R => forN 0 k (fun j R => do p <- get last i; do v <- get2 M p j; set2 R i j v) R)
    (n := n) (i := 0) (s := repeat (repeat 0 k) n)) as [R [E [DR H]]].
  - split; [|lia]. split; [apply repeat_length|]. intros row Hr. apply repeat_spec in Hr. subst. apply repeat_length.
  - intros q R Hq [DR H].
    assert (Hp : nth q last 0 < k) by (apply (is_perm_lt HP (i := q)), nth_error_nth_lt; lia).
    pose proof (dims_nth D Hp) as Lp.
    destruct (forN_inv (P := fun j R' => dims R' n k /\ (forall r, r <> q -> nth r R' [] = nth r R []) /\
        forall c, c < j -> nth c (nth q R' []) 0 = nth c (nth (nth q last 0) M []) 0)
      (f := fun j R => do p <- get last q; do v <- get2 M p j; set2 R q j v) (n := k) (i := 0) (s := R)) as [R' [E' (D' & H1 & H2)]].
    + split; auto. split; auto. lia.
    + intros j R1 Hj (D1 & H1 & H2). rewrite (getn (l := last) (i := q) 0) by lia. cbn [bind]. unfold get2, set2.
      rewrite (getn (l := M) []) by (rewrite (proj1 D); auto). cbn [bind].
      rewrite (getn (l := nth (nth q last 0) M []) (i := j) 0) by lia. cbn [bind].
      assert (Hqn : q < n) by lia. pose proof (dims_nth D1 Hqn) as Lq.
      rewrite (getn (l := R1) (i := q) []) by (rewrite (proj1 D1); auto). cbn [bind].
      rewrite set_lt by lia. cbn [bind]. rewrite set_lt by (rewrite (proj1 D1); auto).
      eexists. split; [reflexivity|]. split; [|split].
      * apply dims_upd; auto. rewrite upd_length; auto.
      * intros r Hr. rewrite nth_upd. destruct (Nat.eqb_spec q r); [congruence|]. apply H1, Hr.
      * intros c Hc. rewrite nth_upd, Nat.eqb_refl, (proj1 D1). destruct (Nat.ltb_spec q n); [|lia]. cbn [andb].
        rewrite nth_upd, Lq. destruct (Nat.eqb_spec j c) as [->|Hne]; cbn [andb].
        -- destruct (Nat.ltb_spec c k); [auto|lia].
        -- apply H2. lia.
    + exists R'. split; auto. split; auto. intros r Hr Hrn. destruct (Nat.eq_dec r q) as [->|Hne].
      * assert (Hqn : q < n) by lia. pose proof (dims_nth D' Hqn) as Lq.
        apply nth_error_ext_len; [lia|]. intros c Hc. rewrite !(nth_error_nth_lt (i := c) 0) by lia. rewrite H2 by lia. reflexivity.
      * rewrite H1 by auto. apply H; lia.
  - exists R. split; auto.
Qed.

Lemma f3_matrix_correct k n perms : n < k -> perms_ok k perms ->
  exists M, f3_getMatrix k n perms = Ok M /\ dims M n k /\
   forall x, length x = k -> (forall v, In v x -> v < 3) ->
     exists x', f3_encode k n perms x n = Ok (x', matvec3 M x).
Proof.
  intros Hn HP. destruct (perms_back_ok HP) as [last [El Hl]]. pose proof (is_perm_length Hl) as Ll.
  destruct (identity_rows k) as (M0 & E0 & D0 & H0).
  assert (Hpass : exists M1, passes (f3_addRow k) k perms M0 = Ok M1 /\ dims M1 k k).
  { destruct (passes_sim (R := fun M (_ : unit) => dims M k k) (stepS := f3_addRow k) (stepT := fun _ _ t => Ok t) HP)
      with (s := M0) (t := tt) as (M1 & _ & E1 & _ & D1).
    - intros d e M t Hd He Hde D. destruct (f3_addRow_ok D Hd He Hde) as (M' & E & D' & _). exists M', t. auto.
    - exact D0.
    - exists M1. auto. }
  destruct Hpass as (M1 & E1 & D1).
  destruct (pick_rows (n := n) D1 ltac:(lia) Hl) as (R & ER & DR & HR).
  exists R. split; [|split; auto].
  { unfold f3_getMatrix. rewrite E0. cbn [bind]. unfold passes in E1.
    destruct (forN 1 (k - 1) (fun i s => f3_addRow k i (i - 1) s) M0); cbn [bind] in E1 |- *; try discriminate.
    rewrite El in E1 |- *. cbn [bind] in E1 |- *. rewrite E1. cbn [bind]. exact ER. }
  intros x Hx Hv. rewrite f3_encode_unfold by auto.
  destruct (passes_sim (R := fun M y => dims M k k /\ length y = k /\ forall r, r < k -> nth r y 0 = dotn (nth r M []) x mod 3)
     (stepS := f3_addRow k) (stepT := f3_acc) HP) with (s := M0) (t := x) as (M1' & x' & E1' & Ex & D1' & Lx' & Hx').
  { intros d e M y Hd He Hde (D & Ly & Hy). destruct (f3_addRow_ok D Hd He Hde) as (M' & E & D' & HM').
    rewrite (f3_acc_ok Ly Hd He). eexists _, _. split; [exact E|]. split; [reflexivity|]. split; auto.
    split; [rewrite upd_length; auto|]. intros r Hr. rewrite nth_upd, Ly, HM', (Nat.eqb_sym d r).
    destruct (Nat.ltb_spec d k); [|lia]. rewrite andb_true_r. destruct (Nat.eqb_spec r d) as [->|Hne]; auto.
    rewrite dotn_add3 by (rewrite Hx; apply dims_nth with (r := k); auto).
    rewrite (Hy d Hd), (Hy e He), <- Nat.add_mod by lia. reflexivity. }
  { split; auto. split; auto. intros r Hr. rewrite H0 by auto. rewrite dotn_unit by auto.
    symmetry. apply Nat.mod_small, Hv, nth_In. lia. }
  rewrite E1 in E1'. inversion E1'; subst M1'. rewrite Ex. cbn [bind]. rewrite El. cbn [bind].
  destruct (out_loop (n := n) (last := last) (x := x')) as (y & Ey & Ly & Hy).
  { lia. } { intros p Hp. destruct (In_nth_error _ _ Hp) as [q Hq]. rewrite Lx'. apply (is_perm_lt Hl Hq). }
  rewrite Ey. cbn [bind]. exists x'. f_equal. f_equal.
  apply nth_error_ext_len; [unfold matvec3; rewrite map_length, (proj1 DR); auto|].
  intros r Hr. rewrite Ly in Hr. unfold matvec3. rewrite nth_error_map.
  rewrite (nth_error_nth_lt (l := R) []) by (rewrite (proj1 DR); auto). cbn [option_map].
  rewrite (nth_error_nth_lt 0) by lia. rewrite Hy by auto. rewrite HR by auto.
  rewrite Hx' by (apply (is_perm_lt Hl (i := r)), nth_error_nth_lt; lia). reflexivity.
Qed.

Lemma dot3_linear : forall a x y, length a = length x -> length a = length y ->
  dot3 a (add3 x y) = (dot3 a x + dot3 a y) mod 3.
Proof.
  intros a x y H1 H2. unfold dot3. rewrite <- Nat.add_mod by lia.
  assert (C : forall u v, map2 mult u v = map2 mult v u).
  { induction u as [|p u IH]; intros [|q v]; cbn [map2]; auto. rewrite IH, Nat.mul_comm. reflexivity. }
  rewrite (C a (add3 x y)), (C a x), (C a y). apply dotn_add3; lia.
Qed.

Lemma f3_linear k n perms x y : n < k -> perms_ok k perms -> length x = k -> length y = k ->
  (forall v, In v x -> v < 3) -> (forall v, In v y -> v < 3) ->
  exists x' y' z' ox oy, f3_encode k n perms x n = Ok (x', ox) /\ f3_encode k n perms y n = Ok (y', oy) /\
    f3_encode k n perms (add3 x y) n = Ok (z', add3 ox oy).
Proof.
  intros Hn HP Lx Ly Vx Vy. destruct (f3_matrix_correct Hn HP) as (M & E & D & H).
  destruct (H x) as [x' Ex]; auto. destruct (H y) as [y' Ey]; auto.
  destruct (H (add3 x y)) as [z' Ez].
  { unfold add3. rewrite map2_length. lia. }
  { intros v Hv. destruct (In_nth_error _ _ Hv) as [i Hi]. unfold add3 in Hi. rewrite nth_error_map2 in Hi.
    destruct (nth_error x i), (nth_error y i); try discriminate. apply Some_inj in Hi. subst v. apply Nat.mod_upper_bound. lia. }
  exists x', y', z', (matvec3 M x), (matvec3 M y). split; auto. split; auto. rewrite Ez. f_equal. f_equal.
  unfold add3 at 2. apply nth_error_ext. intros r. unfold matvec3. rewrite nth_error_map2, !nth_error_map.
  destruct (nth_error M r) as [row|] eqn:Er; cbn [option_map]; auto. f_equal.
  assert (length row = k) by (apply D; eapply nth_error_In, Er). apply dot3_linear; lia.
Qed.

Lemma firstn_S_snoc A (l : list A) n d : n < length l -> firstn (S n) l = firstn n l ++ [nth n l d].
Proof.
  revert n. induction l as [|a l IH]; intros n H; cbn [length] in H; [lia|].
  destruct n as [|n]; [reflexivity|]. cbn [firstn nth app]. f_equal. apply IH. lia.
Qed.

Lemma f3_encode_one k n P x : n < k -> is_perm k P -> length x = k -> (forall v, In v x -> v < 3) ->
  exists x', f3_encode k n [P] x n = Ok (x', map (fun p => list_sum (firstn (S p) x) mod 3) (firstn n P)).
Proof.
  intros Hn HP HL HV. rewrite f3_encode_unfold by auto. unfold passes. cbn [perms_back length Nat.sub get nth_error bind].
  destruct (forN_inv (P := fun i y => length y = k /\ forall r, r < k -> nth r y 0 =
       if r <? i then list_sum (firstn (S r) x) mod 3 else nth r x 0)
     (f := fun i s => f3_acc i (i - 1) s) (n := k - 1) (i := 1) (s := x)) as [y [E [Ly Hy]]].
  - split; auto. intros r Hr. destruct (Nat.ltb_spec r 1); auto. replace r with 0 by lia.
    rewrite (firstn_S_snoc (n := 0) 0) by lia. cbn [firstn app]. change (list_sum [nth 0 x 0]) with (nth 0 x 0 + 0).
    rewrite Nat.add_0_r. symmetry. apply Nat.mod_small, HV, nth_In. lia.
  - intros i y Hi [Ly Hy]. rewrite (f3_acc_ok (k := k)) by lia. eexists. split; [reflexivity|].
    rewrite upd_length. split; auto. intros r Hr. rewrite nth_upd, Ly. destruct (Nat.eqb_spec i r) as [->|Hne]; cbn [andb].
    + destruct (Nat.ltb_spec r k); [|lia]. destruct (Nat.ltb_spec r (r + 1)); [|lia].
      rewrite !Hy by lia. rewrite Nat.ltb_irrefl. destruct (Nat.ltb_spec (r - 1) r); [|lia].
      replace (S (r - 1)) with r by lia.
      rewrite (firstn_S_snoc (n := r) 0) by lia. rewrite list_sum_app.
      change (list_sum [nth r x 0]) with (nth r x 0 + 0). rewrite Nat.add_0_r, Nat.add_mod_idemp_r by lia.
      f_equal. lia.
    + rewrite Hy by auto. destruct (Nat.ltb_spec r i), (Nat.ltb_spec r (i + 1)); auto; lia.
  - rewrite E. cbn [bind forN]. pose proof (is_perm_length HP) as LP.
    assert (HPlt : forall p, In p P -> p < k).
    { intros p Hp. destruct (In_nth_error _ _ Hp) as [q Hq]. apply (is_perm_lt HP Hq). }
    destruct (out_loop (n := n) (last := P) (x := y)) as (out & Eo & Lo & Ho).
    { lia. } { intros p Hp. rewrite Ly. auto. }
    rewrite Eo. cbn [bind]. exists y. f_equal. f_equal.
    apply nth_error_ext_len; [rewrite map_length, firstn_length; lia|].
    intros i Hi. rewrite (nth_error_nth_lt 0) by auto. rewrite Ho by lia.
    rewrite nth_error_map, nth_error_firstn. destruct (Nat.ltb_spec i n); [|lia].
    rewrite (nth_error_nth_lt (l := P) (i := i) 0) by lia. cbn [option_map]. f_equal.
    assert (nth i P 0 < k) by (apply HPlt, nth_In; lia).
    rewrite Hy by auto. destruct (Nat.ltb_spec (nth i P 0) (1 + (k - 1))); [reflexivity|lia].
Qed.
