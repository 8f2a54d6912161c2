From Verif Require Import Base Words Mod3Model Mod3Spec Mod3Proofs F2CodeProofs ConvModel ConvProofs KeyMultModel KeyMultSpec.

(* ---------- xorVector ---------- *)
Definition xor_gen (src : list N -> list N) (v : list N) (g : prng) : outcome (prng * list N) :=
  let n := length v in
  do st <- forN 0 (n / 8) (fun j st =>
      let g : prng := fst st in
      do v' <- forN 0 8 (fun q v =>
          do a <- get (src v) (8 * j + q);
          set v (8 * j + q) (N.lxor a (pRnd g (pIdx g + N.of_nat q)))) (snd st);
      Ok (Prng (pRnd g) (pIdx g + 8), v')) (g, v);
  forN (8 * (n / 8)) (n - 8 * (n / 8)) (fun j st =>
      let g : prng := fst st in
      do a <- get (src (snd st)) j;
      do v' <- set (snd st) j (N.lxor a (pRnd g (pIdx g)));
      Ok (Prng (pRnd g) (pIdx g + 1), v')) st.

Lemma xor_gen_spec src s v g n : length v = n ->
  (forall v' k, length v' = n -> (forall i, k <= i < n -> nthN v' i = nthN v i) ->
     forall i, k <= i < n -> i < length (src v') /\ nthN (src v') i = nthN s i) ->
  exists v', xor_gen src v g = Ok (Prng (pRnd g) (pIdx g + N.of_nat n), v') /\ length v' = n /\
    forall i, i < n -> nthN v' i = N.lxor (nthN s i) (pRnd g (pIdx g + N.of_nat i)).
Proof.
  intros Hn Hs. unfold xor_gen. rewrite Hn.
  set (Q := fun (k : nat) (v' : list N) => length v' = n /\
    forall i, i < n -> nthN v' i = if i <? k then N.lxor (nthN s i) (pRnd g (pIdx g + N.of_nat i)) else nthN v i).
  assert (Step : forall k v', k < n -> Q k v' ->
    exists a, get (src v') k = Ok a /\ exists v'', set v' k (N.lxor a (pRnd g (pIdx g + N.of_nat k))) = Ok v'' /\ Q (k + 1) v'').
  { intros k v' Hk [HL HQ].
    destruct (Hs v' k HL) with (i := k) as [H1 H2]; [|lia|].
    { intros i Hi. rewrite HQ by lia. destruct (Nat.ltb_spec i k); [lia|reflexivity]. }
    exists (nthN (src v') k). split; [apply get_nthN; assumption|].
    rewrite set_lt by lia. eexists. split; [reflexivity|]. split; [rewrite upd_length; assumption|].
    intros i Hi. unfold nthN in *. rewrite nth_upd, HL.
    destruct (Nat.eqb_spec k i) as [E|E].
    - subst i. rewrite (proj2 (Nat.ltb_lt k n) Hk). simpl. rewrite H2.
      rewrite (proj2 (Nat.ltb_lt k (k + 1))) by lia. reflexivity.
    - cbn [andb]. rewrite HQ by assumption.
      destruct (Nat.ltb_spec i k), (Nat.ltb_spec i (k + 1)); try lia; reflexivity. }
  set (n8 := n / 8). assert (Hn8 : 8 * n8 <= n) by (unfold n8; lia).
  set (P := fun (k : nat) (st : prng * list N) => fst st = Prng (pRnd g) (pIdx g + N.of_nat k) /\ Q k (snd st)).
  match goal with |- context [forN 0 n8 ?B (g, v)] =>
    destruct (forN_inv (P := fun j st => P (8 * j) st) (f := B) (n := n8) (i := 0) (s := (g, v))) as [st [E1 HP]] end.
  - split; [cbn [fst]; rewrite N.add_0_r; destruct g; reflexivity|]. split; [exact Hn|].
    intros i Hi. reflexivity.
  - intros j [g' v'] Hj [Hg HQ]. cbn [fst snd] in *. subst g'. cbn [pRnd pIdx].
    match goal with |- context [forN 0 8 ?B v'] =>
      destruct (forN_inv (P := fun q v => Q (8 * j + q) v) (f := B) (n := 8) (i := 0) (s := v')) as [v'' [E HQ']] end.
    + rewrite Nat.add_0_r. exact HQ.
    + intros q v2 Hq HQ2. destruct (Step (8 * j + q) v2) as (a & Ea & v3 & E3 & HQ3); [lia|assumption|].
      rewrite Ea. cbn [bind]. exists v3. split.
      * replace (pIdx g + N.of_nat (8 * j) + N.of_nat q)%N with (pIdx g + N.of_nat (8 * j + q))%N by lia. exact E3.
      * replace (8 * j + (q + 1)) with (8 * j + q + 1) by lia. exact HQ3.
    + rewrite E. cbn [bind]. eexists. split; [reflexivity|]. split.
      * cbn [fst]. f_equal. lia.
      * cbn [snd]. replace (8 * (j + 1)) with (8 * j + (0 + 8)) by lia. exact HQ'.
  - rewrite E1. cbn [bind Nat.add] in *.
    match goal with |- context [forN (8 * n8) ?m ?B st] =>
      destruct (forN_inv (P := P) (f := B) (n := m) (i := 8 * n8) (s := st)) as [st' [E2 HP2]] end.
    + exact HP.
    + intros k [g' v'] Hk [Hg HQ]. cbn [fst snd] in *. subst g'. cbn [pRnd pIdx].
      destruct (Step k v') as (a & Ea & v3 & E3 & HQ3); [lia|assumption|].
      rewrite Ea. cbn [bind]. rewrite E3. cbn [bind]. eexists. split; [reflexivity|].
      split; [cbn [fst]; f_equal; lia|exact HQ3].
    + replace (8 * n8 + (n - 8 * n8)) with n in HP2 by lia.
      destruct HP2 as [Hg [HL HQ]]. exists (snd st'). rewrite E2. split; [rewrite <- Hg; destruct st'; reflexivity|].
      split; [exact HL|]. intros i Hi. rewrite HQ by assumption. rewrite (proj2 (Nat.ltb_lt i n) Hi). reflexivity.
Qed.

Lemma xorVector_spec v g n : length v = n ->
  exists v', xorVector v g = Ok (Prng (pRnd g) (pIdx g + N.of_nat n), v') /\ length v' = n /\
    forall i, i < n -> nthN v' i = N.lxor (nthN v i) (pRnd g (pIdx g + N.of_nat i)).
Proof.
  intros Hn. change (xorVector v g) with (xor_gen (fun v => v) v g). apply xor_gen_spec; [assumption|].
  intros v' k HL H i Hi. split; [lia|]. apply H; assumption.
Qed.

Lemma xorVectorOne_spec v u g n : length v = n -> length u = n ->
  exists v', xorVectorOne v u g = Ok (Prng (pRnd g) (pIdx g + N.of_nat n), v') /\ length v' = n /\
    forall i, i < n -> nthN v' i = N.lxor (nthN u i) (pRnd g (pIdx g + N.of_nat i)).
Proof.
  intros Hn Hu. change (xorVectorOne v u g) with (xor_gen (fun _ => u) v g). apply xor_gen_spec; [assumption|].
  intros v' k HL H i Hi. split; [lia|reflexivity].
Qed.

(* ---------- one row ---------- *)
Definition row_val (s : srow) (c : nat) (l : N) : nat :=
  match srMsb s with
  | Some xm => trit (nthN xm c) (nthN (srLsb s) c) l
  | None => b2n (N.testbit (nthN (srLsb s) c) l)
  end.

Definition row_in (cols : nat) (s : srow) : Prop :=
  length (srLsb s) = cols /\
  match srMsb s with
  | Some xm => length xm = cols /\ forall c l, tvalid (nthN xm c) (nthN (srLsb s) c) l
  | None => True
  end.

Definition row_good (cols : nat) (s : srow) (r : rrow) (xs xr : list N * list N) : Prop :=
  length (fst xs) = cols /\ length (snd xs) = cols /\ length (fst xr) = cols /\ length (snd xr) = cols /\
  forall c l, c < cols ->
    tvalid (nthN (fst xs) c) (nthN (snd xs) c) l /\ tvalid (nthN (fst xr) c) (nthN (snd xr) c) l /\
    (trit (nthN (fst xs) c) (nthN (snd xs) c) l + trit (nthN (fst xr) c) (nthN (snd xr) c) l) mod 3 =
      if xorb (srKey s) (rrKey r) then row_val s c l else 0.

Lemma firstn_app_len A (a b : list A) n : length a = n -> firstn n (a ++ b) = a.
Proof. intros H. apply (proj1 (@firstn_skipn_app_eq A a b n H)). Qed.
Lemma skipn_app_len A (a b : list A) n : length a = n -> skipn n (a ++ b) = b.
Proof. intros H. apply (proj2 (@firstn_skipn_app_eq A a b n H)). Qed.

(* what the sender computes before masking: message m and share xk *)
Lemma row_core s cols ms ls :
  row_in cols s -> length ms = cols -> length ls = cols -> blocks_good ms ls ->
  let buf := repeat 0%N cols in
  exists m1 m0 x1 x0,
    match srMsb s with
    | Some xm =>
      if srKey s then
        do m <- mod3Sub_span buf buf ms ls xm (srLsb s);
        do xk <- mod3AddIn_span ls ms xm (srLsb s);
        Ok (m, xk)
      else
        do m <- mod3Add_span buf buf ms ls xm (srLsb s);
        Ok (m, (ls, ms))
    | None =>
      if srKey s then
        do m <- mod3Sub1_span buf buf ms ls (srLsb s);
        do xk <- mod3AddIn1_span ls ms (srLsb s);
        Ok (m, xk)
      else
        do m <- mod3Add1_span buf buf ms ls (srLsb s);
        Ok (m, (ls, ms))
    end = Ok ((m1, m0), (x1, x0)) /\
    length m1 = cols /\ length m0 = cols /\ length x1 = cols /\ length x0 = cols /\
    forall c l, c < cols ->
      tvalid (nthN x1 c) (nthN x0 c) l /\ tvalid (nthN m1 c) (nthN m0 c) l /\ tvalid (nthN ms c) (nthN ls c) l /\
      (trit (nthN x1 c) (nthN x0 c) l + trit (nthN ms c) (nthN ls c) l) mod 3 =
        (if srKey s then row_val s c l else 0) /\
      (trit (nthN x1 c) (nthN x0 c) l + trit (nthN m1 c) (nthN m0 c) l) mod 3 =
        (if srKey s then 0 else row_val s c l).
Proof.
  intros [Hx Hm] Lm Ll HG buf.
  assert (Lb : length buf = cols) by apply repeat_length.
  assert (HV : forall c l, c < cols -> tvalid (nthN ms c) (nthN ls c) l).
  { intros c l Hc. unfold blocks_good in HG.
    destruct (HG c (nthN ms c) (nthN ls c)) as (? & ? & Hv); try (apply nth_error_nth_lt; lia). apply Hv. }
  unfold row_val.
  destruct (srMsb s) as [xm|].
  - destruct Hm as [Hxm Hxv]. destruct (srKey s).
    + destruct (mod3Add_span_spec Lb Lb Lm Ll Hx Hxm) as ([m1 m0] & E & L1 & L0 & Hr).
      destruct (mod3AddIn_span_spec Ll Lm Hxm Hx) as ([x1 x0] & E' & L1' & L0' & Hr').
      exists m1, m0, x1, x0. unfold mod3Sub_span. rewrite E. cbn [bind]. rewrite E'. cbn [bind fst snd] in *.
      repeat (split; [first [reflexivity|assumption]|]).
      intros c l Hc. destruct (Hr c Hc) as [G1 G0]. destruct (Hr' c Hc) as [G1' G0'].
      apply nth_error_nthN in G1, G0, G1', G0'. rewrite G1, G0, G1', G0'.
      assert (Hv := HV c l Hc). specialize (Hxv c l).
      destruct (trit_swap Hxv) as [Hxv' Hsw]. destruct (trit_swap Hv) as [Hv' Hsw'].
      destruct (mod3Add_lane Hv Hxv') as [Va Ta]. destruct (mod3Add_lane Hv' Hxv) as [Vb Tb].
      rewrite Ta, Tb, Hsw, Hsw'.
      assert (B1 := trit_lt Hv). assert (B2 := trit_lt Hxv).
      repeat (split; [assumption|]). lia.
    + destruct (mod3Add_span_spec Lb Lb Lm Ll Hxm Hx) as ([m1 m0] & E & L1 & L0 & Hr).
      exists m1, m0, ls, ms. rewrite E. cbn [bind fst snd] in *.
      repeat (split; [first [reflexivity|assumption]|]).
      intros c l Hc. destruct (Hr c Hc) as [G1 G0].
      apply nth_error_nthN in G1, G0. rewrite G1, G0.
      assert (Hv := HV c l Hc). specialize (Hxv c l).
      destruct (trit_swap Hv) as [Hv' Hsw'].
      destruct (mod3Add_lane Hv Hxv) as [Va Ta].
      rewrite Ta, Hsw'.
      assert (B1 := trit_lt Hv). assert (B2 := trit_lt Hxv).
      repeat (split; [assumption|]). lia.
  - destruct (srKey s).
    + destruct (mod3Sub1_span_spec Lb Lb Lm Ll Hx) as ([m1 m0] & E & L1 & L0 & Hr).
      destruct (mod3AddIn1_span_spec Ll Lm Hx) as ([x1 x0] & E' & L1' & L0' & Hr').
      exists m1, m0, x1, x0. rewrite E. cbn [bind]. rewrite E'. cbn [bind fst snd] in *.
      repeat (split; [first [reflexivity|assumption]|]).
      intros c l Hc. destruct (Hr c Hc) as [G1 G0]. destruct (Hr' c Hc) as [G1' G0'].
      apply nth_error_nthN in G1, G0, G1', G0'. rewrite G1, G0, G1', G0'.
      assert (Hv := HV c l Hc).
      destruct (trit_swap Hv) as [Hv' Hsw'].
      destruct (mod3Sub1_lane (nthN (srLsb s) c) Hv) as [Va Ta].
      destruct (mod3AddIn1_lane (nthN (srLsb s) c) Hv') as [Vb Tb].
      rewrite Ta, Tb, Hsw'.
      assert (B1 := trit_lt Hv).
      repeat (split; [assumption|]). destruct (N.testbit (nthN (srLsb s) c) l); simpl b2n; lia.
    + destruct (mod3Add1_span_spec Lb Lb Lm Ll Hx) as ([m1 m0] & E & L1 & L0 & Hr).
      exists m1, m0, ls, ms. rewrite E. cbn [bind fst snd] in *.
      repeat (split; [first [reflexivity|assumption]|]).
      intros c l Hc. destruct (Hr c Hc) as [G1 G0].
      apply nth_error_nthN in G1, G0. rewrite G1, G0.
      assert (Hv := HV c l Hc).
      destruct (trit_swap Hv) as [Hv' Hsw'].
      destruct (mod3Add1_lane (nthN (srLsb s) c) Hv) as [Va Ta].
      rewrite Ta, Hsw'.
      assert (B1 := trit_lt Hv).
      repeat (split; [assumption|]). destruct (N.testbit (nthN (srLsb s) c) l); simpl b2n; lia.
Qed.

Lemma nthN_ext (a b : list N) n : length a = n -> length b = n -> (forall i, i < n -> nthN a i = nthN b i) -> a = b.
Proof.
  intros Ha Hb H. apply (nth_ext a b 0%N 0%N); [lia|]. intros i Hi. apply H. lia.
Qed.

Lemma slice_app_l A (a b : list A) n : length a = n -> slice (a ++ b) 0 n = a.
Proof. intros H. unfold slice. cbn [skipn]. apply firstn_app_len; assumption. Qed.
Lemma slice_app_r A (a b : list A) n : length a = n -> length b = n -> slice (a ++ b) n n = b.
Proof.
  intros H Hb. unfold slice. rewrite skipn_app_len by assumption. apply firstn_all2. lia.
Qed.

Lemma km_row fuel cols s r : row_in cols s -> ot_ok (srOt0 s, srOt1 s) (rrOt r) (rrKey r) ->
  km_send_row fuel s = Hang \/
  exists p msg xs pr xr, km_send_row fuel s = Ok (p, (msg, xs)) /\ length msg = 2 * cols /\
    km_recv_row fuel cols r msg = Ok (pr, xr) /\ ot_ok p pr (rrKey r) /\ row_good cols s r xs xr.
Proof.
  intros Hin Hot. unfold km_send_row, sample_prng. rewrite (proj1 Hin).
  destruct (sampleMod3Lookup_ok fuel (pRnd (srOt0 s)) (pIdx (srOt0 s)) cols) as [E|(idx' & ms & ls & E & Lm & Ll & HG)].
  { left. rewrite E. reflexivity. }
  right. rewrite E. cbn [bind fst snd].
  destruct (row_core Hin Lm Ll HG) as (m1 & m0 & x1 & x0 & E1 & M1 & M0 & X1 & X0 & HV). cbv zeta in E1.
  rewrite E1. cbn [bind fst snd].
  destruct (@xorVector_spec m1 (srOt1 s) cols M1) as (a & Ea & La & Ha). rewrite Ea. cbn [bind fst snd].
  destruct (@xorVector_spec m0 (Prng (pRnd (srOt1 s)) (pIdx (srOt1 s) + N.of_nat cols)) cols M0) as (b & Eb & Lb & Hb).
  rewrite Eb. cbn [bind fst snd pRnd pIdx] in *.
  exists (Prng (pRnd (srOt0 s)) idx', Prng (pRnd (srOt1 s)) (pIdx (srOt1 s) + N.of_nat cols + N.of_nat cols)), (a ++ b), (x1, x0).
  unfold ot_ok in Hot. cbn [fst snd] in Hot. unfold km_recv_row, ot_ok.
  destruct (rrKey r) eqn:Ek.
  - rewrite !readN_ok by (rewrite app_length; lia). cbn [bind].
    rewrite slice_app_l, slice_app_r by assumption. rewrite Hot.
    destruct (@xorVectorOne_spec (repeat 0%N cols) a (srOt1 s) cols (repeat_length _ _) La) as (a' & Ea' & La' & Ha').
    rewrite Ea'. cbn [bind fst snd].
    destruct (@xorVectorOne_spec (repeat 0%N cols) b (Prng (pRnd (srOt1 s)) (pIdx (srOt1 s) + N.of_nat cols)) cols (repeat_length _ _) Lb) as (b' & Eb' & Lb' & Hb').
    rewrite Eb'. cbn [bind fst snd pRnd pIdx] in *.
    assert (a' = m1) as ->.
    { apply (nthN_ext La' M1). intros i Hi. rewrite Ha', Ha, N.lxor_assoc, N.lxor_nilpotent, N.lxor_0_r by assumption. reflexivity. }
    assert (b' = m0) as ->.
    { apply (nthN_ext Lb' M0). intros i Hi. rewrite Hb', Hb, N.lxor_assoc, N.lxor_nilpotent, N.lxor_0_r by assumption. reflexivity. }
    eexists _, (m1, m0). split; [reflexivity|]. split; [rewrite app_length; lia|]. split; [reflexivity|].
    split; [reflexivity|]. unfold row_good. cbn [fst snd]. rewrite Ek. repeat (split; [assumption|]).
    intros c l Hc. destruct (HV c l Hc) as (V1 & V2 & V3 & T1 & T2). split; [assumption|]. split; [assumption|].
    rewrite T2. destruct (srKey s); reflexivity.
  - unfold sample_prng. rewrite Hot, E. cbn [bind fst snd].
    eexists _, (ms, ls). split; [reflexivity|]. split; [rewrite app_length; lia|]. split; [reflexivity|].
    split; [reflexivity|]. unfold row_good. cbn [fst snd]. rewrite Ek. repeat (split; [assumption|]).
    intros c l Hc. destruct (HV c l Hc) as (V1 & V2 & V3 & T1 & T2). split; [assumption|]. split; [assumption|].
    rewrite T1. destruct (srKey s); reflexivity.
Qed.

(* ---------- the loops ---------- *)
Inductive Forall3 {A B C} (R : A -> B -> C -> Prop) : list A -> list B -> list C -> Prop :=
| F3nil : Forall3 R [] [] []
| F3cons a b c la lb lc : R a b c -> Forall3 R la lb lc -> Forall3 R (a :: la) (b :: lb) (c :: lc).

Definition pair_in (cols : nat) (s : srow) (r : rrow) : Prop :=
  row_in cols s /\ ot_ok (srOt0 s, srOt1 s) (rrOt r) (rrKey r).
Definition pair_out (cols : nat) (s : srow) (r : rrow) (os : (prng * prng) * (list N * list N))
    (or : prng * (list N * list N)) : Prop :=
  ot_ok (fst os) (fst or) (rrKey r) /\ row_good cols s r (snd os) (snd or).

Lemma rows_map fuel cols : forall ss rs, Forall2 (pair_in cols) ss rs ->
  mapM (km_send_row fuel) ss = Hang \/
  exists o or, mapM (km_send_row fuel) ss = Ok o /\
    length (concat (map (fun x => fst (snd x)) o)) = length ss * (2 * cols) /\
    (forall tl, mapM (fun p => km_recv_row fuel cols (fst p) (snd p))
      (combine rs (take_rows (length ss) (2 * cols) (concat (map (fun x => fst (snd x)) o) ++ tl))) = Ok or) /\
    Forall4 (pair_out cols) ss rs (map (fun x => (fst x, snd (snd x))) o) or.
Proof.
  induction 1 as [|s r ss rs [Hin Hot] H IH].
  - right. exists [], []. repeat split; constructor.
  - cbn [mapM]. destruct (km_row fuel Hin Hot) as [E|(p & msg & xs & pr & xr & E1 & Lm & E2 & Hot' & HG)].
    { left. rewrite E. reflexivity. }
    rewrite E1. cbn [bind]. destruct IH as [E|(o & or & E3 & L & E4 & HF)].
    { left. rewrite E. reflexivity. }
    right. rewrite E3. cbn [bind]. exists ((p, (msg, xs)) :: o), ((pr, xr) :: or).
    split; [reflexivity|]. split; [|split].
    + cbn [map concat length fst snd]. rewrite app_length, L. lia.
    + intros tl. cbn [length take_rows map concat combine fst snd]. rewrite <- app_assoc.
      rewrite (firstn_app_len (a := msg)), (skipn_app_len (a := msg)) by assumption. cbn [mapM fst snd].
      rewrite E2. cbn [bind]. rewrite E4. reflexivity.
    + cbn [map fst snd]. constructor; [split; assumption|assumption].
Qed.

Lemma Forall2_skipn A B (R : A -> B -> Prop) n : forall a b, Forall2 R a b -> Forall2 R (skipn n a) (skipn n b).
Proof.
  induction n; intros a b H; simpl; [assumption|]. inversion H; subst; [constructor|]; auto.
Qed.

Lemma loops fuel cols : forall g ss rs, Forall2 (pair_in cols) ss rs -> length ss = g * km_step ->
  km_send_loop fuel g ss = Hang \/
  exists msgs os or, km_send_loop fuel g ss = Ok (msgs, os) /\
    km_recv_loop fuel cols g rs msgs = Ok or /\ Forall4 (pair_out cols) ss rs os or.
Proof.
  induction g as [|g IH]; intros ss rs H HL.
  - destruct ss; [|simpl in HL; lia]. inversion H; subst. right. exists [], [], []. repeat split; constructor.
  - cbn [km_send_loop]. assert (Hl2 := Forall2_len H).
    assert (Hf : length (firstn km_step ss) = km_step) by (rewrite firstn_length; lia).
    destruct (rows_map fuel (Forall2_firstn km_step H)) as [E|(o & or & E1 & L & E2 & HF)].
    { left. rewrite E. reflexivity. }
    rewrite Hf in L, E2.
    rewrite E1. cbn [bind].
    destruct (IH (skipn km_step ss) (skipn km_step rs)) as [E|(msgs & os & or' & E3 & E4 & HF')].
    { apply Forall2_skipn; assumption. }
    { rewrite skipn_length. lia. }
    { left. rewrite E. reflexivity. }
    right. rewrite E3. cbn [bind fst snd].
    eexists _, _, (or ++ or'). split; [reflexivity|]. split.
    + cbn [km_recv_loop]. rewrite (recv_n_ok _ L). cbn [bind fst snd].
      specialize (E2 []). rewrite app_nil_r in E2. rewrite E2. cbn [bind]. rewrite E4. reflexivity.
    + assert (G := Forall4_app HF HF'). rewrite !firstn_skipn in G. exact G.
Qed.

(* ---------- mult ---------- *)
Lemma Forall2_map_seq A B (R : A -> B -> Prop) f g n : (forall i, i < n -> R (f i) (g i)) ->
  Forall2 R (map f (seq 0 n)) (map g (seq 0 n)).
Proof.
  intros H. assert (G : forall m k, k + m <= n -> Forall2 R (map f (seq k m)) (map g (seq k m))).
  { induction m; intros k Hk; cbn [seq map]; constructor; [apply H; lia|apply IHm; lia]. }
  apply G. lia.
Qed.

Lemma nth_map_seq A (f : nat -> A) n k d : k < n -> nth k (map f (seq 0 n)) d = f k.
Proof.
  intros H. rewrite (nth_indep _ d (f 0)) by (rewrite map_length, seq_length; assumption).
  rewrite (map_nth f), seq_nth by assumption. reflexivity.
Qed.

Lemma mult_ok fuel so share ro key n xl xm :
  ots_ok so ro key -> km_input ((n + 127) / 128) xl xm ->
  km_send fuel so share ((n + 127) / 128) xl xm = Hang \/
  exists msgs os or, km_send fuel so share ((n + 127) / 128) xl xm = Ok (msgs, os) /\
    km_recv fuel ro key n msgs = Ok or /\
    ots_ok (map fst os) (map fst or) key /\
    km_shares (share_bit share) (fun i => nth i key false) ((n + 127) / 128) xl xm os or.
Proof.
  set (cols := (n + 127) / 128). intros [Ls [Lr Hot]] [[Lx Dx] Hm].
  unfold km_send, km_recv. rewrite Lx, Ls, Lr. rewrite Nat.eqb_refl. cbn [negb throw_if bind].
  assert (Hmc : negb (length xm =? 0) && negb (length xm =? KeySize) = false).
  { destruct Hm as [->|[[Hm _] _]]; [reflexivity|]. rewrite Hm, Nat.eqb_refl. apply andb_false_r. }
  rewrite Hmc. change (KeySize =? 0) with false. cbn [bind].
  match goal with |- context [km_send_loop fuel _ (map ?F (seq 0 KeySize))] => set (fs := F) end.
  match goal with |- context [km_recv_loop fuel _ _ (map ?F (seq 0 KeySize))] => set (fr := F) end.
  assert (HP : Forall2 (pair_in cols) (map fs (seq 0 KeySize)) (map fr (seq 0 KeySize))).
  { apply Forall2_map_seq. intros i Hi. split.
    - unfold row_in, fs. cbn [srLsb srMsb]. split; [apply Dx, nth_In; lia|].
      destruct Hm as [->|[[Hm Dm] Hv]]; [exact I|]. rewrite Hm. change (KeySize =? 0) with false. cbv iota.
      split; [apply Dm, nth_In; lia|]. intros c l. apply Hv.
    - unfold fs, fr. cbn [srOt0 srOt1 rrOt rrKey]. specialize (Hot i Hi).
      unfold ot_ok in *. exact Hot. }
  destruct (loops fuel (g := KeySize / km_step) HP) as [E|(msgs & os & or & E1 & E2 & HF)].
  { rewrite map_length, seq_length. reflexivity. }
  { left. exact E. }
  right. exists msgs, os, or. split; [exact E1|]. split; [exact E2|].
  destruct (Forall4_length HF) as (F1 & F2 & F3). rewrite map_length, seq_length in F1, F2, F3.
  assert (HN : forall i, i < KeySize -> forall ds dr, pair_out cols (fs i) (fr i) (nth i os ds) (nth i or dr)).
  { intros i Hi ds dr. assert (G := Forall4_nth HF (fs 0) (fr 0) ds dr (k := i)).
    rewrite !nth_map_seq in G by assumption. apply G. rewrite map_length, seq_length. exact Hi. }
  split.
  - split; [rewrite map_length; assumption|]. split; [rewrite map_length; assumption|].
    intros i Hi. assert (G := HN i Hi ((d_prng, d_prng), ([], [])) (d_prng, ([], []))).
    destruct G as [G _]. rewrite <- (map_nth fst) in G. rewrite <- (map_nth fst) in G. exact G.
  - split; [assumption|]. split; [assumption|]. intros i s r Es Er.
    assert (Hi : i < KeySize) by (rewrite <- F2; apply nth_error_Some; congruence).
    destruct (HN i Hi s r) as [_ G].
    rewrite (nth_error_nth _ _ _ Es), (nth_error_nth _ _ _ Er) in G.
    destruct G as (G1 & G2 & G3 & G4 & G). cbv zeta. repeat (split; [assumption|]).
    intros c l Hc. destruct (G c l Hc) as (V1 & V2 & T). repeat (split; [assumption|]).
    rewrite T. unfold fs, fr, row_val, share_bit, xval, wrd, nthN. cbn [srKey rrKey srMsb srLsb].
    destruct xm; reflexivity.
Qed.

Lemma run_ok fuel share key : forall calls so ro, ots_ok so ro key ->
  Forall (fun c => km_input ((fst c + 127) / 128) (fst (snd c)) (snd (snd c))) calls ->
  km_run fuel so share ro key calls = Hang \/
  exists outs, km_run fuel so share ro key calls = Ok outs /\
    Forall2 (fun c o => km_shares (share_bit share) (fun i => nth i key false) ((fst c + 127) / 128)
                          (fst (snd c)) (snd (snd c)) (fst o) (snd o)) calls outs.
Proof.
  induction calls as [|[n [xl xm]] calls IH]; intros so ro Hot HF; cbn [km_run].
  - right. exists []. split; [reflexivity|constructor].
  - inversion HF as [|? ? Hc HF']; subst. cbn [fst snd] in Hc.
    destruct (mult_ok fuel share Hot Hc) as [E|(msgs & os & or & E1 & E2 & Hot' & HS)].
    { left. rewrite E. reflexivity. }
    rewrite E1. cbn [bind fst snd]. rewrite E2. cbn [bind].
    destruct (IH _ _ Hot' HF') as [E|(outs & E3 & HO)].
    { left. rewrite E. reflexivity. }
    right. rewrite E3. cbn [bind]. eexists. split; [reflexivity|]. constructor; [exact HS|exact HO].
Qed.

(* a second mult on a receiver whose key came from a request *)
Lemma second_mult_throws batch s s' : kReq s <> None -> km_recv_key batch s = Ok s' -> km_recv_key batch s' = Throw.
Proof.
  unfold km_recv_key. destruct (kReq s) as [n|]; [|congruence]. intros _.
  destruct (1 <=? n); cbn [throw_if bind]; [discriminate|].
  destruct (negb _); cbn [throw_if bind]; [discriminate|].
  destruct (negb _); cbn [throw_if bind]; [discriminate|].
  intros H. injection H as <-. reflexivity.
Qed.

Lemma send_key_idem batch s s' : km_send_key batch s = Ok s' -> forall batch', km_send_key batch' s' = Ok s'.
Proof.
  unfold km_send_key. destruct (zReq s) as [n|] eqn:E.
  - destruct (1 <=? n); cbn [throw_if bind]; [discriminate|].
    destruct (negb _); cbn [throw_if bind]; [discriminate|].
    intros H. injection H as <-. reflexivity.
  - intros H. injection H as <-. rewrite E. reflexivity.
Qed.

Lemma run_total fuel share key calls so ro : ots_ok so ro key ->
  (forall n xl xm, In (n, (xl, xm)) calls -> km_input ((n + 127) / 128) xl xm) ->
  km_run fuel so share ro key calls = Hang \/
  exists outs, km_run fuel so share ro key calls = Ok outs /\
    Forall2 (fun c o => km_shares (share_bit share) (fun i => nth i key false) ((fst c + 127) / 128)
                          (fst (snd c)) (snd (snd c)) (fst o) (snd o)) calls outs.
Proof.
  intros H Hc. apply run_ok; [exact H|]. apply Forall_forall. intros [n [xl xm]] Hin. apply Hc, Hin.
Qed.

(* selecting by the key gives good OTs *)
Lemma ex_ots_gen so key : length so = KeySize -> length key = KeySize ->
  ots_ok so (map2 (fun k s => if k : bool then snd s else fst s) key so) key.
Proof.
  intros Hs Hk. split; [exact Hs|]. split; [rewrite map2_length; lia|].
  intros i Hi. unfold ot_ok.
  erewrite nth_error_nth; [|rewrite nth_error_map2, (nth_error_nth_lt false (l := key)), (nth_error_nth_lt (d_prng, d_prng) (l := so)) by lia; reflexivity].
  reflexivity.
Qed.
