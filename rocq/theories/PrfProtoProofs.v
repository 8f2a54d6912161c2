From Verif Require Import Base Words Mod3Model Mod3Spec Mod3Proofs PermSpec F2CodeModel F2CodeSpec F2CodeProofs F3CodeModel F3CodeSpec F3CodeProofs
  ConvModel ConvSpec ConvProofs KeyMultModel KeyMultSpec KeyMultProofs PrfModel PrfSpec PrfProofs.

Lemma prf_make_ok G B A : length G = 3 -> (forall g, In g G -> length g = 128) -> perms_ok KeySize A ->
  exists p, prf_make G B A = Ok p /\ prf_ok p G B /\ prfA p = A.
Proof.
  intros HG Hg HA. unfold prf_make.
  assert (E : exists tg, mapM (fun g => do r <- f2_init 16 g; Ok (snd r)) G = Ok tg /\ length tg = length G /\
     forall q, q < length G -> table_of (nth q tg []) (nth q G [])).
  { clear HG HA. induction G as [|g G IH]; cbn [mapM].
    - exists []. split; [reflexivity|]. split; [reflexivity|]. simpl; intros; lia.
    - destruct (@table_of_init g) as (T & E & HT); [apply Hg; left; reflexivity|]. rewrite E. cbn [bind snd].
      destruct IH as (tg & E' & HL & H); [intros; apply Hg; right; assumption|]. rewrite E'. cbn [bind].
      exists (T :: tg). split; [reflexivity|]. split; [simpl; lia|]. intros [|q] Hq; [exact HT|]. apply H. simpl in Hq. lia. }
  destruct E as (tg & E & HL & H). rewrite E. cbn [bind].
  destruct (table_of_init (transpose_length B)) as (T & E' & HT). rewrite E'. cbn [bind snd].
  eexists. split; [reflexivity|]. split; [|reflexivity]. repeat split; cbn [prfG prfB prfA].
  - lia.
  - assumption.
  - apply H. lia.
  - apply H. lia.
  - apply HT.
  - apply HT.
  - apply HA.
  - apply HA.
Qed.

Lemma dims_mtx r c : dims (mtx r c) r c.
Proof. split; [apply repeat_length|]. intros row H. apply repeat_spec in H. subst. apply repeat_length. Qed.
Lemma cell_mtx r c i j : cell (mtx r c) i j = 0%N.
Proof.
  unfold cell, mtx. destruct (Nat.lt_ge_cases i r).
  - rewrite (nth_indep _ [] (repeat 0%N c)) by (rewrite repeat_length; assumption). rewrite nth_repeat.
    apply nth_repeat.
  - rewrite (nth_overflow (repeat _ r)) by (rewrite repeat_length; assumption). destruct j; reflexivity.
Qed.

Lemma cell_out M R C r c : dims M R C -> ~ (r < R /\ c < C) -> cell M r c = 0%N.
Proof.
  intros HD H. unfold cell. destruct (Nat.lt_ge_cases r R).
  - apply nth_overflow. rewrite (dims_nth HD); [lia|assumption].
  - rewrite (nth_overflow M) by (rewrite (proj1 HD); assumption). destruct c; reflexivity.
Qed.

Lemma all_valid_in m l R C : dims m R C -> dims l R C ->
  (forall r c i, r < R -> c < C -> tvalid (cell m r c) (cell l r c) i) -> all_valid m l.
Proof.
  intros Dm Dl H r c i. destruct (Nat.lt_ge_cases r R), (Nat.lt_ge_cases c C).
  1: apply H; assumption.
  all: rewrite (cell_out (r := r) (c := c) Dm) by lia; unfold tvalid; rewrite N.bits_0; reflexivity.
Qed.

Lemma lane_length m l c i : length (lane_col m l c i) = length m.
Proof. unfold lane_col. rewrite map_length, seq_length. reflexivity. Qed.

Lemma lane_nth m l c i r : r < length m -> nth r (lane_col m l c i) 0 = trit (cell m r c) (cell l r c) i.
Proof. intros H. unfold lane_col. rewrite nth_map_seq by assumption. reflexivity. Qed.

Lemma encodeA_ok p M cols ek1 ek0 : perms_ok KeySize (prfA p) -> f3_getMatrix KeySize MidSize (prfA p) = Ok M ->
  dims ek1 KeySize cols -> dims ek0 KeySize cols -> all_valid ek1 ek0 ->
  exists u1 u0, prf_encodeA p cols ek1 ek0 = Ok (u1, u0) /\ dims u1 MidSize cols /\ dims u0 MidSize cols /\
    forall r c l, r < MidSize -> c < cols -> tvalid (cell u1 r c) (cell u0 r c) l /\
      trit (cell u1 r c) (cell u0 r c) l = nth r (matvec3 M (lane_col ek1 ek0 c l)) 0.
Proof.
  intros HP HM D1 D0 HV. unfold prf_encodeA.
  assert (Hn : MidSize < KeySize) by (unfold MidSize, KeySize; lia).
  destruct (f3_matrix_correct Hn HP) as (M' & EM & DM & HMx). rewrite HM in EM. injection EM as <-.
  assert (Hb : 0 < f3_batch) by (unfold f3_batch; simpl; lia).
  destruct (f3_encode_span_correct Hn HP Hb D1 D0 (dims_mtx MidSize cols) (dims_mtx MidSize cols) HV)
    as (io & u1 & u0 & E & Du1 & Du0 & H).
  rewrite E. cbn [bind snd]. exists u1, u0. split; [reflexivity|]. split; [assumption|]. split; [assumption|].
  intros r c l Hr Hc. destruct (H c l Hc) as (x' & y & Ey & _ & Hy). destruct (Hy r Hr) as [Hv Ht]. split; [exact Hv|].
  rewrite Ht. destruct (HMx (lane_col ek1 ek0 c l)) as [x'' Ex].
  - rewrite lane_length. apply D1.
  - intros v Hin. unfold lane_col in Hin. apply in_map_iff in Hin. destruct Hin as (q & <- & _). apply trit_lt, HV.
  - rewrite Ey in Ex. injection Ex as _ ->. reflexivity.
Qed.

Lemma w_bit_ext B f g c : c < 128 -> (forall r, r < 256 -> f r = g r) -> w_bit B f c = w_bit B g c.
Proof.
  intros Hc H. unfold w_bit. rewrite H by lia. f_equal. f_equal. apply map_ext_in. intros r Hr. apply in_seq in Hr.
  rewrite H by lia. reflexivity.
Qed.

Lemma w_bit_xor B f g c : w_bit B (fun r => xorb (f r) (g r)) c = xorb (w_bit B f c) (w_bit B g c).
Proof.
  unfold w_bit. induction (seq 0 128) as [|r l IH]; cbn [map fold_right].
  - destruct (f c), (g c); reflexivity.
  - revert IH. generalize (f (128 + r)) (g (128 + r)) (N.testbit (nth c B 0%N) (N.of_nat r)) (f c) (g c).
    match goal with |- context [fold_right xorb false ?X] => generalize (fold_right xorb false X) end.
    match goal with |- context [fold_right xorb false ?X] => generalize (fold_right xorb false X) end.
    match goal with |- context [fold_right xorb false ?X] => generalize (fold_right xorb false X) end.
    intros [] [] [] [] [] [] [] []; simpl; congruence.
Qed.

Lemma trit_odd m l i : tvalid m l i -> Nat.odd (trit m l i) = N.testbit l i.
Proof. unfold tvalid, trit. destruct (N.testbit m i), (N.testbit l i); simpl; intros; try discriminate; reflexivity. Qed.

Lemma is_prf_nat G M B key x y :
  (forall c, N.testbit y (N.of_nat c) = (c <? 128) && w_bit B (v_bit M (ek_vec G key x)) c) -> is_prf G M B key x y.
Proof.
  intros H c. rewrite <- (N2Nat.id c) at 1. rewrite H.
  destruct (N.ltb_spec c 128), (Nat.ltb_spec (N.to_nat c) 128); try lia; reflexivity.
Qed.

Lemma lane_split n i : i < n -> i / 128 < blocks128 n /\ i mod 128 < 128 /\ 128 * (i / 128) + i mod 128 = i.
Proof. unfold blocks128. intros. lia. Qed.

Lemma eval_ok G B A M p key x n : length key = KeySize ->
  length G = 3 -> (forall g, In g G -> length g = 128) -> perms_ok KeySize A ->
  prf_make G B A = Ok p -> f3_getMatrix KeySize MidSize A = Ok M -> length x = n ->
  exists y, prf_eval p key x n = Ok y /\ length y = n /\
    forall i, i < n -> is_prf G M B key (nth i x 0%N) (nth i y 0%N).
Proof.
  intros Hkey HG Hg HA Hp HM Hx. destruct (prf_make_ok B HG Hg HA) as (p' & Ep & Hok & EA).
  rewrite Hp in Ep. injection Ep as <-. unfold prf_eval. rewrite Hx, Nat.eqb_refl. cbn [negb throw_if bind].
  set (cols := blocks128 n).
  destruct (@expand_ok p G B x cols (mtx KeySize cols) Hok) as (xt & E & Dx & Hxt); [subst n; reflexivity|apply dims_mtx|].
  rewrite E. cbn [bind].
  match goal with |- context [forN 0 KeySize ?Bd (mtx KeySize cols)] =>
    destruct (forN_inv (P := fun k X => dims X KeySize cols /\ forall r c, r < k -> cell X r c = if nth r key false then cell xt r c else 0%N)
      (f := Bd) (n := KeySize) (i := 0) (s := mtx KeySize cols)) as (xk & Ek & Dk & Hk) end.
  - split; [apply dims_mtx|]. intros; lia.
  - intros r X Hr [DX HX]. rewrite (getn false) by lia. cbn [bind]. rewrite (getn []) by (rewrite (proj1 Dx); lia). cbn [bind].
    rewrite set_lt by (rewrite (proj1 DX); lia). eexists. split; [reflexivity|]. split.
    + apply dims_upd; [assumption|]. destruct (nth r key false); [apply (dims_nth Dx); lia|apply repeat_length].
    + intros r' c Hr'. unfold cell at 1. rewrite nth_upd, (proj1 DX), (proj2 (Nat.ltb_lt r KeySize)) by lia. rewrite andb_true_r.
      destruct (Nat.eqb_spec r r') as [->|Hne]; [|apply HX; lia].
      destruct (nth r' key false); [reflexivity|apply nth_repeat].
  - rewrite Ek. cbn [bind]. rewrite <- EA in HM.
    destruct (encodeA_ok (cols := cols) (ek1 := mtx KeySize cols) (ek0 := xk) (proj2 (proj2 (proj2 (proj2 Hok)))) HM) as (u1 & u0 & Eu & D1 & D0 & Hu).
    + apply dims_mtx.
    + exact Dk.
    + intros r c i. unfold tvalid. rewrite cell_mtx, N.bits_0. reflexivity.
    + rewrite Eu. cbn [bind snd]. destruct (compressB_ok (ny := n) Hok D0 eq_refl) as (y & Ey & Ly & Hy).
      exists y. split; [exact Ey|]. split; [exact Ly|]. intros i Hi. apply is_prf_nat. intros c. rewrite Hy by assumption.
      destruct (Nat.ltb_spec c 128) as [Hc|Hc]; [|reflexivity]. cbn [andb].
      destruct (lane_split Hi) as (H1 & H2 & H3). fold cols in H1.
      apply w_bit_ext; [assumption|]. intros r Hr. destruct (Hu r (i / 128) (N.of_nat (i mod 128)) Hr H1) as [Hv Ht].
      rewrite <- (trit_odd Hv), Ht. unfold v_bit. do 3 f_equal.
      apply (nth_ext _ _ 0 0).
      * rewrite lane_length. unfold ek_vec. rewrite map_length, seq_length. apply (dims_mtx KeySize cols).
      * rewrite lane_length. intros q Hq. rewrite lane_nth by assumption. rewrite (proj1 (dims_mtx _ _)) in Hq.
        unfold ek_vec. rewrite nth_map_seq by assumption. unfold trit. rewrite cell_mtx. rewrite N.bits_0. rewrite Hk by exact Hq. change (2 * b2n false) with 0. rewrite Nat.add_0_l.
        assert (He := e_cell_bit G x q (i / 128) (i mod 128)). rewrite H3 in He.
        rewrite (proj2 (Nat.ltb_lt _ _) H2) in He. cbn [andb] in He.
        destruct (nth q key false); [rewrite Hxt by assumption; rewrite He, andb_true_r; reflexivity|].
        rewrite N.bits_0, andb_false_r. reflexivity.
Qed.

(* ---------- the tail ---------- *)
Lemma segs_total A B (R : A -> B -> Prop) a b : segs_rel R a b -> total a = total b.
Proof.
  unfold total. induction 1 as [|s r ss rs H _ IH]; [reflexivity|]. simpl. rewrite !app_length, IH, (Forall2_len H). reflexivity.
Qed.

Lemma mod2_run_ok c n su ru : cor_ok c n -> length su = blocks128 n * MidSize -> length ru = blocks128 n * MidSize ->
  mod2_check c n = Ok tt /\ exists a b, mod2_run c su ru = Ok (a, b) /\ Forall4 mod2_good su ru a b.
Proof.
  intros Hc Hs Hr. destruct c as [ss rs|ss rs]; cbn [cor_ok mod2_check mod2_run] in *.
  - destruct Hc as [H Ht]. assert (Ht' := segs_total H). unfold total in *. rewrite Ht', Ht, Nat.eqb_refl.
    split; [reflexivity|]. destruct (f4_all H (v := su) (u := ru)) as (cor & dl & a & b & E1 & E2 & E3 & HF); [lia|unfold total; lia|].
    rewrite E1. cbn [bind]. rewrite E2. cbn [bind fst snd]. rewrite E3. exists a, b. split; [reflexivity|assumption].
  - destruct Hc as (H & Ht & He). assert (Ht' := segs_total H). unfold total in *. rewrite Ht', Ht, Nat.eqb_refl.
    split; [reflexivity|]. destruct (ole_all H He (v := su) (u := ru)) as (cor & dl & a & b & E1 & E2 & E3 & HF); [lia|unfold total; lia|].
    rewrite E1. cbn [bind]. rewrite E2. cbn [bind fst snd]. rewrite E3. exists a, b. split; [reflexivity|assumption].
Qed.

Lemma concat_len M R C : dims M R C -> length (concat M : list N) = R * C.
Proof.
  revert R. induction M as [|row M IH]; intros R [HL H]; simpl in *; [subst; reflexivity|].
  destruct R as [|R]; [lia|]. rewrite app_length, (H row) by (left; reflexivity).
  rewrite (IH R); [simpl; lia|]. split; [lia|]. intros; apply H; right; assumption.
Qed.

Lemma concat_cell M R C r c : dims M R C -> c < C -> r < R -> nth (r * C + c) (concat M) 0%N = cell M r c.
Proof.
  revert R r. induction M as [|row M IH]; intros R r [HL H] Hc Hr; simpl in HL; [lia|].
  assert (Lr : length row = C) by (apply H; left; reflexivity).
  destruct r as [|r]; simpl concat; unfold cell.
  - rewrite app_nth1 by (simpl; lia). reflexivity.
  - rewrite app_nth2 by (simpl; lia). replace (S r * C + c - length row) with (r * C + c) by (simpl; lia).
    cbn [nth]. apply (IH (R - 1)); [split; [lia|intros; apply H; right; assumption]|assumption|lia].
Qed.

Lemma take_rows_dims : forall R C l, length l = R * C -> dims (take_rows R C l : list (list N)) R C.
Proof.
  induction R as [|R IH]; intros C l HL; cbn [take_rows].
  - split; [reflexivity|]. intros ? [].
  - simpl in HL. destruct (IH C (skipn C l)) as [H1 H2]; [rewrite skipn_length; lia|].
    split; [simpl; lia|]. intros row [<-|Hin]; [rewrite firstn_length; lia|apply H2; assumption].
Qed.

Lemma take_rows_cell : forall R C l r c, length l = R * C -> r < R -> c < C ->
  cell (take_rows R C l) r c = nth (r * C + c) l 0%N.
Proof.
  induction R as [|R IH]; intros C l r c HL Hr Hc; [lia|]. cbn [take_rows]. simpl in HL. unfold cell.
  assert (E : l = firstn C l ++ skipn C l) by (symmetry; apply firstn_skipn).
  destruct r as [|r]; cbn [nth].
  - rewrite E at 2. rewrite app_nth1 by (rewrite firstn_length; simpl; lia). reflexivity.
  - rewrite E at 2. rewrite app_nth2 by (rewrite firstn_length; simpl; lia).
    fold (cell (take_rows R C (skipn C l)) r c). rewrite IH by (rewrite ?skipn_length; lia).
    f_equal. rewrite firstn_length. simpl. lia.
Qed.

Lemma index_lt r c R C : r < R -> c < C -> r * C + c < R * C.
Proof. nia. Qed.

Lemma nth_combine A B (a : list A) (b : list B) i da db : length a = length b -> nth i (combine a b) (da, db) = (nth i a da, nth i b db).
Proof. intros; apply combine_nth; assumption. Qed.

Lemma matvec3_add M R K x y r : dims M R K -> length x = K -> length y = K -> r < R ->
  nth r (matvec3 M (add3 x y)) 0 = (nth r (matvec3 M x) 0 + nth r (matvec3 M y) 0) mod 3.
Proof.
  intros HD Hx Hy Hr. unfold matvec3.
  assert (K0 : forall z, nth r (map (fun row => dot3 row z) M) 0 = dot3 (nth r M []) z).
  { intros z. rewrite (nth_indep _ 0 (dot3 [] z)) by (rewrite map_length, (proj1 HD); assumption). apply (map_nth (fun row => dot3 row z)). }
  rewrite !K0. assert (HL : length (nth r M []) = K) by (apply (proj2 HD), nth_In; rewrite (proj1 HD); assumption).
  apply dot3_linear; lia.
Qed.

Lemma tail_ok p G B M c n sek1 sek0 rek1 rek0 (ek : nat -> nat -> list nat) :
  prf_ok p G B -> f3_getMatrix KeySize MidSize (prfA p) = Ok M -> cor_ok c n ->
  dims sek1 KeySize (blocks128 n) -> dims sek0 KeySize (blocks128 n) -> all_valid sek1 sek0 ->
  dims rek1 KeySize (blocks128 n) -> dims rek0 KeySize (blocks128 n) -> all_valid rek1 rek0 ->
  (forall k l, k < blocks128 n -> l < 128 ->
     add3 (lane_col sek1 sek0 k (N.of_nat l)) (lane_col rek1 rek0 k (N.of_nat l)) = ek k l) ->
  exists ys yr, prf_tail p c n (sek1, sek0) (rek1, rek0) = Ok (ys, yr) /\ length ys = n /\ length yr = n /\
    forall i q, i < n -> N.testbit (N.lxor (nth i ys 0%N) (nth i yr 0%N)) (N.of_nat q) =
      (q <? 128) && w_bit B (v_bit M (ek (i / 128) (i mod 128))) q.
Proof.
  intros Hok HM Hc Ds1 Ds0 Vs Dr1 Dr0 Vr Hek. unfold prf_tail. cbn [fst snd]. set (cols := blocks128 n) in *.
  assert (HP : perms_ok KeySize (prfA p)) by apply Hok.
  assert (Hn : MidSize < KeySize) by (unfold MidSize, KeySize; lia).
  destruct (f3_matrix_correct Hn HP) as (M' & EM & DM & _). rewrite HM in EM. injection EM as <-.
  destruct (encodeA_ok HP HM Ds1 Ds0 Vs) as (su1 & su0 & Es & Dsu1 & Dsu0 & Hsu).
  destruct (encodeA_ok HP HM Dr1 Dr0 Vr) as (ru1 & ru0 & Er & Dru1 & Dru0 & Hru).
  rewrite Es. cbn [bind]. rewrite Er. cbn [bind]. unfold flat2. cbn [fst snd].
  assert (L1 := concat_len Dsu1). assert (L0 := concat_len Dsu0). assert (L1' := concat_len Dru1). assert (L0' := concat_len Dru0).
  destruct (@mod2_run_ok c n (combine (concat su0) (concat su1)) (combine (concat ru0) (concat ru1)) Hc) as (_ & a & b & E & HF);
    [rewrite combine_length; lia..|].
  rewrite E. cbn [bind fst snd].
  destruct (Forall4_length HF) as (_ & La & Lb). rewrite combine_length, L0, L1, Nat.min_id in La, Lb.
  assert (Da := @take_rows_dims MidSize cols a La). assert (Db := @take_rows_dims MidSize cols b Lb).
  destruct (compressB_ok (ny := n) Hok Da eq_refl) as (ys & Eys & Lys & Hys).
  destruct (compressB_ok (ny := n) Hok Db eq_refl) as (yr & Eyr & Lyr & Hyr).
  rewrite Eys. cbn [bind]. rewrite Eyr. cbn [bind]. exists ys, yr. split; [reflexivity|]. split; [assumption|]. split; [assumption|].
  intros i q Hi. rewrite N.lxor_spec, Hys, Hyr by assumption.
  destruct (Nat.ltb_spec q 128) as [Hq|Hq]; [|reflexivity]. cbn [andb]. rewrite <- w_bit_xor.
  apply w_bit_ext; [assumption|]. intros r Hr. destruct (lane_split Hi) as (H1 & H2 & H3). fold cols in H1.
  rewrite !take_rows_cell by assumption.
  assert (Hi' := index_lt Hr H1).
  assert (HG := Forall4_nth HF (0%N, 0%N) (0%N, 0%N) 0%N 0%N (k := r * cols + i / 128)).
  rewrite !nth_combine in HG by congruence.
  rewrite (concat_cell Dsu0), (concat_cell Dsu1), (concat_cell Dru0), (concat_cell Dru1) in HG by assumption.
  set (l := N.of_nat (i mod 128)) in *.
  destruct (Hsu r (i / 128) l Hr H1) as [Vu Tu]. destruct (Hru r (i / 128) l Hr H1) as [Vu' Tu'].
  assert (HL : (l < 128)%N) by (subst l; clear - H2; lia).
  assert (Hi2 : r * cols + i / 128 < length (combine (concat su0) (concat su1))) by (rewrite combine_length, L0, L1, Nat.min_id; exact Hi').
  assert (HG2 := HG Hi2 l HL Vu Vu'). cbn [fst snd] in HG2. etransitivity; [exact HG2|]. rewrite Tu, Tu'. unfold v_bit. rewrite <- Hek by assumption.
  rewrite (matvec3_add DM); [reflexivity|rewrite lane_length; apply Ds1|rewrite lane_length; apply Dr1|exact Hr].
Qed.

(* ---------- key multiplication outputs as matrices ---------- *)
Lemma dims_map A (f : A -> list N) l R C : length l = R -> (forall a, In a l -> length (f a) = C) -> dims (map f l) R C.
Proof.
  intros HL H. split; [rewrite map_length; assumption|]. intros row Hin. apply in_map_iff in Hin.
  destruct Hin as (a & <- & Ha). apply H. assumption.
Qed.

Lemma cell_map A (f : A -> list N) l r c a : nth_error l r = Some a -> cell (map f l) r c = nthN (f a) c.
Proof. intros H. unfold cell, nthN. f_equal. apply nth_error_nth. rewrite nth_error_map, H. reflexivity. Qed.

Lemma km_mats_ok P Q k0 k1 cols xl xm (os : list (P * (list N * list N))) (or : list (Q * (list N * list N))) :
  km_shares k0 k1 cols xl xm os or ->
  let S := km_mats os in let R := km_mats or in
  dims (fst S) KeySize cols /\ dims (snd S) KeySize cols /\ all_valid (fst S) (snd S) /\
  dims (fst R) KeySize cols /\ dims (snd R) KeySize cols /\ all_valid (fst R) (snd R) /\
  forall r c l, r < KeySize -> c < cols ->
    (trit (cell (fst S) r c) (cell (snd S) r c) l + trit (cell (fst R) r c) (cell (snd R) r c) l) mod 3 =
      if xorb (k0 r) (k1 r) then xval xl xm r c l else 0.
Proof.
  intros (Ls & Lr & H). cbn zeta. unfold km_mats; cbn [fst snd].
  assert (HS : forall r, r < KeySize -> exists s t, nth_error os r = Some s /\ nth_error or r = Some t).
  { intros r Hr. destruct (nth_error os r) as [s|] eqn:E1; [|apply nth_error_None in E1; lia].
    destruct (nth_error or r) as [t|] eqn:E2; [|apply nth_error_None in E2; lia]. exists s, t. split; reflexivity. }
  assert (D1 : dims (map (fun x => fst (snd x)) os) KeySize cols).
  { apply dims_map; [assumption|]. intros a Ha. destruct (In_nth_error _ _ Ha) as [r Hr].
    destruct (HS r) as (s & t & E1 & E2); [rewrite <- Ls; apply nth_error_Some; congruence|].
    rewrite Hr in E1. injection E1 as <-. apply (H r a t Hr E2). }
  assert (D2 : dims (map (fun x => snd (snd x)) os) KeySize cols).
  { apply dims_map; [assumption|]. intros a Ha. destruct (In_nth_error _ _ Ha) as [r Hr].
    destruct (HS r) as (s & t & E1 & E2); [rewrite <- Ls; apply nth_error_Some; congruence|].
    rewrite Hr in E1. injection E1 as <-. apply (H r a t Hr E2). }
  assert (D3 : dims (map (fun x => fst (snd x)) or) KeySize cols).
  { apply dims_map; [assumption|]. intros a Ha. destruct (In_nth_error _ _ Ha) as [r Hr].
    destruct (HS r) as (s & t & E1 & E2); [rewrite <- Lr; apply nth_error_Some; congruence|].
    rewrite Hr in E2. injection E2 as <-. apply (H r s a E1 Hr). }
  assert (D4 : dims (map (fun x => snd (snd x)) or) KeySize cols).
  { apply dims_map; [assumption|]. intros a Ha. destruct (In_nth_error _ _ Ha) as [r Hr].
    destruct (HS r) as (s & t & E1 & E2); [rewrite <- Lr; apply nth_error_Some; congruence|].
    rewrite Hr in E2. injection E2 as <-. apply (H r s a E1 Hr). }
  assert (HC : forall r c l, r < KeySize -> c < cols -> exists s t, nth_error os r = Some s /\ nth_error or r = Some t /\
     tvalid (nthN (fst (snd s)) c) (nthN (snd (snd s)) c) l /\ tvalid (nthN (fst (snd t)) c) (nthN (snd (snd t)) c) l /\
      (trit (nthN (fst (snd s)) c) (nthN (snd (snd s)) c) l + trit (nthN (fst (snd t)) c) (nthN (snd (snd t)) c) l) mod 3 =
        if xorb (k0 r) (k1 r) then xval xl xm r c l else 0).
  { intros r c l Hr Hc. destruct (HS r Hr) as (s & t & E1 & E2). exists s, t. split; [assumption|]. split; [assumption|].
    destruct (H r s t E1 E2) as (_ & _ & _ & _ & K). exact (K c l Hc). }
  split; [exact D1|]. split; [exact D2|]. split.
  { apply (all_valid_in D1 D2). intros r c l Hr Hc. destruct (HC r c l Hr Hc) as (s & t & E1 & E2 & V & _).
    rewrite !(fun f c => @cell_map _ f _ _ c _ E1). exact V. }
  split; [exact D3|]. split; [exact D4|]. split.
  { apply (all_valid_in D3 D4). intros r c l Hr Hc. destruct (HC r c l Hr Hc) as (s & t & E1 & E2 & _ & V & _).
    rewrite !(fun f c => @cell_map _ f _ _ c _ E2). exact V. }
  intros r c l Hr Hc. destruct (HC r c l Hr Hc) as (s & t & E1 & E2 & _ & _ & V).
  rewrite !(fun f c => @cell_map _ f _ _ c _ E1), !(fun f c => @cell_map _ f _ _ c _ E2). exact V.
Qed.

Lemma joint_nth share key r : r < KeySize -> nth r (joint_key share key) false = xorb (share_bit share r) (nth r key false).
Proof. intros H. unfold joint_key. rewrite nth_map_seq by assumption. reflexivity. Qed.

Lemma dims_xdims (M : list (list N)) r c : dims M r c -> xdims M r c.
Proof. exact (fun H => H). Qed.

Lemma add3_length x y : length (add3 x y) = Nat.min (length x) (length y).
Proof. unfold add3. apply map2_length. Qed.

Lemma add3_nth x y r : r < length x -> r < length y -> nth r (add3 x y) 0 = (nth r x 0 + nth r y 0) mod 3.
Proof.
  intros Hx Hy. erewrite nth_error_nth; [reflexivity|]. unfold add3. rewrite nth_error_map2.
  rewrite (nth_error_nth_lt 0 Hx), (nth_error_nth_lt 0 Hy). reflexivity.
Qed.

Lemma run_ro_ok G B A M p fuel c n ros rshare sos skey x :
  length G = 3 -> (forall g, In g G -> length g = 128) -> perms_ok KeySize A ->
  prf_make G B A = Ok p -> f3_getMatrix KeySize MidSize A = Ok M ->
  0 < n -> length x = n -> cor_ok c n -> ots_ok ros sos skey ->
  prf_run_ro fuel p c n ros rshare sos skey x = Hang \/
  exists ys yr, prf_run_ro fuel p c n ros rshare sos skey x = Ok (ys, yr) /\ length ys = n /\ length yr = n /\
    forall i, i < n -> is_prf G M B (joint_key rshare skey) (nth i x 0%N) (N.lxor (nth i ys 0%N) (nth i yr 0%N)).
Proof.
  intros HG Hg HA Hp HM Hn Hx Hc Hots. destruct (prf_make_ok B HG Hg HA) as (p' & Ep & Hok & EA).
  rewrite Hp in Ep. injection Ep as <-. rewrite <- EA in HM. unfold prf_run_ro.
  destruct (Nat.eqb_spec n 0); [lia|]. rewrite Hx, Nat.eqb_refl. cbn [negb throw_if bind].
  assert (Hchk : mod2_check c n = Ok tt).
  { apply (@mod2_run_ok c n (repeat (0%N,0%N) (blocks128 n * MidSize)) (repeat (0%N,0%N) (blocks128 n * MidSize)) Hc); apply repeat_length. }
  rewrite Hchk. cbn [bind]. set (cols := blocks128 n).
  destruct (@expand_ok p G B x cols (mtx KeySize cols) Hok) as (e & E & De & He); [subst n; reflexivity|apply dims_mtx|].
  rewrite E. cbn [bind].
  assert (Hin : km_input ((n + 127) / 128) e []) by (split; [exact De|left; reflexivity]).
  destruct (mult_ok fuel rshare Hots Hin) as [Eh|(msgs & os & or & E1 & E2 & _ & HS)].
  { left. fold (blocks128 n) in Eh. unfold cols. rewrite Eh. reflexivity. }
  fold (blocks128 n) in *. fold cols in E1, HS. rewrite E1. cbn [bind fst snd]. rewrite E2. cbn [bind]. right.
  destruct (km_mats_ok HS) as (Ds1 & Ds0 & Vs & Dr1 & Dr0 & Vr & Hsum).
  destruct (km_mats os) as [s1 s0], (km_mats or) as [r1 r0]. cbn [fst snd] in *.
  destruct (@tail_ok p G B M c n r1 r0 s1 s0 (fun k l => ek_vec G (joint_key rshare skey) (nth (128 * k + l) x 0%N))
    Hok HM Hc Dr1 Dr0 Vr Ds1 Ds0 Vs) as (ys & yr & Et & Lys & Lyr & Hy).
  - intros k l Hk Hl. apply (nth_ext _ _ 0 0).
    + rewrite add3_length, !lane_length, (proj1 Dr1), (proj1 Ds1). unfold ek_vec. rewrite map_length, seq_length. reflexivity.
    + rewrite add3_length, !lane_length, (proj1 Dr1), (proj1 Ds1), Nat.min_id. intros r Hr.
      rewrite add3_nth by (rewrite lane_length, ?(proj1 Dr1), ?(proj1 Ds1); exact Hr).
      rewrite !lane_nth by (rewrite ?(proj1 Dr1), ?(proj1 Ds1); exact Hr).
      rewrite Nat.add_comm, Hsum by assumption. unfold ek_vec. rewrite nth_map_seq by exact Hr.
      rewrite joint_nth by exact Hr. unfold xval. cbn [length Nat.eqb].
      change (wrd e r k) with (cell e r k). rewrite He, e_cell_bit, (proj2 (Nat.ltb_lt _ _) Hl) by assumption. cbn [andb].
      destruct (xorb _ _); rewrite ?andb_true_r, ?andb_false_r; reflexivity.
  - exists ys, yr. split; [exact Et|]. split; [exact Lys|]. split; [exact Lyr|]. intros i Hi. apply is_prf_nat. intros q.
    rewrite Hy by assumption. destruct (lane_split Hi) as (_ & _ & H3). rewrite H3. reflexivity.
Qed.
