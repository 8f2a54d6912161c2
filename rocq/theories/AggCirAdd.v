From Verif Require Import Base GmwModel GmwSpec AggModel AggCirModel AggCirSpec AggCirProofs AggCirBuild GroupByModel.

Lemma frag_appends c c' gs m ins outs writes : frag c c' gs m ins outs writes -> wires_in c ins -> apart writes ins -> appends c c' gs m ins outs writes.
Proof. intros (-> & A1 & A2 & A3) HW HA. split; [reflexivity|]. split; [exact A1|]. split; [|exact A3]. apply A2; auto. Qed.

Lemma frag_app c c1 c2 g1 g2 m1 m2 i1 i2 o1 o2 w1 w2 : frag c c1 g1 m1 i1 o1 w1 -> frag c1 c2 g2 m2 i2 o2 w2 ->
  (forall w, In w w2 -> w < cWires c \/ True) ->
  frag c c2 (g1 ++ g2) (m1 + m2) (i1 ++ i2) (o1 ++ o2) (w1 ++ w2).
Proof.
  intros (-> & A1 & A2 & A3) (-> & B1 & B2 & B3) _. unfold frag. cbn [cWires cIns cOuts cGates] in *.
  split; [f_equal; [lia|rewrite app_assoc; reflexivity]|]. split; [|split].
  - intros g Hg. apply in_app_or in Hg. destruct Hg as [Hg|Hg].
    + destruct (A1 g Hg) as (T & (R1 & R2) & [K|K]); (split; [exact T|split; [lia|]]); [left; apply in_or_app; left; exact K|right; lia].
    + destruct (B1 g Hg) as (T & (R1 & R2) & [K|K]); (split; [exact T|split; [lia|]]); [left; apply in_or_app; right; exact K|right; lia].
  - intros I E HE HW HI. apply well_def_app.
    + apply A2; [intros w Hw; apply HE, in_or_app; left; exact Hw|intros w Hw; apply HW, in_or_app; left; exact Hw|exact HI].
    + intros E' HE'. apply B2; [intros w Hw; apply HE'; left; apply HE, in_or_app; right; exact Hw|intros w Hw; apply HW, in_or_app; right; exact Hw|].
      intros w Hw. apply HI in Hw. lia.
  - intros w Hw. apply in_app_or in Hw. destruct Hw as [Hw|Hw].
    + destruct (A3 w Hw) as (g & Hg & E). exists g. split; [apply in_or_app; left; exact Hg|exact E].
    + destruct (B3 w Hw) as (g & Hg & E). exists g. split; [apply in_or_app; right; exact Hg|exact E].
Qed.
Lemma frag_weaken c c' gs m ins outs w ins' w' : frag c c' gs m ins outs w -> (forall x, In x ins -> In x ins') ->
  (forall x, In x w -> In x w' \/ cWires c <= x < cWires c + m) -> frag c c' gs m ins' outs w'.
Proof.
  intros (-> & A1 & A2 & A3) HI HW. split; [reflexivity|]. split; [|split; [|exact A3]].
  - intros g Hg. destruct (A1 g Hg) as (T & R & [K|K]); (split; [exact T|split; [exact R|]]); [apply HW; exact K|right; exact K].
  - intros I E HE HW' HI'. apply A2; [auto| |exact HI']. intros x Hx K. destruct (HW x Hx) as [H|H]; [exact (HW' x H K)|]. apply HI' in K. lia.
Qed.

Section Fields.
Variable add : adder.
Hypothesis AD : adder_ok add.
Variables a b out : list nat.
Hypothesis ND : NoDup (a ++ b ++ out).

Lemma sub_in {A} (l : list A) o n x : In x (slice l o n) -> In x l.
Proof. unfold slice. intros H. rewrite <- (firstn_skipn o l). apply in_or_app. right. rewrite <- (firstn_skipn n (skipn o l)). apply in_or_app. left. exact H. Qed.
Lemma sub_nodup {A} (l : list A) o n : NoDup l -> NoDup (slice l o n).
Proof. unfold slice. intros H. rewrite <- (firstn_skipn o l) in H. apply nodup_app_r in H. rewrite <- (firstn_skipn n (skipn o l)) in H. exact (nodup_app_l H). Qed.
Lemma slice_more {A} (l : list A) o n m : slice l o (n + m) = slice l o n ++ slice l (o + n) m.
Proof.
  unfold slice. assert (E : skipn (o + n) l = skipn n (skipn o l)).
  { clear. revert l. induction o as [|o IH]; intros l; [reflexivity|]. destruct l as [|x l]; cbn [Nat.add skipn]; [destruct n; reflexivity|apply IH]. }
  rewrite E. generalize (skipn o l). clear. intros l. revert l. induction n as [|n IH]; intros l; [reflexivity|].
  destruct l as [|x l]; cbn [Nat.add firstn skipn app]; [rewrite firstn_nil; reflexivity|]. f_equal. apply IH.
Qed.
Lemma firstn_slice {A} (l : list A) o n m : o + n <= length l -> firstn n (slice l o (n + m)) = slice l o n.
Proof. intros H. rewrite slice_more. rewrite firstn_app. assert (L : length (slice l o n) = n) by (unfold slice; rewrite firstn_length, skipn_length; lia). rewrite L, Nat.sub_diag, firstn_O, app_nil_r. rewrite <- L at 1. apply firstn_all. Qed.
Lemma skipn_slice {A} (l : list A) o n m : o + n <= length l -> skipn n (slice l o (n + m)) = slice l (o + n) m.
Proof. intros H. rewrite slice_more. rewrite skipn_app. assert (L : length (slice l o n) = n) by (unfold slice; rewrite firstn_length, skipn_length; lia). rewrite L, Nat.sub_diag. rewrite skipn_all2 by lia. reflexivity. Qed.

Lemma out_apart : forall w, In w out -> ~ In w a /\ ~ In w b.
Proof.
  intros w Hw. split; intros K; [apply (nodup_app_apart ND K), in_or_app; right; exact Hw|]. exact (nodup_app_apart (nodup_app_r ND) K Hw).
Qed.
Lemma slices_apart (l : list nat) o n m : NoDup l -> apart (slice l o n) (slice l (o + n) m).
Proof.
  intros H w H1 H2. assert (N : NoDup (slice l o (n + m))) by (apply sub_nodup, H). rewrite slice_more in N. exact (nodup_app_apart N H1 H2).
Qed.

Lemma fields_ok ws : forall pre cur c, let k := fold_right Nat.add 0 ws in
  cur = fold_right Nat.add 0 pre -> cur + k <= length a -> cur + k <= length b -> cur + k <= length out ->
  wires_in c a -> wires_in c b -> wires_in c out ->
  exists gs m c', forN (length pre) (length ws) (fun i (s : nat * circuit) =>
    let '(cur, c) := s in
    do size <- get (pre ++ ws) i;
    do a <- readN a cur size; do b <- readN b cur size; do o <- readN out cur size;
    let '(t, c) := cir_temp (size * 2) c in
    do c <- add c a b o t;
    Ok (cur + size, c)) (cur, c) = Ok (cur + k, c') /\ frag c c' gs m (a ++ b) (slice out cur k) (slice out cur k) /\
    forall e, map (eval gs e) (slice out cur k) = add_fields ws (map e (slice a cur k)) (map e (slice b cur k)).
Proof.
  induction ws as [|w ws IH]; intros pre cur c k Hc La Lb Lo Wa Wb Wo.
  - exists [], 0, c. cbn [length forN]. unfold k. cbn [fold_right]. split; [rewrite Nat.add_0_r; reflexivity|]. split.
    + split; [rewrite Nat.add_0_r, app_nil_r; destruct c; reflexivity|]. split; [intros g []|]. split; [intros; exact Logic.I|]. intros x [].
    + intros e. reflexivity.
  - unfold k in *. cbn [fold_right] in *. set (kk := fold_right Nat.add 0 ws) in *. cbn [length]. rewrite forN_S.
    unfold get at 1. rewrite nth_error_app2, Nat.sub_diag by lia. cbn [nth_error bind].
    rewrite !readN_ok by lia. cbn [bind]. unfold cir_temp. set (c1 := Circuit (cWires c + w * 2) (cIns c) (cOuts c) (cGates c)).
    assert (LS : forall l : list nat, cur + (w + kk) <= length l -> length (slice l cur w) = w) by (intros l H; unfold slice; rewrite firstn_length, skipn_length; lia).
    pose proof out_apart as OA.
    destruct (AD (n := w) (c := c1) (a := slice a cur w) (b := slice b cur w) (out := slice out cur w) (t := seq (cWires c) (w * 2))) as (g1 & m1 & c2 & E & A & S); auto.
    + apply seq_length.
    + intros x Hx. apply sub_in, Wa in Hx. cbn [c1 cWires]. lia.
    + intros x Hx. apply sub_in, Wb in Hx. cbn [c1 cWires]. lia.
    + intros x Hx. apply sub_in, Wo in Hx. cbn [c1 cWires]. lia.
    + intros x Hx. apply in_seq in Hx. cbn [c1 cWires]. lia.
    + pose proof (nodup_app_l ND). pose proof (nodup_app_l (nodup_app_r ND)). pose proof (nodup_app_r (nodup_app_r ND)).
      apply nodup_app_intro; [apply sub_nodup; assumption| |].
      * apply nodup_app_intro; [apply sub_nodup; assumption| |].
        -- apply nodup_app_intro; [apply sub_nodup; assumption|apply seq_NoDup|]. intros x Hx K. apply sub_in, Wo in Hx. apply in_seq in K. lia.
        -- intros x Hx K. apply in_app_or in K. apply sub_in in Hx. destruct K as [K|K]; [apply sub_in in K; apply (proj2 (OA x K)), Hx|]. apply Wb in Hx. apply in_seq in K. lia.
      * intros x Hx K. apply sub_in in Hx. apply in_app_or in K. destruct K as [K|K].
        -- apply sub_in in K. apply (nodup_app_apart ND Hx), in_or_app. left. exact K.
        -- apply in_app_or in K. destruct K as [K|K]; [apply sub_in in K; apply (proj1 (OA x K)), Hx|]. apply Wa in Hx. apply in_seq in K. lia.
    + rewrite E. cbn [bind]. pose proof (appends_frag A) as FA.
      assert (E2 : cWires c2 = cWires c + w * 2 + m1) by (destruct A as (-> & _); reflexivity).
      destruct (IH (pre ++ [w]) (cur + w) c2) as (g2 & m2 & c3 & E3 & F3 & S3); fold kk; try lia.
      * rewrite Hc. clear. induction pre as [|p pre IH]; cbn [app fold_right]; lia.
      * intros x Hx. apply Wa in Hx. lia.
      * intros x Hx. apply Wb in Hx. lia.
      * intros x Hx. apply Wo in Hx. lia.
      * fold kk in E3, F3, S3. exists (g1 ++ g2), (w * 2 + m1 + m2), c3. split; [|split].
        -- rewrite app_length in E3. cbn [length] in E3. rewrite <- app_assoc in E3. cbn [app] in E3. unfold cir_temp in E3. rewrite E3. do 2 f_equal. lia.
        -- assert (F0 : frag c c1 [] (w * 2) [] [] []).
           { split; [unfold c1; rewrite app_nil_r; reflexivity|]. split; [intros g []|]. split; [intros; exact Logic.I|]. intros x []. }
           pose proof (frag_app (frag_app F0 FA (fun _ _ => or_intror Logic.I)) F3 (fun _ _ => or_intror Logic.I)) as FF.
           cbn [app] in FF. rewrite slice_more. apply (frag_weaken FF).
           ++ intros x Hx. rewrite !in_app_iff in *. destruct Hx as [[Hx|Hx]|Hx]; [left|right|exact Hx]; exact (@sub_in _ _ _ _ _ Hx).
           ++ intros x Hx. rewrite !in_app_iff in *. destruct Hx as [[Hx|Hx]|Hx]; [left; left; exact Hx|right; apply in_seq in Hx; lia|left; right; exact Hx].
        -- intros e. rewrite eval_app. cbn [add_fields]. rewrite slice_more, map_app. f_equal.
           ++ rewrite (frag_frame F3).
              ** rewrite S. rewrite !firstn_map, !firstn_slice by lia. reflexivity.
              ** intros x Hx. split; [apply sub_in, Wo in Hx; lia|]. exact (@slices_apart out cur w kk (nodup_app_r (nodup_app_r ND)) x Hx).
           ++ rewrite S3. rewrite !skipn_map, !skipn_slice by lia. f_equal.
              ** apply (frag_frame FA). intros x Hx. apply sub_in in Hx. split; [apply Wa in Hx; cbn [c1 cWires]; lia|].
                 intros K. apply in_app_or in K. destruct K as [K|K]; [apply sub_in in K; apply (proj1 (OA x K)), Hx|]. apply Wa in Hx. apply in_seq in K. lia.
              ** apply (frag_frame FA). intros x Hx. apply sub_in in Hx. split; [apply Wb in Hx; cbn [c1 cWires]; lia|].
                 intros K. apply in_app_or in K. destruct K as [K|K]; [apply sub_in in K; apply (proj2 (OA x K)), Hx|]. apply Wb in Hx. apply in_seq in K. lia.
Qed.
End Fields.

Lemma add_circuit_ok add ws : adder_ok add -> operator_ok (fold_right Nat.add 0 ws) (add_fields ws) (add_circuit add ws).
Proof.
  intros AD c a b out La Lb Lo Wa Wb Wo ND.
  destruct (@fields_ok add AD a b out ND ws [] 0 c) as (gs & m & c' & E & F & S); auto; try lia.
  cbn [length app] in E. exists gs, m, c'. unfold add_circuit. rewrite E. cbn [bind snd].
  assert (SA : forall (l : list nat), length l = fold_right Nat.add 0 ws -> slice l 0 (fold_right Nat.add 0 ws) = l) by (intros l <-; unfold slice; apply firstn_all).
  rewrite !SA in F, S by assumption. rewrite !SA in S by assumption. split; [reflexivity|]. split; [|exact S].
  apply (frag_appends F).
  - intros x Hx. apply in_app_or in Hx. destruct Hx; auto.
  - intros x Hx K. rewrite app_assoc in ND. exact (nodup_app_apart ND K Hx).
Qed.

Local Open Scope N_scope.
Lemma bnum_app x y : bnum (x ++ y) = bnum x + 2 ^ N.of_nat (length x) * bnum y.
Proof.
  induction x as [|b x IH]; cbn [app bnum length]; [cbn [N.of_nat]; rewrite N.pow_0_r; lia|].
  rewrite IH, Nat2N.inj_succ, N.pow_succ_r'. lia.
Qed.
Lemma bnum_lt x : bnum x < 2 ^ N.of_nat (length x).
Proof. induction x as [|b x IH]; cbn [bnum length]; [cbn; lia|]. rewrite Nat2N.inj_succ, N.pow_succ_r'. destruct b; cbn [N.b2n]; lia. Qed.
Lemma nbits_S k z : nbits (S k) z = N.odd z :: nbits k (N.div2 z).
Proof.
  unfold nbits. cbn [seq map]. apply (f_equal2 cons); [apply N.bit0_odd|]. rewrite <- seq_shift, map_map. apply map_ext. intros i. rewrite Nat2N.inj_succ, N.div2_spec, N.shiftr_spec by lia. f_equal. lia.
Qed.
Lemma bnum_nbits k : forall z, bnum (nbits k z) = z mod 2 ^ N.of_nat k.
Proof.
  induction k as [|k IH]; intros z; [cbn [bnum nbits map seq N.of_nat]; rewrite N.pow_0_r, N.mod_1_r; reflexivity|].
  rewrite nbits_S. cbn [bnum]. rewrite IH, Nat2N.inj_succ, N.pow_succ_r', N.mod_mul_r by (try apply N.pow_nonzero; lia).
  rewrite <- N.div2_div. f_equal. rewrite <- N.bit0_odd, N.bit0_mod. reflexivity.
Qed.
Lemma nbits_length k z : length (nbits k z) = k.
Proof. unfold nbits. rewrite map_length, seq_length. reflexivity. Qed.
Lemma add_fields_padd ws : forall x y, length x = fold_right Nat.add 0%nat ws -> length y = fold_right Nat.add 0%nat ws ->
  length (add_fields ws x y) = fold_right Nat.add 0%nat ws /\ bnum (add_fields ws x y) = padd ws (bnum x) (bnum y).
Proof.
  induction ws as [|w ws IH]; intros x y Lx Ly; [split; reflexivity|]. cbn [add_fields padd fold_right] in *.
  destruct (IH (skipn w x) (skipn w y)) as (L & E); [rewrite skipn_length; lia|rewrite skipn_length; lia|].
  rewrite app_length, nbits_length, L. split; [reflexivity|]. rewrite bnum_app, nbits_length, bnum_nbits, E.
  rewrite <- (firstn_skipn w x) at 3 4. rewrite <- (firstn_skipn w y) at 3 4. rewrite !bnum_app, !firstn_length, !Nat.min_l by lia.
  pose proof (bnum_lt (firstn w x)) as B1. pose proof (bnum_lt (firstn w y)) as B2. rewrite firstn_length, Nat.min_l in B1, B2 by lia.
  set (P := 2 ^ N.of_nat w) in *. assert (HP : P <> 0) by (apply N.pow_nonzero; lia).
  f_equal.
  - set (u := bnum (firstn w x)) in *. set (v := bnum (firstn w y)) in *. set (s := bnum (skipn w x)). set (t := bnum (skipn w y)).
    replace (u + P * s + (v + P * t)) with (u + v + (s + t) * P) by lia. rewrite N.mod_add by exact HP. reflexivity.
  - f_equal. f_equal; rewrite N.mul_comm, N.div_add by exact HP; rewrite N.div_small by assumption; lia.
Qed.
