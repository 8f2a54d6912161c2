(* The join: from the loaded keys to the tables. *)
From Verif Require Import Base Words PermModel PermSpec PermProofs PermCorProofs KeyMultModel ShuffleModel ShuffleSpec RadixModel RadixSpec GmwModel GmwSpec AggModel AggSpec
  TableModel TableSpec TrimProofs TableProofs TableSortProofs
  TableOpsSpec JoinProofs AverageProofs BitInjProofs OmJoinModel OmJoinSpec CtrlProofs BlockProofs PackProofs OmJoinProofs.

Lemma comp_size_pos a b : 40 <= comp_size a b.
Proof. unfold comp_size. lia. Qed.
Lemma key_bits_le kb a b : div_ceil (key_bits kb a b) 8 <= div_ceil kb 8.
Proof. unfold key_bits. destruct (Nat.leb_spec kb (comp_size a b)); [lia|]. unfold div_ceil. apply Nat.div_le_mono; lia. Qed.
Lemma key_bits_pos kb a b : 0 < kb -> 0 < key_bits kb a b.
Proof. intros H. pose proof (comp_size_pos a b). unfold key_bits. destruct (kb <=? comp_size a b); lia. Qed.
Lemma rows_app n m c a b : rows_ok n c a -> rows_ok m c b -> rows_ok (n + m) c (a ++ b).
Proof. intros [L1 H1] [L2 H2]. split; [rewrite app_length; lia|]. apply Forall_app. split; assumption. Qed.
Lemma xor_rows_app a0 a1 b0 b1 : length a0 = length a1 -> xor_rows (a0 ++ b0) (a1 ++ b1) = xor_rows a0 a1 ++ xor_rows b0 b1.
Proof. intros H. unfold xor_rows. apply map2_app. exact H. Qed.
Lemma map_enc_rows n c c' enc m : linear_enc c c' enc -> rows_ok n c m -> rows_ok n c' (map enc m).
Proof.
  intros [H1 _] [L H]. split; [rewrite map_length; exact L|]. rewrite Forall_forall in *. intros r Hr. apply in_map_iff in Hr. destruct Hr as (x & <- & Hx). destruct (H x Hx). apply H1; assumption.
Qed.
Lemma map_enc_xor n c c' enc a b : linear_enc c c' enc -> rows_ok n c a -> rows_ok n c b -> xor_rows (map enc a) (map enc b) = map enc (xor_rows a b).
Proof.
  intros HE Ha Hb. pose proof (proj1 Ha) as La. pose proof (proj1 Hb) as Lb. destruct (xor_rows_ok Ha Hb) as [Lx _].
  pose proof (map_enc_rows HE Ha) as [L1 _]. pose proof (map_enc_rows HE Hb) as [L2 _].
  apply nth_ext with [] []; [unfold xor_rows in *; rewrite map2_length, !map_length; lia|]. intros i Hi. unfold xor_rows in Hi. rewrite map2_length, L1, L2, Nat.min_id in Hi.
  rewrite (@nth_xor_rows n) by assumption. rewrite (nth_indep (map enc (xor_rows a b)) [] (enc [])) by (rewrite map_length; lia).
  rewrite (nth_indep (map enc a) [] (enc [])), (nth_indep (map enc b) [] (enc [])) by (rewrite map_length; lia). rewrite !map_nth.
  rewrite (@nth_xor_rows n) by assumption. destruct (rows_nth Ha Hi), (rows_nth Hb Hi). symmetry. apply HE; assumption.
Qed.

Lemma load_keys_ok enc nL nR kb q : 0 < nL -> 0 < nR -> query_ok nL nR kb q ->
  load_keys enc (qLeft q) (qRight q) = Ok (BM (key_bits kb nL nR) (div_ceil (key_bits kb nL nR) 8)
    (map (seen enc kb nL nR) (bRows (cDat (qLeft q)) ++ bRows (cDat (qRight q))))).
Proof.
  intros HL HR (CL & CR & BL & BR & _). unfold load_keys. rewrite BL, BR, Nat.eqb_refl. cbn [negb throw_if bind].
  destruct (col_rows CL) as [_ EL], (col_rows CR) as [_ ER]. destruct CL as (_ & NL & _), CR as (_ & NR & _). rewrite NL, NR.
  replace (nL =? 0) with false by lia. replace (nR =? 0) with false by lia. cbn [orb]. unfold key_bits, seen. destruct (kb <=? comp_size nL nR).
  - rewrite EL, ER, BL, BR, Nat.eqb_refl. cbn [andb]. rewrite map_id. reflexivity.
  - reflexivity.
Qed.

(* first match in the concatenated keys *)
Lemma first_eq_map f l x : (forall y, In y l -> f y = f x -> y = x) -> first_eq (map f l) (f x) = first_eq l x.
Proof.
  induction l as [|y l IH]; intros H; [reflexivity|]. cbn [map first_eq]. rewrite IH by (intros z Hz; apply H; right; exact Hz).
  assert (E : row_eq (f y) (f x) = row_eq y x).
  { apply Bool.eq_iff_eq_true. rewrite !row_eq_iff. split; [apply H; left; reflexivity|intros ->; reflexivity]. }
  rewrite E. reflexivity.
Qed.
Lemma first_eq_app a b x : first_eq (a ++ b) x = match first_eq a x with Some j => Some j | None => option_map (fun j => length a + j) (first_eq b x) end.
Proof.
  induction a as [|y a IH]; cbn [app first_eq length].
  - destruct (first_eq b x); reflexivity.
  - destruct (row_eq y x); [reflexivity|]. rewrite IH. destruct (first_eq a x); [reflexivity|]. destruct (first_eq b x); reflexivity.
Qed.

Lemma om_join_ok enc q0 q1 rd nL nR kb : 0 < nL -> 0 < nR -> 0 < kb -> queries_ok nL nR kb q0 q1 ->
  (comp_size nL nR < kb -> linear_enc (div_ceil kb 8) (div_ceil (comp_size nL nR) 8) enc) ->
  om_rand_ok (nL + nR) (om_width q0 + div_ceil kb 8) (om_width q0) rd ->
  told_apart enc kb nL nR (left_keys q0 q1 ++ right_keys q0 q1) ->
  exists t0 t1, om_join enc q0 q1 rd = Ok (t0, t1) /\
    shares_of nR t0 t1 (map (om_flag (left_keys q0 q1) (right_keys q0 q1)) (seq 0 nR))
      (map2 (om_col nR (left_keys q0 q1) (right_keys q0 q1)) (qSel q0) (qSel q1)).
Proof.
  intros HL HR Hkb (Q0 & Q1 & Hs) Henc Hrd HT. pose proof (load_keys_ok enc HL HR Q0) as E0. pose proof (load_keys_ok enc HL HR Q1) as E1.
  destruct Q0 as (CL0 & CR0 & BL0 & BR0 & F0), Q1 as (CL1 & CR1 & BL1 & BR1 & F1).
  destruct (col_rows CL0) as [RL0 _], (col_rows CR0) as [RR0 _], (col_rows CL1) as [RL1 _], (col_rows CR1) as [RR1 _]. rewrite ?BL0, ?BR0, ?BL1, ?BR1 in *.
  set (ks := key_bits kb nL nR) in *. set (f := seen enc kb nL nR) in *. set (L := left_keys q0 q1) in *. set (R := right_keys q0 q1) in *.
  pose proof (rows_app RL0 RR0) as A0. pose proof (rows_app RL1 RR1) as A1. set (a0 := bRows _ ++ bRows _) in *. set (a1 := bRows _ ++ bRows _) in A1, E1.
  assert (EA : xor_rows a0 a1 = L ++ R) by (apply xor_rows_app; rewrite (proj1 RL0), (proj1 RL1); reflexivity).
  assert (Hf : forall m, rows_ok (nL + nR) (div_ceil kb 8) m -> rows_ok (nL + nR) (div_ceil ks 8) (map f m)).
  { intros m Hm. unfold f, seen, ks, key_bits. destruct (Nat.leb_spec kb (comp_size nL nR)) as [H|H]; [rewrite map_id; exact Hm|]. apply (map_enc_rows (Henc H) Hm). }
  assert (HX : xor_rows (map f a0) (map f a1) = map f (L ++ R)).
  { rewrite <- EA. unfold f, seen. destruct (Nat.leb_spec kb (comp_size nL nR)) as [H|H]; [rewrite !map_id; reflexivity|]. apply (map_enc_xor (Henc H) A0 A1). }
  assert (RL : rows_ok nL (div_ceil kb 8) L) by (apply (xor_rows_ok RL0 RL1)). assert (RR : rows_ok nR (div_ceil kb 8) R) by (apply (xor_rows_ok RR0 RR1)).
  pose proof (Hf _ A0) as G0. pose proof (Hf _ A1) as G1.
  destruct (@om_core enc q0 q1 rd _ _ nL nR (div_ceil ks 8) kb HL HR E0 E1) as (t0 & t1 & J & EJ & HJ & HSh); try assumption; try reflexivity.
  - apply CL0.
  - apply G0.
  - apply G1.
  - apply key_bits_pos, Hkb.
  - apply key_bits_le.
  - cbn [bBits bRows]. rewrite HX. intros x y Hx Hy Hag. apply in_map_iff in Hx, Hy. destruct Hx as (x' & <- & Hx), Hy as (y' & <- & Hy). f_equal. apply HT; assumption.
  - cbn [bRows] in HJ. rewrite HX in HJ.
    assert (HJ' : forall r, r < nR -> match first_eq L (nth r R []) with Some j => J r = j /\ j < nL | None => nL <= J r end).
    { intros r Hr. specialize (HJ r Hr). assert (Hlen : length (L ++ R) = nL + nR) by (rewrite app_length, (proj1 RL), (proj1 RR); reflexivity).
      rewrite (nth_indep (map f (L ++ R)) [] (f [])) in HJ by (rewrite map_length; lia). rewrite map_nth in HJ.
      assert (EN : nth (nL + r) (L ++ R) [] = nth r R []) by (rewrite app_nth2; rewrite (proj1 RL); [f_equal; lia|lia]). rewrite EN in HJ.
      assert (HI : In (nth r R []) (L ++ R)) by (apply in_or_app; right; apply nth_In; rewrite (proj1 RR); exact Hr).
      rewrite first_eq_map in HJ. 2:{ intros y Hy Ey. apply HT; [exact Hy|exact HI|]. fold f. rewrite Ey. intros j Hj. reflexivity. }
      rewrite first_eq_app in HJ. destruct (first_eq L (nth r R [])) as [j|] eqn:E.
      - injection HJ as HJ. split; [congruence|]. apply first_eq_some in E. rewrite <- (proj1 RL). apply E.
      - destruct (first_eq R (nth r R [])) as [j|]; [|discriminate HJ]. cbn [option_map] in HJ. injection HJ as HJ. rewrite (proj1 RL) in HJ. lia. }
    exists t0, t1. split; [exact EJ|].
    assert (Efl : map (fun r => N.b2n (J r <? nL)) (seq 0 nR) = map (om_flag L R) (seq 0 nR)).
    { apply map_ext_in. intros r Hr. apply in_seq in Hr. specialize (HJ' r ltac:(lia)). unfold om_flag. destruct (first_eq L (nth r R [])) as [j|].
      - destruct HJ' as [-> Hj]. apply Nat.ltb_lt in Hj. rewrite Hj. reflexivity.
      - apply Nat.ltb_ge in HJ'. rewrite HJ'. reflexivity. }
    assert (Ecl : map2 (out_col nL nR J) (qSel q0) (qSel q1) = map2 (om_col nR L R) (qSel q0) (qSel q1)).
    { clear - HJ'. generalize (qSel q1) as l1. induction (qSel q0) as [|s0 l0 IH]; intros [|s1 l1]; try reflexivity. cbn [map2]. rewrite IH. f_equal. unfold out_col, om_col. f_equal.
      apply map_ext_in. intros r Hr. apply in_seq in Hr. specialize (HJ' r ltac:(lia)). unfold om_row, lrow. destruct (oLeft s0); [|reflexivity].
      destruct (first_eq L (nth r R [])) as [j|].
      - destruct HJ' as [-> Hj]. apply Nat.ltb_lt in Hj. rewrite Hj. reflexivity.
      - apply Nat.ltb_ge in HJ'. rewrite HJ'. reflexivity. }
    rewrite <- Efl, <- Ecl. exact HSh.
Qed.

(* keys whose width is a power of two, compared as they are *)
Lemma agree_full kb x y : agree kb x y -> trimmed kb x -> trimmed kb y -> length x = length y -> bytes x -> bytes y -> x = y.
Proof.
  intros HA Tx Ty HL Bx By. apply ShuffleSpanProofs.bytes_ext; try assumption. intros j Hj. destruct (Nat.lt_ge_cases j kb) as [H|H]; [apply HA, H|]. rewrite Tx, Ty by exact H. reflexivity.
Qed.
Lemma pow2_log k : 2 ^ Nat.log2 (2 ^ k) = 2 ^ k.
Proof. rewrite Nat.log2_pow2 by lia. reflexivity. Qed.
Lemma told_apart_pow2 enc nL nR kb k c l : kb = 2 ^ k -> kb <= comp_size nL nR -> Forall (fun x => length x = c /\ bytes x /\ trimmed kb x) l -> told_apart enc kb nL nR l.
Proof.
  intros -> Hc HF x y Hx Hy. unfold key_bits, seen. apply Nat.leb_le in Hc. rewrite Hc, pow2_log. rewrite Forall_forall in HF.
  destruct (HF x Hx) as (L1 & B1 & T1), (HF y Hy) as (L2 & B2 & T2). intros HA. apply agree_full with (2 ^ k); congruence || assumption.
Qed.

(* revealing the shares *)
Lemma shares_reveal n t0 t1 fl cols : 0 < n -> tCols t0 <> [] -> shares_of n t0 t1 fl cols -> NoDup (map cName cols) -> Forall (fun f => (f < 2)%N) fl ->
  t_reveal t0 t1 true = Ok (Tab [] (map (fun c => with_rows c (keep fl (bRows (cDat c)))) cols)).
Proof.
  intros Hn Hne (C0 & C1 & HI & L0 & L1 & EF & EC) ND HF.
  assert (TR : forall t, Forall (col_ok n) (tCols t) -> tCols t <> [] -> length (tAct t) = n -> t_ok n t).
  { intros t HC HN HA. split; [|split; [exact HC|right; exact HA]]. unfold t_rows. destruct (tCols t) as [|c l]; [contradiction|]. apply Forall_cons_iff in HC. apply HC. }
  assert (Hne1 : tCols t1 <> []) by (intros E; rewrite E in HI; inversion HI; congruence).
  assert (EN : map cName (tCols t0) = map cName cols).
  { rewrite <- EC. clear - HI. induction HI as [|a b l l' H HF IH]; [reflexivity|]. cbn [map map2]. rewrite IH. reflexivity. }
  rewrite (@t_reveal_ok n t0 t1 true).
  - rewrite EF. assert (EFl : flags_of n fl = fl).
    { unfold flags_of. destruct fl; [|reflexivity]. apply (f_equal (@length _)) in EF. rewrite map2_length, L0, L1, Nat.min_id in EF. cbn in EF. lia. }
    rewrite EFl. do 2 f_equal. rewrite <- EC. clear. generalize (tCols t1) as l1. induction (tCols t0) as [|a l IH]; intros [|b l1]; try reflexivity. cbn [map map2]. rewrite IH. reflexivity.
  - apply TR; assumption.
  - apply TR; assumption.
  - exact HI.
  - rewrite EN. exact ND.
  - lia.
  - intros _. rewrite EF. exact HF.
Qed.
Lemma keep_map A (f : nat -> bool) (g : nat -> A) l : keep (map (fun r => if f r then 1%N else 0%N) l) (map g l) = map g (filter f l).
Proof. unfold keep. induction l as [|x l IH]; [reflexivity|]. cbn [map combine filter fst snd]. destruct (f x); cbn; rewrite IH; reflexivity. Qed.

Lemma om_join_reveal enc q0 q1 rd nL nR kb : 0 < nL -> 0 < nR -> 0 < kb -> queries_ok nL nR kb q0 q1 ->
  (comp_size nL nR < kb -> linear_enc (div_ceil kb 8) (div_ceil (comp_size nL nR) 8) enc) ->
  om_rand_ok (nL + nR) (om_width q0 + div_ceil kb 8) (om_width q0) rd ->
  told_apart enc kb nL nR (left_keys q0 q1 ++ right_keys q0 q1) ->
  qSel q0 <> [] -> NoDup (map (fun s => cName (oCol s)) (qSel q0)) ->
  (do t <- om_join enc q0 q1 rd; t_reveal (fst t) (snd t) true) =
  Ok (Tab [] (map2 (join_col nR (left_keys q0 q1) (right_keys q0 q1)) (qSel q0) (qSel q1))).
Proof.
  intros HL HR Hkb HQ Henc Hrd HT Hne ND. destruct (om_join_ok HL HR Hkb HQ Henc Hrd HT) as (t0 & t1 & E & HS). rewrite E. cbn [bind fst snd].
  set (L := left_keys q0 q1) in *. set (R := right_keys q0 q1) in *. destruct HQ as (_ & _ & Hs).
  rewrite (@shares_reveal nR t0 t1 _ _ HR) with (2 := HS).
  - do 2 f_equal. clear -Hs. induction Hs as [|s0 s1 l0 l1 H HF IH]; [reflexivity|]. cbn [map map2]. rewrite IH. f_equal. unfold om_col, join_col, with_rows. cbn [cName cType cBits cDat bBits bCols bRows].
    do 2 f_equal. unfold matched. rewrite <- keep_map. f_equal. apply map_ext. intros r. unfold om_flag. destruct (first_eq L (nth r R [])); reflexivity.
  - intros E0. destruct HS as (_ & _ & HI & _ & _ & _ & EC). rewrite E0 in EC. cbn [map2] in EC. destruct Hs as [|s0 s1 l0 l1]; [apply Hne; reflexivity|discriminate EC].
  - replace (map cName (map2 (om_col nR L R) (qSel q0) (qSel q1))) with (map (fun s => cName (oCol s)) (qSel q0)); [exact ND|].
    clear -Hs. induction Hs as [|s0 s1 l0 l1 H HF IH]; [reflexivity|]. cbn [map map2]. rewrite IH. reflexivity.
  - apply Forall_forall. intros x Hx. apply in_map_iff in Hx. destruct Hx as (r & <- & _). unfold om_flag. destruct (first_eq L (nth r R [])); reflexivity.
Qed.
