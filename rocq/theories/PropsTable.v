(* C09, C10, C14, C15: sharing, trimming, comparing, sorting and compacting tables *)
From Verif Require Import Base PermModel PermSpec PermProofs KeyMultModel ShuffleModel ShuffleSpec ShuffleSpanProofs RadixModel RadixSpec TableModel TableSpec TrimProofs TableProofs TableSortProofs.

(* ================= C10 ================= *)
(* trim clears exactly the bits from the bit count on, in every row *)
Theorem C10_trim n c a bits : rows_ok n c a -> bits <= c * 8 ->
  exists a', trim c a bits = Ok a' /\ Forall2 (trim_rel bits) a a'.
Proof. intros. eapply trim_ok; eassumption. Qed.
Theorem C10_trim_throws c a bits : c * 8 < bits -> trim c a bits = Throw.
Proof. apply trim_throw. Qed.
Theorem C10_trim_matrix m : bm_ok m ->
  exists r, bm_trim m = Ok (BM (bBits m) (bCols m) r) /\ Forall2 (trim_rel (bBits m)) (bRows m) r.
Proof. apply bm_trim_ok. Qed.
(* a trimmed row is determined by the row it comes from *)
Theorem C10_trim_unique bits r r1 r2 : trim_rel bits r r1 -> trim_rel bits r r2 -> r1 = r2.
Proof. apply trim_rel_fun. Qed.
(* areEqual compares exactly the first bits of every row, whatever the two strides are *)
Theorem C10_equal n ac a bc b bits : rows_ok n ac a -> rows_ok n bc b -> bits <= ac * 8 -> bits <= bc * 8 ->
  exists e, are_equal ac a bc b bits = Ok e /\ (e = true <-> Forall2 (agree bits) a b).
Proof. apply are_equal_ok. Qed.
Theorem C10_equal_throws ac a bc b bits : length a <> length b \/ ac * 8 < bits \/ bc * 8 < bits ->
  are_equal ac a bc b bits = Throw.
Proof. apply are_equal_throw. Qed.
Theorem C10_equal_span a b bits : bytes a -> bytes b -> bits <= length a * 8 -> bits <= length b * 8 ->
  exists e, are_equal_span a b bits = Ok e /\ (e = true <-> agree bits a b).
Proof. apply are_equal_span_ok. Qed.
Theorem C10_equal_span_throws a b bits : length a * 8 < bits \/ length b * 8 < bits -> are_equal_span a b bits = Throw.
Proof. apply are_equal_span_throw. Qed.
Theorem C10_matrix_equal a b : rows_ok (bm_n a) (bCols a) (bRows a) -> rows_ok (bm_n b) (bCols b) (bRows b) ->
  bBits a <= bCols a * 8 -> bBits b <= bCols b * 8 ->
  exists e, bm_eq a b = Ok e /\ (e = true <-> bBits a = bBits b /\ Forall2 (agree (bBits a)) (bRows a) (bRows b)).
Proof. apply bm_eq_ok. Qed.
(* Column::operator== and Table::operator==: true exactly when names, widths (and for tables types and the
   number of rows) agree and every row agrees on its bits *)
Theorem C10_column_equal n m a b : col_ok n a -> col_ok m b ->
  exists e, col_eq a b = Ok e /\ (e = true <-> cName a = cName b /\ cBits a = cBits b /\ Forall2 (agree (cBits a)) (bRows (cDat a)) (bRows (cDat b))).
Proof. apply col_eq_ok. Qed.
Theorem C10_table_equal n m a b : t_ok n a -> t_ok m b ->
  exists e, t_eq a b = Ok e /\
    (e = true <-> n = m /\ Forall2 (fun x y => same_info x y /\ Forall2 (agree (cBits x)) (bRows (cDat x)) (bRows (cDat y))) (tCols a) (tCols b)).
Proof. apply t_eq_ok. Qed.
(* the active flags are not compared: two tables with different active rows are equal *)
Theorem C10_table_flags_refuted n t fl : t_ok n t -> length fl = n -> t_eq t (Tab fl (tCols t)) = Ok true.
Proof.
  intros H Hf. destruct (@t_eq_ok n n t (Tab fl (tCols t))) as (e & -> & He); [exact H| |].
  - destruct H as (H1 & H2 & _). split; [exact H1|]. split; [exact H2|]. right. exact Hf.
  - f_equal. apply He. split; [reflexivity|]. cbn [tCols]. generalize (tCols t). intros l. induction l as [|c l IH]; constructor; [|exact IH].
    split; [repeat split|]. generalize (bRows (cDat c)). intros r. induction r as [|x r IHr]; constructor; [|exact IHr]. intros j Hj. reflexivity.
Qed.
(* reshape changes the number of bits, within the columns that are there *)
Theorem C10_reshape bits m : bm_reshape bits m = if bCols m * 8 <? bits then Throw else Ok (BM bits (bCols m) (bRows m)).
Proof. unfold bm_reshape. destruct (bCols m * 8 <? bits); reflexivity. Qed.
Print Assumptions C10_column_equal.
Print Assumptions C10_table_equal.
Print Assumptions C10_table_flags_refuted.
Print Assumptions C10_reshape.
Print Assumptions C10_trim.
Print Assumptions C10_trim_throws.
Print Assumptions C10_trim_matrix.
Print Assumptions C10_trim_unique.
Print Assumptions C10_equal.
Print Assumptions C10_equal_throws.
Print Assumptions C10_equal_span.
Print Assumptions C10_equal_span_throws.
Print Assumptions C10_matrix_equal.

Ltac rows := split; [reflexivity|repeat constructor].
Example C10_ex_rows : rows_ok 2 2 [[255; 255]; [171; 205]]%N.
Proof. rows. Qed.
Example C10_ex_trim : trim 2 [[255; 255]; [171; 205]]%N 11 = Ok [[255; 7]; [171; 5]]%N.
Proof. reflexivity. Qed.
Example C10_ex_trim8 : trim 2 [[255; 255]; [171; 205]]%N 8 = Ok [[255; 0]; [171; 0]]%N.
Proof. reflexivity. Qed.
Example C10_ex_equal : are_equal 2 [[255; 255]; [171; 205]]%N 3 [[255; 7; 9]; [171; 5; 9]]%N 11 = Ok true /\
  are_equal 2 [[255; 255]; [171; 205]]%N 3 [[255; 7; 9]; [171; 5; 9]]%N 12 = Ok false.
Proof. split; reflexivity. Qed.

Example C10_ex_table_equal :
  let col n d := Col [n] 3 11 (BM 11 2 d) in
  let a := Tab [1; 0]%N [col 97 [[255; 255]; [171; 205]]; col 98 [[0; 1]; [2; 3]]]%N in
  let b := Tab [0; 0]%N [col 97 [[255; 7]; [171; 5]]; col 98 [[0; 1]; [2; 3]]]%N in
  let c := Tab [0; 0]%N [col 97 [[255; 7]; [171; 5]]; col 98 [[0; 1]; [2; 2]]]%N in
  t_ok 2 a /\ t_ok 2 b /\ t_eq a b = Ok true /\ t_eq a c = Ok false /\ bm_reshape 17 (BM 11 2 []) = Throw.
Proof.
  cbv zeta. repeat split; try (right; reflexivity); repeat constructor; cbn; try lia; discriminate.
Qed.

(* ================= C15 ================= *)
Theorem C15_extract n t : t_ok n t -> tAct t <> [] ->
  extract_active t = Ok (Tab [] (map (fun c => with_rows c (keep (tAct t) (bRows (cDat c)))) (tCols t))).
Proof. apply extract_active_ok. Qed.
Theorem C15_no_flags t : tAct t = [] -> extract_active t = Ok t.
Proof. intros H. unfold extract_active. rewrite H. reflexivity. Qed.
(* what keep keeps: row k is kept iff its flag is 1, and kept rows stay in order *)
Theorem C15_keep A (d : A) fl l : length fl = length l ->
  keep fl l = map (fun k => nth k l d) (filter (fun k => (nth k fl 0 =? 1)%N) (seq 0 (length l))).
Proof. apply keep_kept. Qed.
Print Assumptions C15_extract.
Print Assumptions C15_no_flags.
Print Assumptions C15_keep.

Definition ex_col (name : list N) (type bits : nat) (rows : list (list N)) : column :=
  Col name type bits (BM bits (div_ceil bits 8) rows).
Definition ex_t : table :=
  Tab [1; 0; 1; 1]%N [ex_col [97]%N 0 11 [[1; 2]; [3; 4]; [1; 1]; [1; 2]]%N; ex_col [98]%N 2 8 [[9]; [8]; [7]; [6]]%N].
Lemma ex_t_ok : t_ok 4 ex_t.
Proof. split; [reflexivity|]. split; [|right; reflexivity]. repeat constructor; intros; try discriminate; reflexivity. Qed.
Example C15_ex : extract_active ex_t =
  Ok (Tab [] [ex_col [97]%N 0 11 [[1; 2]; [1; 1]; [1; 2]]%N; ex_col [98]%N 2 8 [[9]; [7]; [6]]%N]).
Proof. reflexivity. Qed.
(* any other flag value drops the row *)
Example C15_ex_flag2 : extract_active (Tab [2; 1]%N [ex_col [97]%N 0 8 [[5]; [6]]%N]) = Ok (Tab [] [ex_col [97]%N 0 8 [[6]]%N]).
Proof. reflexivity. Qed.

(* ================= C09 ================= *)
(* the first share is the padded randomness, the second is its xor with the matrix; together they
   give back the matrix up to padding *)
Theorem C09_matrix x rnd : bm_ok x -> rows_ok (bm_n x) (bCols x) rnd -> exists s0 s1 y,
  share_bm x rnd = Ok (s0, s1) /\ reveal_bm s0 s1 = Ok y /\
  Forall2 (trim_rel (bBits x)) rnd (bRows s0) /\ Forall2 (trim_rel (bBits x)) (xor_rows (bRows x) rnd) (bRows s1) /\
  bBits y = bBits x /\ bCols y = bCols x /\ Forall2 (trim_rel (bBits x)) (bRows x) (bRows y).
Proof.
  intros Hx Hr. destruct (share_bm_ok Hx Hr) as (r0 & r1 & E & T0 & T1 & TX).
  exists (BM (bBits x) (bCols x) r0), (BM (bBits x) (bCols x) r1), (BM (bBits x) (bCols x) (xor_rows r0 r1)).
  split; [exact E|]. split; [apply (reveal_bm_ok Hx)|repeat split; assumption].
  - rewrite <- (Forall2_length T0). apply Hr.
  - rewrite <- (Forall2_length T1). apply (xor_rows_ok (proj1 Hx) Hr).
Qed.
(* a matrix without stray bits comes back as it is *)
Theorem C09_matrix_exact x rnd : bm_ok x -> rows_ok (bm_n x) (bCols x) rnd -> Forall (trimmed (bBits x)) (bRows x) ->
  exists s0 s1, share_bm x rnd = Ok (s0, s1) /\ reveal_bm s0 s1 = Ok x.
Proof.
  intros Hx Hr Ht. destruct (C09_matrix Hx Hr) as (s0 & s1 & y & E & R & _ & _ & Eb & Ec & TX). exists s0, s1. split; [exact E|]. rewrite R. f_equal.
  destruct x as [b c rows], y as [b' c' rows']. cbn [bBits bCols bRows] in *. subst b' c'. f_equal. destruct Hx as [[_ Hb] _]. cbn [bRows bCols] in Hb. clear - TX Ht Hb.
  induction TX as [|r r' l l' H TX IH]; [reflexivity|]. apply Forall_cons_iff in Ht, Hb. destruct Ht as [Ht1 Ht], Hb as [[_ Hb1] Hb]. f_equal; [|apply IH; assumption]. apply (trim_rel_eq Hb1 Ht1 H).
Qed.
Theorem C09_bytes n c x bits rnd : rows_ok n c x -> rows_ok n c rnd -> c = div_ceil bits 8 -> exists s0 s1 y,
  share_mat c x bits rnd = Ok (s0, s1) /\ reveal_mat c s0 c s1 = Ok y /\
  Forall2 (trim_rel bits) rnd s0 /\ Forall2 (trim_rel bits) (xor_rows x rnd) s1 /\ Forall2 (trim_rel bits) x y.
Proof.
  intros Hx Hr Hc. destruct (share_mat_ok Hx Hr Hc) as (r0 & r1 & E & T0 & T1 & ER & TX). exists r0, r1, (xor_rows r0 r1). repeat split; assumption.
Qed.
Theorem C09_bytes_throws c x bits rnd : c <> div_ceil bits 8 -> share_mat c x bits rnd = Throw.
Proof. intros H. unfold share_mat. rewrite (proj2 (Nat.eqb_neq _ _) H). reflexivity. Qed.
Theorem C09_reveal_throws a b : bm_n a <> bm_n b \/ bBits a <> bBits b -> reveal_bm a b = Throw.
Proof.
  intros H. unfold reveal_bm. destruct (Nat.eqb_spec (bm_n a) (bm_n b)) as [E|E]; cbn [negb throw_if bind]; [|reflexivity].
  destruct (Nat.eqb_spec (bBits a) (bBits b)) as [E'|E']; cbn [negb throw_if bind]; [lia|reflexivity].
Qed.
Theorem C09_bytes_reveal_throws ca a cb b : length a <> length b \/ ca <> cb -> reveal_mat ca a cb b = Throw.
Proof.
  intros H. unfold reveal_mat. destruct (Nat.eqb_spec (length a) (length b)) as [E1|E1]; cbn [negb throw_if bind]; [|reflexivity].
  destruct (Nat.eqb_spec ca cb) as [E2|E2]; cbn [negb throw_if bind]; [|reflexivity]. destruct H; contradiction.
Qed.
Print Assumptions C09_bytes_reveal_throws.
Example C09_ex_bytes_reveal_throws : reveal_mat 2 [[1; 2]]%N 3 [[1; 2; 3]]%N = Throw.
Proof. reflexivity. Qed.
Theorem C09_words x r : length x = length r -> Forall (fun v => (v < 2 ^ 32)%N) x -> Forall (fun v => (v < 2 ^ 32)%N) r ->
  reveal_u32 (fst (share_u32 x r)) (snd (share_u32 x r)) = x.
Proof. apply reveal_u32_ok. Qed.
Theorem C09_xor_share x r : length x = length r -> map2 N.lxor (fst (xor_share x r)) (snd (xor_share x r)) = x.
Proof. apply xor_row_cancel. Qed.
(* tables: the columns up to padding, the active rows or all rows with their flags *)
Theorem C09_table n t rnds ra rm : t_ok n t -> NoDup (map cName (tCols t)) -> Forall (fun f => (f < 2)%N) (tAct t) ->
  Forall2 (fun c r => rows_ok n (bCols (cDat c)) r) (tCols t) rnds -> length ra = length (tAct t) ->
  exists s0 s1 r, t_share t rnds ra = Ok (s0, s1) /\ t_reveal s0 s1 rm = Ok r /\
    tAct r = (if rm then [] else match tAct t with [] => repeat 1%N n | _ => tAct t end) /\
    Forall2 (fun c c' => col_is c c' (if rm then active (tAct t) (bRows (cDat c)) else bRows (cDat c))) (tCols t) (tCols r).
Proof. apply share_reveal_ok. Qed.
(* reveal of any two tables with the same columns *)
Theorem C09_table_reveal n t0 t1 rm : t_ok n t0 -> t_ok n t1 -> Forall2 same_info (tCols t0) (tCols t1) -> NoDup (map cName (tCols t0)) ->
  length (tAct t0) = length (tAct t1) -> (rm = true -> Forall (fun f => (f < 2)%N) (map2 N.lxor (tAct t0) (tAct t1))) ->
  let A := flags_of n (map2 N.lxor (tAct t0) (tAct t1)) in
  t_reveal t0 t1 rm = Ok (if rm then Tab [] (map2 (fun a b => with_rows a (keep A (xor_rows (bRows (cDat a)) (bRows (cDat b))))) (tCols t0) (tCols t1))
                          else Tab A (map2 (fun a b => with_rows a (xor_rows (bRows (cDat a)) (bRows (cDat b)))) (tCols t0) (tCols t1))).
Proof. apply t_reveal_ok. Qed.
(* the byte vector version of reveal adds: it does not invert the xor sharing of flags *)
Theorem C09_reveal_u8_refuted : ~ forall x r y, length x = length r -> bytes x -> bytes r ->
  reveal_u8 (fst (xor_share x r)) (snd (xor_share x r)) = Ok y -> y = x.
Proof.
  intros H. specialize (H [0]%N [1]%N [2]%N eq_refl). discriminate H; repeat constructor.
Qed.
(* it does when no bit is set in both shares *)
Theorem C09_reveal_u8 a b : length a = length b -> bytes a -> bytes b -> (forall i, N.land (nth i a 0%N) (nth i b 0%N) = 0%N) ->
  reveal_u8 a b = Ok (map2 N.lxor a b).
Proof.
  intros L Ba Bb H. unfold reveal_u8. rewrite L, Nat.eqb_refl. f_equal. revert b L Bb H. induction a as [|x a IH]; intros [|y b] L Bb H; cbn [length map2] in *; try lia; try reflexivity.
  apply Forall_cons_iff in Ba, Bb. destruct Ba as [Bx Ba], Bb as [By Bb]. f_equal; [|apply IH; [assumption|lia|assumption|intros i; apply (H (S i))]].
  specialize (H 0). cbn [nth] in H. rewrite N.add_nocarry_lxor by exact H. apply N.mod_small. change 256%N with (2 ^ 8)%N in *.
  apply Mod3Proofs.bits_high_pow2. intros i Hi. rewrite N.lxor_spec, !(@Mod3Proofs.pow2_bits_high _ 8 i) by assumption. reflexivity.
Qed.
Print Assumptions C09_matrix.
Print Assumptions C09_matrix_exact.
Print Assumptions C09_bytes.
Print Assumptions C09_bytes_throws.
Print Assumptions C09_reveal_throws.
Print Assumptions C09_words.
Print Assumptions C09_xor_share.
Print Assumptions C09_table.
Print Assumptions C09_table_reveal.
Print Assumptions C09_reveal_u8_refuted.
Print Assumptions C09_reveal_u8.

Definition ex_x : bmat := BM 11 2 [[255; 255]; [171; 5]]%N.
Definition ex_r : list (list N) := [[18; 52]; [86; 120]]%N.
Example C09_ex_hyp : bm_ok ex_x /\ rows_ok (bm_n ex_x) (bCols ex_x) ex_r.
Proof. split; [split; [rows|reflexivity]|rows]. Qed.
Example C09_ex : share_bm ex_x ex_r = Ok (BM 11 2 [[18; 4]; [86; 0]]%N, BM 11 2 [[237; 3]; [253; 5]]%N) /\
  reveal_bm (BM 11 2 [[18; 4]; [86; 0]]%N) (BM 11 2 [[237; 3]; [253; 5]]%N) = Ok (BM 11 2 [[255; 7]; [171; 5]]%N).
Proof. split; reflexivity. Qed.
Example C09_ex_words : share_u32 [5; 7]%N [4294967295; 3]%N = ([4294967295; 3]%N, [6; 4]%N) /\ reveal_u32 [4294967295; 3]%N [6; 4]%N = [5; 7]%N.
Proof. split; reflexivity. Qed.
Example C09_ex_table_hyp : t_ok 4 ex_t /\ NoDup (map cName (tCols ex_t)) /\ Forall (fun f => (f < 2)%N) (tAct ex_t) /\
  Forall2 (fun c r => rows_ok 4 (bCols (cDat c)) r) (tCols ex_t) [[[1; 2]; [3; 4]; [5; 6]; [7; 8]]; [[9]; [10]; [11]; [12]]]%N.
Proof.
  split; [apply ex_t_ok|]. split; [cbn; repeat constructor; cbn; intros H; repeat destruct H as [H|H]; try discriminate; try contradiction|].
  split; [repeat constructor|]. constructor; [rows|]. constructor; [rows|constructor].
Qed.
Definition ex_shares : table * table :=
  match t_share ex_t [[[1; 2]; [3; 4]; [5; 6]; [7; 8]]; [[9]; [10]; [11]; [12]]]%N [200; 3; 7; 0]%N with Ok s => s | _ => (ex_t, ex_t) end.
Example C09_ex_table : t_reveal (fst ex_shares) (snd ex_shares) true =
    Ok (Tab [] [ex_col [97]%N 0 11 [[1; 2]; [1; 1]; [1; 2]]%N; ex_col [98]%N 2 8 [[9]; [7]; [6]]%N]) /\
  t_reveal (fst ex_shares) (snd ex_shares) false = Ok ex_t.
Proof. split; reflexivity. Qed.
Example C09_ex_u8 : reveal_u8 [1; 4]%N [2; 8]%N = Ok [3; 12]%N.
Proof. reflexivity. Qed.

(* ================= C14 ================= *)
(* one permutation moves the rows of all columns and the flags; the rows end up in lexicographic
   order of the columns (first column first), equal rows in their old order *)
Theorem C14_sort n t : t_ok n t -> exists p t', is_perm n p /\ t_sort t = Ok t' /\
  tAct t' = match tAct t with [] => [] | _ => pick 0%N p (tAct t) end /\
  tCols t' = map (fun c => with_rows c (pick [] p (bRows (cDat c)))) (tCols t) /\
  forall i j, i < j < n ->
    lexlt (row_keys t (nth i p 0)) (row_keys t (nth j p 0)) \/
    (row_keys t (nth i p 0) = row_keys t (nth j p 0) /\ nth i p 0 < nth j p 0).
Proof.
  intros H. destruct (t_sort_ok H) as (p & Hp & E & HR). exists p, (perm_table p t). split; [exact Hp|]. split; [exact E|]. split; [reflexivity|]. split; [reflexivity|]. exact HR.
Qed.
Theorem C14_permute n p t : is_perm n p -> t_ok n t -> exists t', t_permute p Regular t = Ok t' /\
  tAct t' = match tAct t with [] => [] | _ => pick 0%N p (tAct t) end /\
  tCols t' = map (fun c => with_rows c (pick [] p (bRows (cDat c)))) (tCols t) /\ t_permute p Inverse t' = Ok t.
Proof.
  intros Hp H. exists (perm_table p t). split; [apply (t_permute_ok Hp H)|]. split; [reflexivity|]. split; [reflexivity|]. apply (t_permute_inverse Hp H).
Qed.
Print Assumptions C14_sort.
Print Assumptions C14_permute.

Example C14_ex_hyp : t_ok 4 ex_t /\ is_perm 4 [2; 0; 3; 1].
Proof. split; [apply ex_t_ok|]. apply (perm_validate_iff [2; 0; 3; 1]); reflexivity. Qed.
Example C14_ex : t_sort ex_t =
  Ok (Tab [1; 1; 1; 0]%N [ex_col [97]%N 0 11 [[1; 1]; [1; 2]; [1; 2]; [3; 4]]%N; ex_col [98]%N 2 8 [[7]; [6]; [9]; [8]]%N]).
Proof. reflexivity. Qed.
