(* writeCSV and readCSV. *)
From Coq Require Import Decimal DecimalN DecimalPos.
From Verif Require Import Base Words Mod3Proofs KeyMultModel BitInjProofs ShuffleModel ShuffleSpec ShuffleSpanProofs TableModel TableSpec TrimProofs TableProofs
  TableIOModel TableIOSpec HexProofs BinFileProofs.

Lemma fold_digits u : forall d, fold_left (fun a c => (10 * a + (c - 48))%N) (uint_chars u) (DecimalPos.Unsigned.of_lu d) =
  DecimalPos.Unsigned.of_lu (revapp u d).
Proof.
  induction u; intro e; [easy| | | | | | | | | |]; cbn [uint_chars fold_left revapp]; rewrite <- IHu; f_equal; cbn [DecimalPos.Unsigned.of_lu]; lia.
Qed.
Lemma digits_val_dec n : digits_val (dec n) = n.
Proof.
  unfold digits_val, dec. change 0%N with (DecimalPos.Unsigned.of_lu Nil). rewrite fold_digits. change (revapp (N.to_uint n) Nil) with (Decimal.rev (N.to_uint n)).
  rewrite <- DecimalPos.Unsigned.of_uint_alt. apply (DecimalN.Unsigned.of_to n).
Qed.
Lemma uint_chars_digits u : Forall (fun c => is_digit c = true) (uint_chars u).
Proof. induction u; constructor; easy. Qed.
Lemma dec_digits n : Forall (fun c => is_digit c = true) (dec n).
Proof. apply uint_chars_digits. Qed.
Lemma dec_cons n : exists c s, dec n = c :: s /\ is_digit c = true.
Proof.
  pose proof (dec_digits n) as H. destruct (dec n) as [|c s] eqn:E; [|exists c, s; split; [easy|]; now apply Forall_cons_iff in H].
  exfalso. pose proof (digits_val_dec n) as D. rewrite E in D. cbn in D. subst n. discriminate.
Qed.
Lemma digits_all l : Forall (fun c => is_digit c = true) l -> digits l = l.
Proof. induction l as [|c l IH]; intro H; [easy|]. apply Forall_cons_iff in H. destruct H as [C H]. cbn [digits]. rewrite C. now rewrite IH. Qed.
Lemma digit_cases c : is_digit c = true -> (c = 48 \/ c = 49 \/ c = 50 \/ c = 51 \/ c = 52 \/ c = 53 \/ c = 54 \/ c = 55 \/ c = 56 \/ c = 57)%N.
Proof. unfold is_digit. rewrite andb_true_iff, !N.leb_le. lia. Qed.
Lemma digit_in c : is_digit c = true -> c <> 10%N /\ c <> 32%N /\ c <> 45%N /\ c <> 59%N.
Proof. intro H. apply digit_cases in H. lia. Qed.

Lemma sign_digit c s : is_digit c = true -> sign_split (c :: s) = (false, c :: s).
Proof. intro H. apply digit_cases in H. repeat destruct H as [H|H]; subst; reflexivity. Qed.
Lemma space_digit c s : is_digit c = true -> skip_space (c :: s) = c :: s.
Proof. intro H. apply digit_cases in H. repeat destruct H as [H|H]; subst; reflexivity. Qed.

Lemma z63 : (2 ^ 63 = 9223372036854775808)%Z. Proof. reflexivity. Qed.
Lemma z64 : (2 ^ 64 = 18446744073709551616)%Z. Proof. reflexivity. Qed.
Lemma stoll_dec n : (Z.of_N n < 2 ^ 63)%Z -> stoll (dec n) = Ok (Z.of_N n).
Proof.
  intro H. pose proof z63. destruct (dec_cons n) as [c [s [E D]]]. unfold stoll. rewrite E, space_digit by easy.
  rewrite sign_digit by easy. rewrite <- E, digits_all by apply dec_digits.
  rewrite E. cbn [length Nat.eqb throw_if bind]. rewrite <- E, digits_val_dec. cbv zeta.
  replace ((Z.of_N n <? - 2 ^ 63) || (2 ^ 63 - 1 <? Z.of_N n))%Z with false; [easy|]. symmetry. apply orb_false_iff. rewrite !Z.ltb_ge. lia.
Qed.
Lemma stoll_dec_z z : (- 2 ^ 63 <= z < 2 ^ 63)%Z -> stoll (dec_z z) = Ok z.
Proof.
  intro H. unfold dec_z. destruct (Z.ltb_spec z 0) as [L|L]; [|rewrite stoll_dec; rewrite Z2N.id by lia; [easy|lia]].
  unfold stoll. change (skip_space (45%N :: dec (Z.to_N (- z)))) with (45%N :: dec (Z.to_N (- z))). cbn [sign_split].
  rewrite digits_all by apply dec_digits. destruct (dec_cons (Z.to_N (- z))) as [c [s [E D]]]. rewrite E. cbn [length Nat.eqb throw_if bind]. rewrite <- E, digits_val_dec, Z2N.id by lia. cbv zeta.
  rewrite Z.opp_involutive. replace ((z <? - 2 ^ 63) || (2 ^ 63 - 1 <? z))%Z with false; [easy|]. symmetry. apply orb_false_iff. rewrite !Z.ltb_ge. lia.
Qed.
Lemma bytes_eq_refl l : bytes_eq l l = true. Proof. now apply bytes_eq_iff. Qed.
Lemma csv_u64_dec n : (Z.of_N n < 2 ^ 63)%Z -> csv_u64 (dec n) = Ok n.
Proof.
  intro H. unfold csv_u64. rewrite stoll_dec by easy. cbn [bind]. rewrite Z.mod_small by (rewrite z64; rewrite z63 in H; lia). rewrite N2Z.id, bytes_eq_refl. easy.
Qed.
Lemma csv_i64_dec z : (- 2 ^ 63 <= z < 2 ^ 63)%Z -> csv_i64 (dec_z z) = Ok z.
Proof. intro H. unfold csv_i64. rewrite stoll_dec_z by easy. cbn [bind]. rewrite bytes_eq_refl. easy. Qed.

Lemma getline_ok d buf a r : ~ In d a -> getline d buf (Some (a ++ d :: r)) = (a, Some r).
Proof.
  intro H. cbn [getline]. induction a as [|c a IH].
  - cbn [app split_at]. now rewrite N.eqb_refl.
  - cbn [app split_at]. destruct (N.eqb_spec c d) as [->|NE]; [exfalso; apply H; now left|]. rewrite IH; [easy|]. intro; apply H; now right.
Qed.
Lemma dec_no n d : d = 10%N \/ d = 32%N \/ d = 59%N -> ~ In d (dec n).
Proof. intros H I. pose proof (dec_digits n) as F. rewrite Forall_forall in F. specialize (F d I). apply digit_in in F. lia. Qed.
Lemma dec_z_no z d : d = 10%N \/ d = 32%N \/ d = 59%N -> ~ In d (dec_z z).
Proof. intros H I. unfold dec_z in I. destruct (z <? 0)%Z; [destruct I as [I|I]; [lia|]|]; exact (@dec_no _ _ H I). Qed.

Lemma csv_read_head_ok n c buf r : col_ok n c -> csv_ok c ->
  csv_read_head buf (Some (csv_head c ++ r)) = Ok (info_of c, (dec (N.of_nat (cBits c)), Some r)).
Proof.
  intros [_ [_ [EB [T ST]]]] [NS [B _]]. unfold csv_read_head, csv_head. rewrite <- !app_assoc. cbn [app].
  rewrite getline_ok by easy. rewrite getline_ok by (apply dec_no; lia). rewrite csv_u64_dec by (rewrite z63; lia). cbn [bind].
  replace (3 <? N.of_nat (cType c))%N with false by (symmetry; apply N.ltb_ge; lia). cbn [throw_if bind].
  rewrite getline_ok by (apply dec_no; lia). rewrite csv_u64_dec by (now rewrite nat_N_Z). cbn [bind]. rewrite !Nat2N.id, mk_info_ok; [easy|]. now rewrite EB.
Qed.
Lemma csv_read_heads_ok n l : forall buf r, Forall (col_ok n) l -> Forall csv_ok l -> exists buf',
  csv_read_heads (length l) buf (Some (concat (map csv_head l) ++ r)) = Ok (map info_of l, (buf', Some r)).
Proof.
  induction l as [|c l IH]; intros buf r HC HB; [now exists buf|]. apply Forall_cons_iff in HC, HB. destruct HC as [HC HC'], HB as [HB HB'].
  cbn [length csv_read_heads map concat]. rewrite <- app_assoc, (@csv_read_head_ok n) by easy. cbn [bind fst snd].
  destruct (IH (dec (N.of_nat (cBits c))) r HC' HB') as [b' ->]. now exists b'.
Qed.

Definition row_ok (c : column) (r : list N) : Prop :=
  length r = div_ceil (cBits c) 8 /\ bytes r /\ (cType c = 1 -> exists b m, (b < 2)%N /\ r = b :: repeat 0%N m) /\ (cType c = 2 -> ~ In 59%N r /\ padded r).
Lemma div_ceil64 b : b <= 64 -> div_ceil b 8 <= 8.
Proof. intro H. unfold div_ceil. apply (Nat.le_trans _ (71 / 8)); [apply Nat.div_le_mono; lia|reflexivity]. Qed.
Lemma i64_range u : (u < 2 ^ 64)%N -> (- 2 ^ 63 <= i64_of u < 2 ^ 63)%Z /\ Z.to_N (i64_of u mod 2 ^ 64) = u.
Proof.
  intro H. unfold i64_of. assert (P : (2 ^ 64)%N = 18446744073709551616%N) by reflexivity. assert (P' : (2 ^ 63)%N = 9223372036854775808%N) by reflexivity.
  rewrite z63, z64, P in *. rewrite P'. destruct (N.ltb_spec u 9223372036854775808) as [L|L].
  - split; [lia|]. rewrite Z.mod_small by lia. lia.
  - split; [lia|]. replace (Z.of_N u - 18446744073709551616)%Z with (Z.of_N u + (-1) * 18446744073709551616)%Z by lia. rewrite Z.mod_add by lia. rewrite Z.mod_small by lia. lia.
Qed.
Lemma firstn_store_load r : bytes r -> length r <= 8 -> firstn (length r) (store 8 (load r)) = r.
Proof.
  intros HB HL. apply bytes_ext; [apply firstn_bytes, store_bytes|easy|rewrite firstn_length, store_length; lia|]. intros k Hk.
  rewrite firstn_length, store_length in Hk. rewrite firstn_bit by lia. rewrite store_bit by lia. now apply load_bit.
Qed.
Lemma zeros_repeat r : Forall (fun y => y = 0%N) r -> r = repeat 0%N (length r).
Proof. induction r as [|x r IH]; intro H; [easy|]. apply Forall_cons_iff in H. destruct H as [-> H]. cbn. f_equal. now apply IH. Qed.
Lemma until0_padded r : padded r -> r = until0 r ++ repeat 0%N (length r - length (until0 r)) /\ length (until0 r) <= length r /\
  existsb (fun x => negb (x =? 0)%N) (skipn (length (until0 r)) r) = false.
Proof.
  induction r as [|x r IH]; intro H; [easy|]. destruct H as [Z H]. cbn [until0]. destruct (N.eqb_spec x 0) as [->|NE].
  - cbn [length app skipn Nat.sub repeat]. specialize (Z eq_refl). split; [f_equal; now apply zeros_repeat|]. split; [lia|].
    rewrite (zeros_repeat Z). clear. cbn [existsb N.eqb negb orb]. induction (length r); easy.
  - destruct (IH H) as [E1 [E2 E3]]. cbn [length app skipn Nat.sub]. split; [f_equal; exact E1|]. split; [lia|exact E3].
Qed.
Lemma until0_in d r : In d (until0 r) -> In d r.
Proof. induction r as [|x r IH]; [easy|]. cbn [until0]. destruct (x =? 0)%N; [easy|]. intros [->|I]; [now left|right; now apply IH]. Qed.

Lemma csv_cell_ok n c r buf x : col_ok n c -> csv_ok c -> row_ok c r -> exists s, csv_cell c r = Ok s /\ exists buf',
  csv_read_cell (info_of c) buf (Some (s ++ x)) = Ok (r, (buf', Some x)).
Proof.
  intros [_ [_ [EB [T ST]]]] [NS [B TY]] [RL [RB [R1 R2]]]. unfold csv_cell, csv_read_cell. cbn [info_of iType iBits].
  destruct (cType c) as [|[|[|[|ty]]]]; [| | | |lia].
  - apply Nat.ltb_ge in TY. rewrite TY. apply Nat.ltb_ge in TY. cbn [throw_if bind]. pose proof (div_ceil64 TY) as W. eexists; split; [reflexivity|].
    rewrite <- app_assoc. cbn [app]. rewrite firstn_all2 by lia. rewrite getline_ok by (apply dec_z_no; lia).
    assert (LT : (load r < 2 ^ 64)%N) by (rewrite <- pow64; apply load_lt; [easy|lia]).
    destruct (i64_range LT) as [RG E]. rewrite csv_i64_dec by easy. cbn [bind]. rewrite E. eexists. rewrite <- RL, firstn_store_load by (try easy; lia). reflexivity.
  - destruct (R1 eq_refl) as [b [m [Hb ->]]]. change (get (b :: repeat 0%N m) 0) with (Ok b). cbn [bind]. eexists; split; [reflexivity|].
    rewrite <- app_assoc. cbn [app]. rewrite getline_ok by (apply dec_no; lia). assert (LE : N.land b 1 = b) by (destruct b as [|[]]; try lia; easy). rewrite LE.
    assert (ED : dec b = dec_z (Z.of_N b)) by (unfold dec_z; replace (Z.of_N b <? 0)%Z with false by (symmetry; apply Z.ltb_ge; lia); now rewrite N2Z.id).
    rewrite ED, csv_i64_dec by (rewrite z63; lia). cbn [bind]. replace (1 <? Z.of_N b)%Z with false by (symmetry; apply Z.ltb_ge; lia). cbn [throw_if bind].
    rewrite <- RL. cbn [length]. rewrite repeat_length. cbn [repeat]. change (set (0%N :: repeat 0%N m) 0 (Z.to_N (Z.of_N b mod 2 ^ 8))) with (Ok (Z.to_N (Z.of_N b mod 2 ^ 8) :: repeat 0%N m)).
    cbn [bind]. eexists. rewrite Z.mod_small by (change (2 ^ 8)%Z with 256%Z; lia). now rewrite N2Z.id.
  - destruct (R2 eq_refl) as [NI P]. destruct (until0_padded P) as [E1 [E2 E3]].
    replace (existsb (N.eqb 59) r) with false; [|symmetry; apply not_true_is_false; intro H; apply existsb_exists in H; destruct H as [y [I E]]; apply N.eqb_eq in E; subst; easy].
    cbn [throw_if bind]. rewrite E3. cbn [throw_if bind]. eexists; split; [reflexivity|]. rewrite <- app_assoc. cbn [app].
    rewrite getline_ok by (intro I; apply NI; now apply until0_in). rewrite <- RL. replace (length r <? length (until0 r)) with false by (symmetry; apply Nat.ltb_ge; easy). cbn [throw_if bind].
    eexists. now rewrite <- E1.
  - eexists; split; [reflexivity|]. rewrite <- app_assoc. cbn [app]. rewrite getline_ok.
    + rewrite <- RL, from_hex_hex by easy. cbn [bind]. eexists; reflexivity.
    + intro I. pose proof (hex_chars RB) as F. rewrite Forall_forall in F. specialize (F _ I). unfold lower_digits in F. cbn in F. repeat destruct F as [F|F]; try discriminate. easy.
Qed.

Lemma row_of n c i : col_ok n c -> csv_ok c -> i < n -> row_ok c (nth i (bRows (cDat c)) []).
Proof.
  intros [[RO BC] [RN [EB [T ST]]]] [_ [_ TY]] Hi. rewrite RN in RO. destruct (rows_nth RO Hi) as [L B]. assert (I : In (nth i (bRows (cDat c)) []) (bRows (cDat c))) by (apply nth_In; rewrite (proj1 RO); easy).
  split; [now rewrite L, BC, EB|]. split; [easy|]. split; intro E; rewrite E in TY.
  - destruct TY as [_ F]. rewrite Forall_forall in F. now apply F.
  - rewrite Forall_forall in TY. now apply TY.
Qed.

Definition line (l : list column) (i : nat) : list (list N) := map (fun c => nth i (bRows (cDat c)) []) l.
Lemma cells_ok n i l : i < n -> Forall (col_ok n) l -> Forall csv_ok l -> exists cells,
  mapM (fun c => do r <- get (bRows (cDat c)) i; csv_cell c r) l = Ok cells /\
  forall buf x, exists buf', csv_read_cells (map info_of l) buf (Some (concat cells ++ x)) = Ok (line l i, (buf', Some x)).
Proof.
  intro Hi. induction l as [|c l IH]; intros HC HB.
  - exists []. split; [easy|]. intros buf x. now exists buf.
  - apply Forall_cons_iff in HC, HB. destruct HC as [HC HC'], HB as [HB HB']. destruct (IH HC' HB') as [cells [E R]].
    assert (RL : i < length (bRows (cDat c))) by (destruct HC as [_ [RN _]]; unfold bm_n in RN; lia).
    pose proof (row_of HC HB Hi) as RO. destruct (@csv_cell_ok n c _ [] [] HC HB RO) as [s [ES _]].
    exists (s :: cells). split; [cbn [mapM]; rewrite (@get_ok _ _ _ [] RL); cbn [bind]; rewrite ES; cbn [bind]; now rewrite E|].
    intros buf x. cbn [map csv_read_cells concat line]. rewrite <- app_assoc. destruct (@csv_cell_ok n c _ buf (concat cells ++ x) HC HB RO) as [s' [ES' [b' EB']]].
    rewrite ES in ES'. injection ES' as <-. rewrite EB'. cbn [bind fst snd]. destruct (R b' x) as [b2 ->]. now exists b2.
Qed.
Lemma csv_row_ok n i l : i < n -> Forall (col_ok n) l -> Forall csv_ok l -> exists s, csv_row l i = Ok (s ++ [10%N]) /\
  forall buf x, exists buf', csv_read_cells (map info_of l) buf (Some (s ++ x)) = Ok (line l i, (buf', Some x)).
Proof. intros Hi HC HB. destruct (cells_ok Hi HC HB) as [cells [E R]]. exists (concat cells). unfold csv_row. rewrite E. now split. Qed.

Lemma csv_rows_ok n l k : forall a, a + k <= n -> Forall (col_ok n) l -> Forall csv_ok l -> exists rows,
  mapM (csv_row l) (seq a k) = Ok rows /\
  forall buf x, csv_read_rows k (map info_of l) buf (Some (concat rows ++ x)) = Ok (map (line l) (seq a k)).
Proof.
  induction k as [|k IH]; intros a Ha HC HB; [now exists []|]. destruct (IH (S a) ltac:(lia) HC HB) as [rows [E R]].
  destruct (@csv_row_ok n a l ltac:(lia) HC HB) as [s [ES RS]]. exists ((s ++ [10%N]) :: rows). cbn [seq mapM]. rewrite ES. cbn [bind]. rewrite E. split; [easy|].
  intros buf x. cbn [csv_read_rows concat map]. rewrite <- !app_assoc. destruct (RS buf ([10%N] ++ concat rows ++ x)) as [b' ->]. cbn [bind fst snd].
  change (Some ([10%N] ++ concat rows ++ x)) with (Some ([] ++ 10%N :: (concat rows ++ x))). rewrite getline_ok by easy. cbn [length Nat.eqb negb throw_if bind]. now rewrite R.
Qed.

Lemma rebuild n l : Forall (col_ok n) l -> forall pre,
  map (fun ji => Col (iName (snd ji)) (iType (snd ji)) (iBits (snd ji)) (BM (iBits (snd ji)) (div_ceil (iBits (snd ji)) 8)
    (map (fun ln => nth (fst ji) ln []) (map (line (pre ++ l)) (seq 0 n))))) (combine (seq (length pre) (length l)) (map info_of l)) = l.
Proof.
  induction l as [|c l IH]; intros H pre; [easy|]. apply Forall_cons_iff in H. destruct H as [HC H]. cbn [length seq map combine fst snd]. f_equal.
  - destruct HC as [[RO BC] [RN [EB _]]]. rewrite RN in RO. rewrite map_map.
    replace (map (fun x => nth (length pre) (line (pre ++ c :: l) x) []) (seq 0 n)) with (bRows (cDat c)).
    + destruct c as [na ty bi [bb bc rows]]. cbn [info_of iName iType iBits cName cType cBits cDat bBits bCols bRows] in *. now subst bi bc.
    + apply (@nth_ext _ _ _ [] []); [rewrite map_length, seq_length; apply RO|]. intros i Hi. rewrite (proj1 RO) in Hi. rewrite nth_map_seq' by easy.
      unfold line. rewrite map_app. cbn [map]. rewrite app_nth2 by (rewrite map_length; lia). rewrite map_length, Nat.sub_diag. easy.
  - specialize (IH H (pre ++ [c])). rewrite <- app_assoc in IH. cbn [app] in IH. rewrite app_length in IH. cbn [length] in IH. rewrite Nat.add_1_r in IH. exact IH.
Qed.

Lemma csv_roundtrip n act t x : csv_table_ok n t -> exists s, write_csv t = Ok s /\ read_csv act (s ++ x) = Ok (Tab act (tCols t)).
Proof.
  intros [[TR [TC _]] [HB [HN HL]]]. unfold write_csv. rewrite TR. destruct (@csv_rows_ok n (tCols t) n 0 (le_n _) TC HB) as [rows [E R]]. rewrite E. cbn [bind].
  eexists. split; [reflexivity|]. unfold read_csv. rewrite <- !app_assoc. cbn [app]. rewrite getline_ok by (apply dec_no; lia). rewrite csv_u64_dec by (now rewrite nat_N_Z). cbn [bind].
  rewrite getline_ok by (apply dec_no; lia). rewrite csv_u64_dec by (now rewrite nat_N_Z). cbn [bind]. rewrite !Nat2N.id.
  destruct (@csv_read_heads_ok n (tCols t) (dec (N.of_nat n)) (concat rows ++ x) TC HB) as [b' EH]. rewrite <- ?app_assoc. rewrite EH. cbn [bind fst snd]. rewrite R. cbn [bind]. rewrite map_length.
  f_equal. f_equal. exact (rebuild TC []).
Qed.

(* what the number parsers accept *)
Lemma stoll_range s z : stoll s = Ok z -> (- 2 ^ 63 <= z < 2 ^ 63)%Z.
Proof.
  unfold stoll. destruct (sign_split (skip_space s)) as [neg t]. destruct (length (digits t) =? 0); cbn [throw_if bind]; [easy|]. cbv zeta.
  set (v := if neg then _ else _). destruct ((v <? - 2 ^ 63) || (2 ^ 63 - 1 <? v))%Z eqn:E; cbn [throw_if bind]; [easy|]. intro H. injection H as <-.
  apply orb_false_iff in E. rewrite !Z.ltb_ge in E. lia.
Qed.
Lemma stoll_dec_inv n z : stoll (dec n) = Ok z -> z = Z.of_N n.
Proof.
  destruct (dec_cons n) as [c [s [E D]]]. unfold stoll. rewrite E, space_digit by easy. rewrite sign_digit by easy. rewrite <- E, digits_all by apply dec_digits.
  rewrite E. cbn [length Nat.eqb throw_if bind]. rewrite <- E, digits_val_dec. cbv zeta. destruct ((Z.of_N n <? - 2 ^ 63) || (2 ^ 63 - 1 <? Z.of_N n))%Z; cbn [throw_if bind]; [easy|congruence].
Qed.
Lemma csv_u64_iff s n : csv_u64 s = Ok n <-> s = dec n /\ (Z.of_N n < 2 ^ 63)%Z.
Proof.
  split; [|intros [-> H]; now apply csv_u64_dec]. unfold csv_u64. destruct (stoll s) as [z| | |] eqn:E; cbn [bind]; try easy.
  set (u := Z.to_N (z mod 2 ^ 64)). destruct (bytes_eq s (dec u)) eqn:EB; cbn [negb throw_if bind]; [|easy]. apply bytes_eq_iff in EB. intro H. injection H as <-. split; [easy|].
  pose proof (stoll_range E). rewrite EB in E. apply stoll_dec_inv in E. lia.
Qed.
Lemma csv_i64_iff s z : csv_i64 s = Ok z <-> s = dec_z z /\ (- 2 ^ 63 <= z < 2 ^ 63)%Z.
Proof.
  split; [|intros [-> H]; now apply csv_i64_dec]. unfold csv_i64. destruct (stoll s) as [y| | |] eqn:E; cbn [bind]; try easy.
  destruct (bytes_eq (dec_z y) s) eqn:EB; cbn [negb throw_if bind]; [|easy]. apply bytes_eq_iff in EB. intro H. injection H as <-. split; [easy|]. now apply (stoll_range E).
Qed.

(* cells of numbers *)
Lemma int_cell_text c r : cType c = 0 -> cBits c <= 64 -> length r < 8 -> bytes r -> csv_cell c r = Ok (dec (load r) ++ [32%N]).
Proof.
  intros T B L H. unfold csv_cell. rewrite T. apply Nat.ltb_ge in B. rewrite B. cbn [throw_if bind]. rewrite firstn_all2 by lia. unfold i64_of.
  assert (LT : (load r < 2 ^ (8 * N.of_nat 7))%N) by (apply load_lt; [easy|lia]). change (2 ^ (8 * N.of_nat 7))%N with 72057594037927936%N in LT.
  change (2 ^ 63)%N with 9223372036854775808%N. replace (load r <? 9223372036854775808)%N with true by (symmetry; apply N.ltb_lt; lia).
  unfold dec_z. replace (Z.of_N (load r) <? 0)%Z with false by (symmetry; apply Z.ltb_ge; lia). now rewrite N2Z.id.
Qed.
Lemma firstn_store w v : w <= 8 -> firstn w (store 8 v) = store w v.
Proof.
  intro H. apply bytes_ext; [apply firstn_bytes, store_bytes|apply store_bytes|rewrite firstn_length, !store_length; lia|]. intros k Hk. rewrite firstn_length, store_length in Hk.
  rewrite firstn_bit, !store_bit by lia. easy.
Qed.
Lemma int_cell_read i z buf x : iType i = 0 -> iBits i <= 64 -> (- 2 ^ 63 <= z < 2 ^ 63)%Z -> exists b,
  csv_read_cell i buf (Some (dec_z z ++ 32%N :: x)) = Ok (store (div_ceil (iBits i) 8) (Z.to_N (z mod 2 ^ 64)), (b, Some x)).
Proof.
  intros T B R. unfold csv_read_cell. rewrite T. pose proof (div_ceil64 B). apply Nat.ltb_ge in B. rewrite B. cbn [throw_if bind]. rewrite getline_ok by (apply dec_z_no; lia).
  rewrite csv_i64_dec by easy. cbn [bind]. eexists. rewrite firstn_store by easy. reflexivity.
Qed.
Lemma string_cell_throw c r : cType c = 2 -> In 59%N r \/ ~ padded r -> csv_cell c r = Throw.
Proof.
  intros T H. unfold csv_cell. rewrite T. destruct (existsb (N.eqb 59) r) eqn:E; [easy|]. cbn [throw_if bind].
  destruct H as [H|H]; [exfalso; apply not_true_iff_false in E; apply E; apply existsb_exists; exists 59%N; now split|].
  destruct (existsb (fun x => negb (x =? 0)%N) (skipn (length (until0 r)) r)) eqn:E2; [easy|]. exfalso. apply H. clear -E2.
  induction r as [|x r IH]; [exact I|]. cbn [until0] in E2. destruct (N.eqb_spec x 0) as [->|NE].
  - cbn [length skipn existsb N.eqb negb orb] in E2. assert (Z : Forall (fun y => y = 0%N) r).
    { apply Forall_forall. intros y Hy. destruct (N.eqb_spec y 0) as [->|NE]; [easy|]. exfalso. apply not_true_iff_false in E2. apply E2. apply existsb_exists. exists y.
      split; [easy|]. now apply negb_true_iff, N.eqb_neq. }
    split; [easy|]. clear -Z. induction r as [|y r IH]; [exact I|]. apply Forall_cons_iff in Z. destruct Z as [-> Z]. split; [easy|now apply IH].
  - split; [easy|]. now apply IH.
Qed.

(* a file of strings cut between rows *)
Definition zero_row (i : cinfo) : list N := repeat 0%N (div_ceil (iBits i) 8).
Definition strings (l : list cinfo) : Prop := Forall (fun i => iType i = 2) l.
Lemma strings_eof l : strings l -> csv_read_cells l [] None = Ok (map zero_row l, ([], None)).
Proof.
  induction l as [|i l IH]; intro H; [easy|]. apply Forall_cons_iff in H. destruct H as [T H]. cbn [csv_read_cells]. unfold csv_read_cell. rewrite T.
  cbn [getline length]. replace (div_ceil (iBits i) 8 <? 0) with false by (symmetry; apply Nat.ltb_ge; lia). cbn [throw_if bind fst snd app]. rewrite IH by easy. cbn [bind fst snd map].
  unfold zero_row at 2. now rewrite Nat.sub_0_r.
Qed.
Lemma strings_end l buf : strings l -> l <> [] -> csv_read_cells l buf (Some []) = Ok (map zero_row l, ([], None)).
Proof.
  destruct l as [|i l]; [easy|]. intros H _. apply Forall_cons_iff in H. destruct H as [T H]. cbn [csv_read_cells]. unfold csv_read_cell. rewrite T.
  cbn [getline split_at length]. replace (div_ceil (iBits i) 8 <? 0) with false by (symmetry; apply Nat.ltb_ge; lia). cbn [throw_if bind fst snd app]. rewrite strings_eof by easy. cbn [bind fst snd map].
  unfold zero_row at 2. now rewrite Nat.sub_0_r.
Qed.
Lemma strings_rows_eof l j : strings l -> csv_read_rows j l [] None = Ok (repeat (map zero_row l) j).
Proof.
  intro H. induction j as [|j IH]; [easy|]. cbn [csv_read_rows]. rewrite strings_eof by easy. cbn [bind fst snd getline length Nat.eqb negb throw_if]. now rewrite IH.
Qed.
Lemma strings_rows_end l j buf : strings l -> l <> [] -> csv_read_rows j l buf (Some []) = Ok (repeat (map zero_row l) j).
Proof.
  intros H HL. destruct j as [|j]; [easy|]. cbn [csv_read_rows]. rewrite strings_end by easy. cbn [bind fst snd getline length Nat.eqb negb throw_if]. now rewrite strings_rows_eof.
Qed.
Lemma csv_rows_cut n l k j : forall a, a + k <= n -> Forall (col_ok n) l -> Forall csv_ok l -> strings (map info_of l) -> l <> [] -> exists rows,
  mapM (csv_row l) (seq a k) = Ok rows /\
  forall buf, csv_read_rows (k + j) (map info_of l) buf (Some (concat rows)) = Ok (map (line l) (seq a k) ++ repeat (map zero_row (map info_of l)) j).
Proof.
  intros a Ha HC HB HS HL. revert a Ha. induction k as [|k IH]; intros a Ha.
  { exists []. split; [easy|]. intro buf. cbn [Nat.add concat seq map app]. apply strings_rows_end; [easy|]. now destruct l. }
  destruct (IH (S a) ltac:(lia)) as [rows [E R]].
  destruct (@csv_row_ok n a l ltac:(lia) HC HB) as [s [ES RS]]. exists ((s ++ [10%N]) :: rows). cbn [seq mapM]. rewrite ES. cbn [bind]. rewrite E. split; [easy|].
  intros buf. cbn [Nat.add csv_read_rows concat map]. rewrite <- !app_assoc. destruct (RS buf ([10%N] ++ concat rows)) as [b' ->]. cbn [bind fst snd].
  change (Some ([10%N] ++ concat rows)) with (Some ([] ++ 10%N :: (concat rows))). rewrite getline_ok by easy. cbn [length Nat.eqb negb throw_if bind]. now rewrite R.
Qed.
Lemma mapM_length A B (f : A -> outcome B) l : forall r, mapM f l = Ok r -> length r = length l.
Proof.
  induction l as [|a l IH]; intros r H; [injection H as <-; easy|]. cbn [mapM] in H. destruct (f a); cbn [bind] in H; try discriminate.
  destruct (mapM f l) as [x| | |]; cbn [bind] in H; try discriminate. injection H as <-. cbn. now rewrite (IH x).
Qed.
Lemma mapM_app_ok A B (f : A -> outcome B) l m : forall x y, mapM f l = Ok x -> mapM f m = Ok y -> mapM f (l ++ m) = Ok (x ++ y).
Proof.
  induction l as [|a l IH]; intros x y X Y; [injection X as <-; easy|]. cbn [app mapM] in *. destruct (f a); cbn [bind] in *; try discriminate.
  destruct (mapM f l) as [r| | |]; cbn [bind] in *; try discriminate. injection X as <-. now rewrite (IH r y eq_refl Y).
Qed.

Lemma blank_ok n k c : k <= n -> col_ok n c -> col_ok n (blank n k c).
Proof.
  intros K H. apply (@with_rows_ok n n c _ H). destruct H as [[RO BC] [RN _]]. rewrite RN in RO. destruct RO as [RL RF]. split.
  - rewrite app_length, firstn_length, repeat_length. lia.
  - apply Forall_app. split.
    + rewrite Forall_forall in *. intros r Hr. apply RF. rewrite <- (firstn_skipn k (bRows (cDat c))). apply in_or_app. now left.
    + apply Forall_forall. intros r Hr. apply repeat_spec in Hr. subst. split; [apply repeat_length|apply zeros_bytes].
Qed.
Lemma blank_lines n k l : k <= n -> Forall (col_ok n) l -> map (line l) (seq 0 k) ++ repeat (map zero_row (map info_of l)) (n - k) = map (line (map (blank n k) l)) (seq 0 n).
Proof.
  intros K H. replace (seq 0 n) with (seq 0 k ++ seq k (n - k)) by (rewrite <- seq_app; f_equal; lia). rewrite map_app. f_equal.
  - apply map_ext_in. intros i Hi. apply in_seq in Hi. unfold line. rewrite map_map. apply map_ext_in. intros c Hc. rewrite Forall_forall in H. specialize (H c Hc).
    destruct H as [_ [RN _]]. unfold bm_n in RN. unfold blank. rewrite with_rows_rows, app_nth1 by (rewrite firstn_length; lia). symmetry. apply CompressProofs.nth_firstn. lia.
  - apply (@nth_ext _ _ _ [] []); [rewrite repeat_length, map_length, seq_length; easy|]. rewrite repeat_length. intros i Hi.
    rewrite (nth_indep _ [] (map zero_row (map info_of l))) by (now rewrite repeat_length). rewrite nth_repeat.
    rewrite (nth_indep _ [] (line (map (blank n k) l) 0)) by (now rewrite map_length, seq_length). rewrite (map_nth (line (map (blank n k) l))). rewrite seq_nth by easy.
    unfold line. rewrite !map_map. apply map_ext_in. intros c Hc. rewrite Forall_forall in H. specialize (H c Hc). destruct H as [[_ BC] [RN [EB _]]]. unfold bm_n in RN.
    unfold blank. rewrite with_rows_rows, app_nth2 by (rewrite firstn_length; lia). rewrite firstn_length, Nat.min_l by lia. replace (k + i - k) with i by lia.
    rewrite (nth_indep _ [] (repeat 0%N (bCols (cDat c)))) by (now rewrite repeat_length). rewrite nth_repeat. unfold zero_row. cbn. now rewrite BC, EB.
Qed.
Lemma csv_cut n act t k : csv_table_ok n t -> Forall (fun c => cType c = 2) (tCols t) -> tCols t <> [] -> k <= n -> exists head rows,
  length rows = n /\ write_csv t = Ok (head ++ concat rows) /\
  read_csv act (head ++ concat (firstn k rows)) = Ok (Tab act (map (blank n k) (tCols t))).
Proof.
  intros [[TR [TC _]] [HB [HN HL]]] HS HE K. assert (SI : strings (map info_of (tCols t))) by (unfold strings; now apply Forall_map).
  destruct (@csv_rows_cut n (tCols t) k (n - k) 0 K TC HB SI HE) as [rows [E R]]. destruct (@csv_rows_ok n (tCols t) (n - k) k ltac:(lia) TC HB) as [rows2 [E2 _]].
  assert (L1 : length rows = k) by (rewrite (@mapM_length _ _ _ _ _ E); apply seq_length).
  assert (L2 : length rows2 = n - k) by (rewrite (@mapM_length _ _ _ _ _ E2); apply seq_length).
  exists (dec (N.of_nat (length (tCols t))) ++ [32%N] ++ dec (N.of_nat n) ++ [10%N] ++ concat (map csv_head (tCols t))), (rows ++ rows2). split; [rewrite app_length; lia|]. split.
  - unfold write_csv. rewrite TR. replace (seq 0 n) with (seq 0 k ++ seq k (n - k)) by (rewrite <- seq_app; f_equal; lia). rewrite (@mapM_app_ok _ _ _ _ _ _ _ E E2). cbn [bind].
    now rewrite <- !app_assoc.
  - rewrite firstn_app, L1, Nat.sub_diag, firstn_all2 by lia. cbn [firstn]. rewrite app_nil_r.
    unfold read_csv. rewrite <- !app_assoc. cbn [app]. rewrite getline_ok by (apply dec_no; lia). rewrite csv_u64_dec by (now rewrite nat_N_Z). cbn [bind].
    rewrite getline_ok by (apply dec_no; lia). rewrite csv_u64_dec by (now rewrite nat_N_Z). cbn [bind]. rewrite !Nat2N.id.
    destruct (@csv_read_heads_ok n (tCols t) (dec (N.of_nat n)) (concat rows) TC HB) as [b' EH]. rewrite EH. cbn [bind fst snd].
    replace n with (k + (n - k)) at 1 by lia. rewrite R. cbn [bind]. rewrite blank_lines by easy. f_equal. f_equal.
    assert (TC' : Forall (col_ok n) (map (blank n k) (tCols t))) by (apply Forall_map; eapply Forall_impl; [|exact TC]; intros c Hc; now apply blank_ok).
    pose proof (rebuild TC' []) as RB. rewrite !map_length in RB. rewrite map_length. rewrite map_map in RB. exact RB.
Qed.

(* strings and line ends the reader rejects *)
Lemma string_cell_read i s buf x : iType i = 2 -> ~ In 59%N s ->
  csv_read_cell i buf (Some (s ++ 59%N :: x)) =
    if div_ceil (iBits i) 8 <? length s then Throw
    else Ok (s ++ repeat 0%N (div_ceil (iBits i) 8 - length s), (s, Some x)).
Proof.
  intros T N. unfold csv_read_cell. rewrite T. rewrite getline_ok by easy. destruct (_ <? _); reflexivity.
Qed.
Lemma csv_rows_extra n l k j y x : y <> [] -> ~ In 10%N y -> forall a, a + k < n -> Forall (col_ok n) l -> Forall csv_ok l -> exists rows s,
  mapM (csv_row l) (seq a k) = Ok rows /\ csv_row l (a + k) = Ok (s ++ [10%N]) /\
  forall buf, csv_read_rows (k + S j) (map info_of l) buf (Some (concat rows ++ s ++ y ++ 10%N :: x)) = Throw.
Proof.
  intros Y Y10 a Ha HC HB. revert a Ha. induction k as [|k IH]; intros a Ha.
  { destruct (@csv_row_ok n a l ltac:(lia) HC HB) as [s [ES RS]]. exists [], s. rewrite Nat.add_0_r. split; [easy|]. split; [easy|].
    intro buf. cbn [Nat.add concat app csv_read_rows]. destruct (RS buf (y ++ 10%N :: x)) as [b' ->]. cbn [bind fst snd]. rewrite getline_ok by easy.
    destruct y as [|y0 y]; [easy|]. reflexivity. }
  destruct (IH (S a) ltac:(lia)) as [rows [s [E [Es R]]]].
  destruct (@csv_row_ok n a l ltac:(lia) HC HB) as [s0 [ES RS]]. exists ((s0 ++ [10%N]) :: rows), s. cbn [seq mapM]. rewrite ES. cbn [bind]. rewrite E. split; [easy|].
  split; [now replace (a + S k) with (S a + k) by lia|].
  intros buf. cbn [Nat.add csv_read_rows concat map]. rewrite <- !app_assoc. destruct (RS buf ([10%N] ++ concat rows ++ s ++ y ++ 10%N :: x)) as [b' ->]. cbn [bind fst snd].
  change (Some ([10%N] ++ concat rows ++ s ++ y ++ 10%N :: x)) with (Some ([] ++ 10%N :: (concat rows ++ s ++ y ++ 10%N :: x))). rewrite getline_ok by easy. cbn [length Nat.eqb negb throw_if bind]. now rewrite R.
Qed.
Lemma mapM_cat A B (f : A -> outcome B) l m : forall r, mapM f (l ++ m) = Ok r -> exists x y, mapM f l = Ok x /\ mapM f m = Ok y /\ r = x ++ y.
Proof.
  induction l as [|a l IH]; intros r H; [now exists [], r|]. cbn [app mapM] in *. destruct (f a) as [b| | |]; cbn [bind] in *; try discriminate.
  destruct (mapM f (l ++ m)) as [q| | |]; cbn [bind] in H; try discriminate. injection H as <-. destruct (IH q eq_refl) as (x & y & X & Y & ->).
  rewrite X. now exists (b :: x), y.
Qed.
Lemma csv_extra n act t k y x : csv_table_ok n t -> k < n -> y <> [] -> ~ In 10%N y -> exists head rows line,
  length rows = n /\ write_csv t = Ok (head ++ concat rows) /\ nth k rows [] = line ++ [10%N] /\
  read_csv act (head ++ concat (firstn k rows) ++ line ++ y ++ 10%N :: x) = Throw.
Proof.
  intros [[TR [TC _]] [HB [HN HL]]] K Y Y10. unfold write_csv. rewrite TR. destruct (@csv_rows_ok n (tCols t) n 0 (le_n _) TC HB) as [rows [E _]].
  pose proof E as E0. rewrite E. cbn [bind]. destruct (@csv_rows_extra n (tCols t) k (n - S k) y x Y Y10 0 K TC HB) as (rk & s & Ek & Es & R).
  replace (seq 0 n) with (seq 0 k ++ seq k (n - k)) in E by (rewrite <- seq_app; f_equal; lia). destruct (@mapM_cat _ _ _ _ _ _ E) as (a & b & Ea & Eb & ->).
  assert (a = rk) as -> by congruence. pose proof (@mapM_length _ _ _ _ _ Ek) as Lk. rewrite seq_length in Lk.
  destruct (n - k) as [|m] eqn:EM; [lia|]. cbn [seq mapM] in Eb. cbn [Nat.add] in Es. rewrite Es in Eb. cbn [bind] in Eb.
  destruct (mapM (csv_row (tCols t)) (seq (S k) m)) as [b'| | |] eqn:Eb'; cbn [bind] in Eb; try discriminate. injection Eb as <-.
  exists (dec (N.of_nat (length (tCols t))) ++ [32%N] ++ dec (N.of_nat n) ++ [10%N] ++ concat (map csv_head (tCols t))), (rk ++ (s ++ [10%N]) :: b'), s.
  split. { rewrite (@mapM_length _ _ _ _ _ E0), seq_length. easy. }
  split. { rewrite <- !app_assoc. reflexivity. }
  split. { rewrite app_nth2 by lia. now rewrite Lk, Nat.sub_diag. }
  rewrite firstn_app, Lk, Nat.sub_diag, firstn_O, app_nil_r, firstn_all2 by lia.
  unfold read_csv. rewrite <- !app_assoc. cbn [app]. rewrite getline_ok by (apply dec_no; lia). rewrite csv_u64_dec by (now rewrite nat_N_Z). cbn [bind].
  rewrite getline_ok by (apply dec_no; lia). rewrite csv_u64_dec by (now rewrite nat_N_Z). cbn [bind]. rewrite !Nat2N.id.
  destruct (@csv_read_heads_ok n (tCols t) (dec (N.of_nat n)) (concat rk ++ s ++ y ++ 10%N :: x) TC HB) as [b0 EH].
  rewrite EH. cbn [bind fst snd]. replace n with (k + S (n - S k)) at 1 by lia. rewrite R. reflexivity.
Qed.
