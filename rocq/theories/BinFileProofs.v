(* writeBin and readBin. *)
From Verif Require Import Base Words Mod3Proofs KeyMultModel BitInjProofs ShuffleModel ShuffleSpec ShuffleSpanProofs TableModel TableSpec TrimProofs TableProofs
  TableIOModel TableIOSpec.

Lemma sbit_app a b k : sbit (a ++ b) k = if k <? 8 * length a then sbit a k else sbit b (k - 8 * length a).
Proof.
  unfold sbit. destruct (div_mod8 k) as [E M]. destruct (Nat.ltb_spec k (8 * length a)).
  - rewrite app_nth1 by lia. easy.
  - rewrite app_nth2 by lia. replace ((k - 8 * length a) / 8) with (k / 8 - length a); [replace ((k - 8 * length a) mod 8) with (k mod 8); [easy|]|].
    + symmetry. replace (k - 8 * length a) with (k mod 8 + (k / 8 - length a) * 8) by lia. rewrite Nat.mod_add by lia. apply Nat.mod_small. lia.
    + symmetry. replace (k - 8 * length a) with (k mod 8 + (k / 8 - length a) * 8) by lia. rewrite Nat.div_add by lia. rewrite (Nat.div_small (k mod 8)) by lia. lia.
Qed.
Lemma zeros_bytes m : bytes (repeat 0%N m).
Proof. apply Forall_forall. intros x H. apply repeat_spec in H. subst. lia. Qed.
Lemma sbit_zeros m k : sbit (repeat 0%N m) k = false.
Proof. unfold sbit. rewrite nth_repeat. apply N.bits_0. Qed.
Lemma bytes_app a b : bytes a -> bytes b -> bytes (a ++ b).
Proof. intros A B. apply Forall_app. now split. Qed.

(* a store cut after k bytes and filled with zeros *)
Lemma load_cut w k x z : k <= w -> load (firstn k (store w x) ++ repeat 0%N z) = (x mod 2 ^ (8 * N.of_nat k))%N.
Proof.
  intro H. apply N.bits_inj. intro b. rewrite <- (N2Nat.id b). set (j := N.to_nat b). clearbody j.
  rewrite load_bit by (apply bytes_app; [apply firstn_bytes, store_bytes|apply zeros_bytes]).
  rewrite sbit_app, firstn_length, store_length, Nat.min_l by easy. destruct (Nat.ltb_spec j (8 * k)).
  - rewrite N.mod_pow2_bits_low by lia. rewrite firstn_bit by easy. apply store_bit. lia.
  - rewrite N.mod_pow2_bits_high by lia. apply sbit_zeros.
Qed.
Lemma load_store w x : (x < 2 ^ (8 * N.of_nat w))%N -> load (store w x) = x.
Proof.
  intro H. pose proof (@load_cut w w x 0 (le_n _)) as E. rewrite firstn_all2 in E by (rewrite store_length; lia). cbn [repeat] in E. rewrite app_nil_r in E.
  rewrite E. now apply N.mod_small.
Qed.

Lemma read_into_full d a r : length d = length a -> read_into d (a ++ r) = (a, r).
Proof.
  intro H. unfold read_into. rewrite H, firstn_app, firstn_all, Nat.sub_diag. cbn [firstn]. rewrite app_nil_r.
  rewrite skipn_all2 by (rewrite app_length; lia). rewrite app_nil_r, skipn_app, skipn_all, Nat.sub_diag. easy.
Qed.
Lemma read_into_short d s : length s <= length d -> read_into d s = (s ++ skipn (length s) d, []).
Proof. intro H. unfold read_into. rewrite firstn_all2 by lia. rewrite (@skipn_all2 _ (length d) s) by lia. easy. Qed.
Lemma skipn_repeat A (x : A) m : forall k, skipn k (repeat x m) = repeat x (m - k).
Proof. induction m as [|m IH]; intros [|k]; cbn; auto. Qed.

Lemma pow64 : (2 ^ (8 * N.of_nat 8) = 2 ^ 64)%N. Proof. reflexivity. Qed.
Lemma read_u64_ok x r : (x < 2 ^ 64)%N -> read_u64 (store 8 x ++ r) = (x, r).
Proof.
  intro H. unfold read_u64. rewrite read_into_full by (rewrite store_length, repeat_length; easy). cbn [fst snd]. rewrite load_store; [easy|]. now rewrite pow64.
Qed.
Lemma read_u64_cut k x r : k < 8 -> read_u64 (firstn k (store 8 x ++ r)) = ((x mod 2 ^ (8 * N.of_nat k))%N, []).
Proof.
  intro H. rewrite firstn_app, store_length. replace (k - 8) with 0 by lia. cbn [firstn]. rewrite app_nil_r. unfold read_u64.
  assert (L : length (firstn k (store 8 x)) = k) by (rewrite firstn_length, store_length; lia).
  rewrite read_into_short by (rewrite L, repeat_length; lia). cbn [fst snd]. rewrite L, skipn_repeat, load_cut by lia. easy.
Qed.
Lemma read_u64_nil : read_u64 [] = (0%N, []). Proof. reflexivity. Qed.
Lemma read_heads_nil k : read_heads (S k) [] = UB. Proof. reflexivity. Qed.

Lemma firstn_app_ge A k (a b : list A) : length a <= k -> firstn k (a ++ b) = a ++ firstn (k - length a) b.
Proof. intro H. rewrite firstn_app, firstn_all2 by easy. easy. Qed.

Section HEAD.
Variables (n : nat) (c : column).
Hypotheses (HC : col_ok n c) (HB : bin_ok c).

Lemma read_head_ok r : read_head (bin_head c ++ r) = Ok (info_of c, r).
Proof.
  destruct HC as [_ [_ [EB [T ST]]]], HB as [NB [NL BL]]. unfold bin_head, read_head. rewrite <- !app_assoc.
  assert (P : (2 ^ 64)%N = 18446744073709551616%N) by reflexivity.
  rewrite read_u64_ok by lia. replace (512 <? N.of_nat (length (cName c)))%N with false by (symmetry; apply N.ltb_ge; lia). cbn [throw_if bind].
  rewrite Nat2N.id, read_into_full by (rewrite repeat_length; easy). cbn [app].
  replace (3 <? N.of_nat (cType c))%N with false by (symmetry; apply N.ltb_ge; lia). cbn [throw_if bind].
  rewrite read_u64_ok by lia. replace (2 ^ 14 <? N.of_nat (cBits c))%N with false by (symmetry; apply N.ltb_ge; change (2 ^ 14)%N with 16384%N; lia). cbn [throw_if bind].
  rewrite !Nat2N.id, mk_info_ok; [easy|]. rewrite EB. easy.
Qed.

Lemma bin_head_length : length (bin_head c) = 8 + length (cName c) + 1 + 8.
Proof. unfold bin_head. rewrite !app_length, !store_length. cbn [length]. lia. Qed.

Lemma read_head_cut k r : k < length (bin_head c) ->
  read_head (firstn k (bin_head c ++ r)) = UB \/ exists i, read_head (firstn k (bin_head c ++ r)) = Ok (i, []).
Proof.
  intro K. rewrite bin_head_length in K. destruct HC as [_ [_ [EB [T ST]]]], HB as [NB [NL BL]].
  unfold bin_head. rewrite <- !app_assoc. assert (P : (2 ^ 64)%N = 18446744073709551616%N) by reflexivity.
  destruct (Nat.lt_ge_cases k 8) as [K1|K1].
  { left. unfold read_head. rewrite read_u64_cut by easy. pose proof (N.mod_le (N.of_nat (length (cName c))) (2 ^ (8 * N.of_nat k)) ltac:(apply N.pow_nonzero; lia)).
    replace (512 <? N.of_nat (length (cName c)) mod 2 ^ (8 * N.of_nat k))%N with false by (symmetry; apply N.ltb_ge; lia). cbn [throw_if bind].
    rewrite read_into_short by (cbn; lia). easy. }
  rewrite firstn_app_ge by (rewrite store_length; easy). rewrite store_length. unfold read_head.
  rewrite read_u64_ok by lia. replace (512 <? N.of_nat (length (cName c)))%N with false by (symmetry; apply N.ltb_ge; lia). cbn [throw_if bind]. rewrite Nat2N.id.
  destruct (Nat.le_gt_cases (k - 8) (length (cName c))) as [K2|K2].
  { left. rewrite firstn_app. replace (k - 8 - length (cName c)) with 0 by lia. cbn [firstn]. rewrite app_nil_r.
    rewrite read_into_short by (rewrite firstn_length, repeat_length; lia). easy. }
  rewrite firstn_app_ge by lia. rewrite read_into_full by (now rewrite repeat_length).
  rewrite firstn_app_ge by (cbn; lia). cbn [length app].
  replace (3 <? N.of_nat (cType c))%N with false by (symmetry; apply N.ltb_ge; lia). cbn [throw_if bind].
  set (j := k - 8 - length (cName c) - 1). assert (J : j < 8) by (unfold j; lia). clearbody j.
  rewrite read_u64_cut by easy. set (b := (N.of_nat (cBits c) mod 2 ^ (8 * N.of_nat j))%N).
  assert (BLE : (b <= N.of_nat (cBits c))%N) by (apply N.mod_le, N.pow_nonzero; lia).
  replace (2 ^ 14 <? b)%N with false by (symmetry; apply N.ltb_ge; change (2 ^ 14)%N with 16384%N; lia). cbn [throw_if bind].
  right. exists (Info (cName c) (cType c) (N.to_nat b)). rewrite Nat2N.id, mk_info_ok; [easy|]. intro T2.
  assert (B8 : (b mod 8 = 0)%N).
  { destruct j as [|j]; [unfold b; rewrite N.mod_1_r; easy|]. apply N.mod_divide; [easy|]. unfold b.
    assert (M : (N.of_nat (cBits c) mod 8 = 0)%N) by (rewrite EB; specialize (ST T2); change 8%N with (N.of_nat 8); rewrite <- Nat2N.inj_mod, ST; easy).
    apply N.mod_divide in M; [|easy].
    assert (D : (8 | 2 ^ (8 * N.of_nat (S j)))%N) by (exists (2 ^ (8 * N.of_nat (S j) - 3))%N; change (2 ^ (8 * N.of_nat (S j)) = 2 ^ (8 * N.of_nat (S j) - 3) * 2 ^ 3)%N; rewrite <- N.pow_add_r; f_equal; lia).
    rewrite N.mod_eq by (apply N.pow_nonzero; lia). destruct M as [u ->], D as [v D]. rewrite D. set (q := (u * 8 / (v * 8))%N).
    exists (u - v * q)%N. rewrite N.mul_sub_distr_r. f_equal. lia. }
  rewrite <- (N2Nat.id b) in B8. change 8%N with (N.of_nat 8) in B8. rewrite <- Nat2N.inj_mod in B8. lia.
Qed.
End HEAD.

Lemma read_heads_ok n l r : Forall (col_ok n) l -> Forall bin_ok l -> read_heads (length l) (bin_heads l ++ r) = Ok (map info_of l, r).
Proof.
  intros HC HB. unfold bin_heads. induction l as [|c l IH]; [easy|].
  apply Forall_cons_iff in HC, HB. destruct HC as [HC HC'], HB as [HB HB']. cbn [length read_heads map concat]. rewrite <- app_assoc, (@read_head_ok n) by easy.
  cbn [bind snd fst]. rewrite IH by easy. easy.
Qed.
Lemma read_heads_cut n l r : Forall (col_ok n) l -> Forall bin_ok l -> forall k,
  (exists x, read_heads (length l) (firstn k (bin_heads l ++ r)) = Ok x) \/ read_heads (length l) (firstn k (bin_heads l ++ r)) = UB.
Proof.
  intros HC HB. unfold bin_heads. induction l as [|c l IH]; intro k; [left; eexists; reflexivity|].
  apply Forall_cons_iff in HC, HB. destruct HC as [HC HC'], HB as [HB HB']. cbn [length read_heads map concat]. rewrite <- app_assoc.
  destruct (Nat.lt_ge_cases k (length (bin_head c))) as [K|K].
  - destruct (@read_head_cut n c HC HB k (concat (map bin_head l) ++ r) K) as [-> | [i ->]]; [now right|]. cbn [bind snd fst].
    destruct l as [|d l]; [left; eexists; reflexivity|]. right. cbn [length]. now rewrite read_heads_nil.
  - rewrite firstn_app_ge by easy. rewrite (@read_head_ok n) by easy. cbn [bind snd fst].
    destruct (IH HC' HB' (k - length (bin_head c))) as [[x ->] | ->]; [left; eexists; reflexivity|now right].
Qed.

Lemma skipn_add A a b : forall l : list A, skipn (a + b) l = skipn b (skipn a l).
Proof. induction a as [|a IH]; intro l; [easy|]. destruct l; cbn; [now rewrite skipn_nil|apply IH]. Qed.
Lemma chunks_ok n c m : rows_ok n c m -> chunks c n (concat m) = m.
Proof.
  intro H. unfold chunks. apply (@nth_ext _ _ _ [] []); [rewrite map_length, seq_length; symmetry; apply H|]. rewrite map_length, seq_length. intros i Hi.
  rewrite nth_map_seq' by easy. rewrite <- (app_nil_r (concat m)). apply (@slice_rows n); easy.
Qed.
Lemma read_data_ok n l x : Forall (col_ok n) l -> read_data n (map info_of l) (bin_data l ++ x) = l.
Proof.
  intro H. unfold bin_data. induction l as [|c l IH]; [easy|]. apply Forall_cons_iff in H. destruct H as [HC H]. cbn [map concat read_data]. rewrite <- app_assoc.
  destruct HC as [[RO BC] [RN [EB _]]]. destruct c as [na ty bi [bb bc rows]]. cbn [info_of iName iType iBits cName cType cBits cDat bBits bCols bRows] in *. unfold bm_n in *. cbn [bRows] in *. subst bi bc.
  rewrite RN in RO. rewrite read_into_full by (rewrite repeat_length; symmetry; eapply rows_concat_length; eassumption).
  rewrite chunks_ok by easy. now rewrite IH.
Qed.
(* whatever is left of the file: missing bytes read as zero *)
Lemma chunks_rows n c l : bytes l -> length l = n * c -> rows_ok n c (chunks c n l) /\ concat (chunks c n l) = l.
Proof.
  intros HB HL. unfold chunks. split.
  - split; [now rewrite map_length, seq_length|]. apply Forall_forall. intros r Hr. apply in_map_iff in Hr. destruct Hr as [i [<- Hi]]. apply in_seq in Hi.
    split; [apply slice_length; nia|now apply slice_bytes].
  - revert l HB HL. induction n as [|n IH]; intros l HB HL; [destruct l; [easy|cbn in HL; lia]|]. cbn [seq map concat]. rewrite <- seq_shift, map_map.
    transitivity (firstn c l ++ skipn c l); [|apply firstn_skipn]. f_equal. rewrite <- (IH (skipn c l)) by (try apply skipn_bytes; try rewrite skipn_length; cbn in HL; try lia; try easy).
    f_equal. apply map_ext. intro i. unfold slice. cbn [Nat.mul]. now rewrite skipn_add.
Qed.
Lemma read_into_length d s : length (fst (read_into d s)) = length d.
Proof. unfold read_into. cbn [fst]. rewrite app_length, firstn_length, skipn_length. lia. Qed.
Lemma firstn_mono A k l (s : list A) : k <= l -> firstn k s = firstn k (firstn l s).
Proof. intro H. now rewrite firstn_firstn, Nat.min_l. Qed.

Definition width (i : cinfo) : nat := div_ceil (iBits i) 8.
Definition total (n : nat) (l : list cinfo) : nat := fold_right (fun i a => n * width i + a) 0 l.
Definition infos_ok (l : list cinfo) : Prop := Forall (fun i => iType i <= 3 /\ (iType i = 2 -> iBits i mod 8 = 0)) l.
(* s cut or filled with zeros to z bytes *)
Definition pad_to (z : nat) (s : list N) : list N := firstn z s ++ repeat 0%N (z - length s).
Lemma pad_to_length z s : length (pad_to z s) = z.
Proof. unfold pad_to. rewrite app_length, firstn_length, repeat_length. lia. Qed.
Lemma pad_to_bytes z s : bytes s -> bytes (pad_to z s).
Proof. intro H. apply bytes_app; [now apply firstn_bytes|apply zeros_bytes]. Qed.
Lemma pad_to_add z t s : pad_to (z + t) s = pad_to z s ++ pad_to t (skipn z s).
Proof.
  unfold pad_to. rewrite skipn_length. destruct (Nat.le_gt_cases (length s) z) as [H|H].
  - rewrite !firstn_all2, skipn_all2 by lia. rewrite firstn_nil. cbn [app]. rewrite <- app_assoc, <- repeat_app. f_equal. f_equal. lia.
  - replace (z - length s) with 0 by lia. cbn [repeat]. rewrite app_nil_r, app_assoc. f_equal; [|f_equal; lia].
    rewrite <- (firstn_skipn z s) at 1. rewrite firstn_app, firstn_length, Nat.min_l by lia. rewrite firstn_firstn, Nat.min_r by lia. f_equal. f_equal. lia.
Qed.
Lemma read_into_pad z s : read_into (repeat 0%N z) s = (pad_to z s, skipn z s).
Proof. unfold read_into, pad_to. now rewrite repeat_length, skipn_repeat. Qed.

Lemma read_data_any n l s : infos_ok l -> bytes s ->
  map info_of (read_data n l s) = l /\ Forall (col_ok n) (read_data n l s) /\ bin_data (read_data n l s) = pad_to (total n l) s.
Proof.
  intro H. unfold bin_data. revert s. induction l as [|i l IH]; intros s HS; [split; [easy|]; split; [constructor|easy]|]. apply Forall_cons_iff in H. destruct H as [[T ST] H].
  cbn [read_data]. rewrite read_into_pad. cbn [map concat total fold_right].
  assert (HL : bytes (skipn (n * width i) s)) by now apply skipn_bytes.
  destruct (IH H (skipn (n * div_ceil (iBits i) 8) s) HL) as [E1 [E2 E3]].
  destruct (@chunks_rows n (div_ceil (iBits i) 8) (pad_to (n * div_ceil (iBits i) 8) s) (@pad_to_bytes _ _ HS) (@pad_to_length _ _)) as [R1 R2].
  rewrite E1, E3. split; [unfold info_of; cbn; now destruct i|]. split.
  - constructor; [|easy]. unfold col_ok, bm_ok, bm_n. cbn [cDat cBits cType bBits bCols bRows]. pose proof R1 as [RN _]. rewrite RN. repeat (split; try easy).
  - cbn [cDat bRows]. rewrite R2. fold (total n l). unfold width. now rewrite <- pad_to_add.
Qed.

Lemma col_infos_ok n l : Forall (col_ok n) l -> infos_ok (map info_of l).
Proof.
  intro H. apply Forall_map. eapply Forall_impl; [|exact H]. intros c [_ [_ [EB [T ST]]]]. cbn. split; [easy|]. now rewrite EB.
Qed.
Lemma bin_data_total n l : Forall (col_ok n) l -> length (bin_data l) = total n (map info_of l) /\ bytes (bin_data l).
Proof.
  intro H. unfold bin_data. induction l as [|c l IH]; [split; [easy|constructor]|]. apply Forall_cons_iff in H. destruct H as [HC H]. destruct (IH H) as [E1 E2].
  destruct HC as [[RO BC] [RN [EB _]]]. rewrite RN in RO. cbn [map concat total fold_right]. fold (total n (map info_of l)). split.
  - rewrite app_length, E1, (rows_concat_length RO). f_equal. unfold width. cbn. now rewrite BC, EB.
  - apply bytes_app; [|easy]. eapply rows_concat_bytes; eassumption.
Qed.


Lemma read_bin_heads n act t x : bin_table_ok n t ->
  read_bin act (store 8 (N.of_nat (length (tCols t))) ++ store 8 (N.of_nat (t_rows t)) ++ bin_heads (tCols t) ++ x) =
  Ok (Tab act (read_data n (map info_of (tCols t)) x)).
Proof.
  intros [[TR [TC _]] [HB [HN HL]]]. unfold read_bin. rewrite read_u64_ok by easy. rewrite read_u64_ok by (now rewrite TR). rewrite Nat2N.id.
  rewrite (@read_heads_ok n) by easy. cbn [bind fst snd]. now rewrite Nat2N.id, TR.
Qed.
Lemma bin_roundtrip n act t x : bin_table_ok n t -> read_bin act (write_bin t ++ x) = Ok (Tab act (tCols t)).
Proof.
  intro H. unfold write_bin. rewrite <- !app_assoc, (@read_bin_heads n) by easy. rewrite read_data_ok by apply H. easy.
Qed.

Definition head_bytes (t : table) : nat := 16 + length (bin_heads (tCols t)).
Lemma bin_cut_data n act t k : bin_table_ok n t -> exists cs,
  read_bin act (firstn (head_bytes t + k) (write_bin t)) = Ok (Tab act cs) /\ Forall2 same_info (tCols t) cs /\ Forall (col_ok n) cs /\
  bin_data cs = firstn k (bin_data (tCols t)) ++ repeat 0%N (length (bin_data (tCols t)) - k).
Proof.
  intro H. exists (read_data n (map info_of (tCols t)) (firstn k (bin_data (tCols t)))). pose proof H as [[TR [TC _]] [HB _]].
  destruct (bin_data_total TC) as [BT BB].
  destruct (@read_data_any n (map info_of (tCols t)) (firstn k (bin_data (tCols t))) (col_infos_ok TC) (@firstn_bytes k _ BB)) as [E1 [E2 E3]]. split; [|split; [|split; [easy|]]].
  - rewrite <- (@read_bin_heads n act t) by easy. f_equal. unfold write_bin, head_bytes. rewrite !app_assoc, firstn_app. rewrite firstn_all2 by (rewrite !app_length, !store_length; lia).
    f_equal. f_equal. rewrite !app_length, !store_length. lia.
  - clear -E1. remember (read_data n (map info_of (tCols t)) (firstn k (bin_data (tCols t)))) as cs. clear Heqcs. revert E1. generalize (tCols t). induction cs as [|c cs IH]; intros [|d l] E; try discriminate; constructor.
    + injection E as E1 E2 E3 _. unfold same_info. now rewrite E1, E2, E3.
    + apply IH. now injection E.
  - rewrite E3, <- BT. unfold pad_to. rewrite firstn_firstn, firstn_length. destruct (Nat.le_gt_cases k (length (bin_data (tCols t)))).
    + rewrite Nat.min_r, Nat.min_l by easy. easy.
    + rewrite Nat.min_l, Nat.min_r by lia. rewrite (@firstn_all2 _ k) by lia. rewrite firstn_all. f_equal. f_equal. lia.
Qed.

Lemma bin_cut n act t k : bin_table_ok n t -> (exists t', read_bin act (firstn k (write_bin t)) = Ok t') \/ read_bin act (firstn k (write_bin t)) = UB.
Proof.
  intros [[TR [TC _]] [HB [HN HL]]]. unfold write_bin.
  assert (NIL : forall c r, (exists t', (do h <- read_heads c []; Ok (Tab act (read_data r (fst h) (snd h)))) = Ok t') \/
    (do h <- read_heads c []; Ok (Tab act (read_data r (fst h) (snd h)))) = UB).
  { intros [|c] r; [left; eexists; reflexivity|right]. now rewrite read_heads_nil. }
  destruct (Nat.lt_ge_cases k 8) as [K|K].
  { unfold read_bin. rewrite read_u64_cut by easy. rewrite read_u64_nil. apply NIL. }
  rewrite firstn_app_ge by (rewrite store_length; easy). rewrite store_length. unfold read_bin. rewrite read_u64_ok by easy. rewrite Nat2N.id.
  destruct (Nat.lt_ge_cases (k - 8) 8) as [K2|K2].
  { rewrite read_u64_cut by easy. apply NIL. }
  rewrite firstn_app_ge by (rewrite store_length; easy). rewrite store_length. rewrite read_u64_ok by (now rewrite TR). rewrite Nat2N.id.
  destruct (@read_heads_cut n _ (bin_data (tCols t)) TC HB (k - 8 - 8)) as [[x ->] | ->]; [left; eexists; reflexivity|now right].
Qed.

(* a bad column header after good ones *)
Lemma read_heads_bad n l bad k : Forall (col_ok n) l -> Forall bin_ok l -> read_head bad = Throw -> length l < k ->
  read_heads k (bin_heads l ++ bad) = Throw.
Proof.
  intros HC HB E. unfold bin_heads. revert k. induction l as [|c l IH]; intros k K; (destruct k as [|k]; [cbn in K; lia|]).
  - cbn [map concat app read_heads]. now rewrite E.
  - apply Forall_cons_iff in HC, HB. destruct HC as [HC HC'], HB as [HB HB']. cbn [read_heads map concat]. rewrite <- app_assoc, (@read_head_ok n) by easy.
    cbn [bind snd fst]. rewrite IH by (try easy; cbn in K; lia). easy.
Qed.
Lemma read_bin_bad n act l bad r : Forall (col_ok n) l -> Forall bin_ok l -> read_head bad = Throw -> forall k, (N.of_nat k < 2 ^ 64)%N -> (r < 2 ^ 64)%N -> length l < k ->
  read_bin act (store 8 (N.of_nat k) ++ store 8 r ++ bin_heads l ++ bad) = Throw.
Proof.
  intros HC HB E k K R L. unfold read_bin. rewrite !read_u64_ok by easy. rewrite Nat2N.id. rewrite (@read_heads_bad n) by easy. easy.
Qed.
Lemma bad_name_size s x : (512 < x < 2 ^ 64)%N -> read_head (store 8 x ++ s) = Throw.
Proof. intro H. unfold read_head. rewrite read_u64_ok by easy. apply proj1, N.ltb_lt in H. now rewrite H. Qed.
Lemma bad_type name ty s : length name <= 512 -> (3 < ty)%N -> read_head (store 8 (N.of_nat (length name)) ++ name ++ ty :: s) = Throw.
Proof.
  intros HN T. unfold read_head. assert (P : (2 ^ 64)%N = 18446744073709551616%N) by reflexivity. rewrite read_u64_ok by lia.
  replace (512 <? N.of_nat (length name))%N with false by (symmetry; apply N.ltb_ge; lia). cbn [throw_if bind].
  rewrite Nat2N.id, read_into_full by (rewrite repeat_length; easy). apply N.ltb_lt in T. now rewrite T.
Qed.
Lemma bad_bits name ty bits s : length name <= 512 -> (ty <= 3)%N -> (bits < 2 ^ 64)%N -> (16384 < bits)%N \/ (ty = 2 /\ bits mod 8 <> 0)%N ->
  read_head (store 8 (N.of_nat (length name)) ++ name ++ ty :: store 8 bits ++ s) = Throw.
Proof.
  intros HN T B C. unfold read_head. assert (P : (2 ^ 64)%N = 18446744073709551616%N) by reflexivity. rewrite read_u64_ok by lia.
  replace (512 <? N.of_nat (length name))%N with false by (symmetry; apply N.ltb_ge; lia). cbn [throw_if bind].
  rewrite Nat2N.id, read_into_full by (rewrite repeat_length; easy). apply N.ltb_ge in T. rewrite T. cbn [throw_if bind]. rewrite read_u64_ok by easy.
  change (2 ^ 14)%N with 16384%N. destruct (N.ltb_spec 16384 bits) as [L|L]; [easy|]. cbn [throw_if bind]. destruct C as [C|[-> C]]; [lia|].
  unfold mk_info. replace ((N.to_nat 2 =? 2) && (0 <? N.to_nat bits mod 8)) with true; [easy|]. symmetry. apply andb_true_iff. split; [easy|]. apply Nat.ltb_lt.
  rewrite <- (N2Nat.id bits) in C. change 8%N with (N.of_nat 8) in C. rewrite <- Nat2N.inj_mod in C. lia.
Qed.
