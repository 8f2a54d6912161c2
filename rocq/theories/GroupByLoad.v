(* The keys with the flag, and the rows of the working matrix. *)
From Verif Require Import Base Words PermModel KeyMultModel ShuffleModel ShuffleSpec ShuffleSpanProofs RadixSpec RadixSortProofs RadixFlagProofs StableSortProofs BinFileProofs Mod3Proofs
  TableModel TableSpec TrimProofs TableProofs TableOpsSpec JoinProofs BitInjProofs OmJoinModel OmJoinSpec BlockProofs PackProofs OmJoinProofs OmJoinTop GroupByModel GroupBySpec GroupByArith.

Definition keyrow (kb : nat) (r : list N) (f : N) : list N :=
  let l := r ++ repeat 0%N (div_ceil (kb + 1) 8 - div_ceil kb 8) in
  upd l (kb / 8) ((if N.odd f then N.setbit else N.clearbit) (nth (kb / 8) l 0%N) (N.of_nat (kb mod 8))).

Lemma key_bytes kb : div_ceil kb 8 <= div_ceil (kb + 1) 8 /\ kb / 8 < div_ceil (kb + 1) 8 /\ kb < 8 * div_ceil (kb + 1) 8.
Proof. unfold div_ceil. lia. Qed.
Lemma keyrow_length kb r f : length r = div_ceil kb 8 -> length (keyrow kb r f) = div_ceil (kb + 1) 8.
Proof. intros L. unfold keyrow. rewrite upd_length, app_length, repeat_length, L. pose proof (key_bytes kb). lia. Qed.
Lemma gb_key_row kb r f : length r = div_ceil kb 8 -> gb_key kb (div_ceil kb 8) r f = Ok (keyrow kb r f).
Proof.
  intros L. pose proof (key_bytes kb) as (H1 & H2 & _). unfold gb_key, set_bit. replace (div_ceil (kb + 1) 8 <? div_ceil kb 8) with false by lia.
  set (l := r ++ _). assert (Ll : length l = div_ceil (kb + 1) 8) by (unfold l; rewrite app_length, repeat_length, L; lia).
  rewrite (@get_ok _ l _ 0%N) by lia. cbn [bind]. unfold set. replace (kb / 8 <? length l) with true by lia. unfold keyrow. fold l. destruct (N.odd f); reflexivity.
Qed.
Lemma byte_bits x : (x < 256)%N <-> (forall i, (8 <= i)%N -> N.testbit x i = false).
Proof. split; [intros H i Hi; apply (@pow2_bits_high x 8%N i); [exact H|exact Hi]|intros H; apply (@bits_high_pow2 x 8%N H)]. Qed.
Lemma setbit_byte x j (b : bool) : (x < 256)%N -> (j < 8)%N -> ((if b then N.setbit else N.clearbit) x j < 256)%N.
Proof.
  intros Hx Hj. apply byte_bits. intros i Hi. rewrite byte_bits in Hx. destruct b.
  - rewrite N.setbit_eqb, Hx by exact Hi. replace (j =? i)%N with false by lia. reflexivity.
  - rewrite N.clearbit_eqb, Hx by exact Hi. reflexivity.
Qed.
Lemma keyrow_bytes kb r f : length r = div_ceil kb 8 -> bytes r -> bytes (keyrow kb r f).
Proof.
  intros L B. unfold keyrow. set (l := r ++ _). assert (Bl : bytes l) by (apply bytes_app; [exact B|apply bytes_zeros]).
  assert (Ll : length l = div_ceil (kb + 1) 8) by (unfold l; rewrite app_length, repeat_length, L; pose proof (key_bytes kb); lia). pose proof (key_bytes kb).
  assert (Hx : (nth (kb / 8) l 0 < 256)%N) by (unfold bytes in Bl; rewrite Forall_forall in Bl; apply Bl, nth_In; lia).
  apply Forall_forall. intros x Hxx. apply (In_nth _ _ 0%N) in Hxx. destruct Hxx as (k & Hk & <-). rewrite upd_length in Hk.
  rewrite F2CodeProofs.nth_upd. destruct (_ && _); [apply setbit_byte; [exact Hx|lia]|]. unfold bytes in Bl. rewrite Forall_forall in Bl. apply Bl, nth_In, Hk.
Qed.
Lemma keyrow_bit kb r f k : length r = div_ceil kb 8 -> sbit (keyrow kb r f) k = if k =? kb then N.odd f else sbit r k.
Proof.
  intros L. unfold keyrow. set (l := r ++ _). assert (Ll : length l = div_ceil (kb + 1) 8) by (unfold l; rewrite app_length, repeat_length, L; pose proof (key_bytes kb); lia). pose proof (key_bytes kb).
  assert (El : sbit l k = sbit r k).
  { unfold l. rewrite sbit_app. destruct (Nat.ltb_spec k (8 * length r)) as [H1|H1]; [reflexivity|]. rewrite sbit_zeros, sbit_above by exact H1. reflexivity. }
  unfold sbit at 1. rewrite F2CodeProofs.nth_upd. replace (kb / 8 <? length l) with true by lia. rewrite Bool.andb_true_r.
  destruct (Nat.eqb_spec (kb / 8) (k / 8)) as [E|E].
  - assert (Et : N.testbit ((if N.odd f then N.setbit else N.clearbit) (nth (kb / 8) l 0%N) (N.of_nat (kb mod 8))) (N.of_nat (k mod 8)) = if k =? kb then N.odd f else sbit l k).
    { assert (Ek : sbit l k = N.testbit (nth (kb / 8) l 0%N) (N.of_nat (k mod 8))) by (unfold sbit; rewrite E; reflexivity). rewrite Ek.
      destruct (Nat.eqb_spec k kb) as [->|Hn].
      - destruct (N.odd f); [apply N.setbit_eq|apply N.clearbit_eq].
      - assert (N.of_nat (kb mod 8) <> N.of_nat (k mod 8)) by lia. destruct (N.odd f); [apply N.setbit_neq|apply N.clearbit_neq]; assumption. }
    etransitivity; [exact Et|]. rewrite El. reflexivity.
  - rewrite <- El. replace (k =? kb) with false; [reflexivity|]. destruct (Nat.eqb_spec k kb) as [->|Hn]; [contradiction|reflexivity].
Qed.
(* the shares of the flagged key *)
Lemma keyrow_xor kb r0 r1 f0 f1 : length r0 = div_ceil kb 8 -> length r1 = div_ceil kb 8 -> bytes r0 -> bytes r1 -> (le_num (map2 N.lxor r0 r1) < 2 ^ N.of_nat kb)%N ->
  map2 N.lxor (keyrow kb r0 f0) (keyrow kb r1 f1) = le_bytes (div_ceil (kb + 1) 8) (flagged kb (N.odd (N.lxor f0 f1)) (le_num (map2 N.lxor r0 r1))).
Proof.
  intros L0 L1 B0 B1 Hx. pose proof (keyrow_length f0 L0) as K0. pose proof (keyrow_length f1 L1) as K1.
  assert (Bx : bytes (map2 N.lxor r0 r1)) by (apply RadixSortProofs.bytes_xors; assumption).
  apply bytes_ext; [apply RadixSortProofs.bytes_xors; apply keyrow_bytes; assumption|apply le_bytes_bytes|rewrite map2_length, K0, K1, le_bytes_length; lia|].
  intros k Hk. rewrite map2_length, K0, K1, Nat.min_id in Hk. rewrite sbit_le_bytes by exact Hk. rewrite map2_lxor_bit by congruence. rewrite !keyrow_bit by assumption.
  rewrite flagged_bit by exact Hx. rewrite le_num_bit by exact Bx. rewrite map2_lxor_bit by congruence. destruct (k =? kb); [|reflexivity].
  rewrite <- !N.bit0_odd, N.lxor_spec. reflexivity.
Qed.

(* ---- loadKeys ---- *)
Definition gb_sk (n kb : nat) (enc : list N -> list N) (x : list N) : list N := if kb + 1 <=? gb_comp n then x else enc x.
Definition party_key (n kb : nat) (enc : list N -> list N) (q : gb_query) (i : nat) : list N := gb_sk n kb enc (keyrow kb (nth i (bRows (cDat (gKey q))) []) (nth i (gAct q) 0%N)).
Lemma combine_seq A B (a : list A) (b : list B) n da db : length a = n -> length b = n -> combine a b = map (fun i => (nth i a da, nth i b db)) (seq 0 n).
Proof.
  intros La Lb. apply nth_ext with (da, db) (da, db); [rewrite combine_length, map_length, seq_length; lia|]. intros i Hi. rewrite combine_length, La, Lb, Nat.min_id in Hi.
  rewrite combine_nth by lia. rewrite nth_map_seq' by exact Hi. reflexivity.
Qed.
Lemma gb_load_ok enc n kb q : gb_query_ok n kb q ->
  gb_load enc q = Ok (BM (Nat.min (kb + 1) (gb_comp n)) (div_ceil (Nat.min (kb + 1) (gb_comp n)) 8) (map (party_key n kb enc q) (seq 0 n))).
Proof.
  intros (HC & Ekb & _ & LA & BA). destruct (col_rows HC) as [HR EC]. destruct HC as (_ & En & Eb & _). unfold gb_load. rewrite En, LA, Nat.eqb_refl, <- Eb, EC, Ekb. cbn [negb].
  rewrite (combine_seq [] 0%N (proj1 HR) LA), mapM_map. rewrite (@mapM_ok _ _ _ (fun i => keyrow kb (nth i (bRows (cDat (gKey q))) []) (nth i (gAct q) 0%N))).
  - cbn [bind]. unfold party_key, gb_sk. destruct (Nat.leb_spec (kb + 1) (gb_comp n)) as [H|H].
    + rewrite Nat.min_l by exact H. reflexivity.
    + rewrite Nat.min_r by lia. rewrite map_map. reflexivity.
  - intros i Hi. apply in_seq in Hi. cbn [fst snd]. apply gb_key_row. rewrite <- Ekb. apply (rows_nth HR). lia.
Qed.

(* the keys the parties share after loading *)
Definition gb_seen_row (n kb : nat) (enc : list N -> list N) (G : list (list N)) (A : nat -> bool) (i : nat) : list N :=
  gb_sk n kb enc (le_bytes (div_ceil (kb + 1) 8) (gb_num kb G A i)).
Definition gb_enc_ok (n kb : nat) (enc : list N -> list N) : Prop :=
  gb_comp n < kb + 1 -> linear_enc (div_ceil (kb + 1) 8) (div_ceil (gb_comp n) 8) enc.
Lemma gb_seen_row_ok n kb enc G A i : gb_enc_ok n kb enc ->
  length (gb_seen_row n kb enc G A i) = div_ceil (Nat.min (kb + 1) (gb_comp n)) 8 /\ bytes (gb_seen_row n kb enc G A i).
Proof.
  intros HE. unfold gb_seen_row, gb_sk. destruct (Nat.leb_spec (kb + 1) (gb_comp n)) as [H|H].
  - rewrite Nat.min_l by exact H. split; [apply le_bytes_length|apply le_bytes_bytes].
  - rewrite Nat.min_r by lia. apply (HE H); [apply le_bytes_length|apply le_bytes_bytes].
Qed.
Lemma gb_load_shared enc n kb q0 q1 : gb_queries_ok n kb q0 q1 -> gb_enc_ok n kb enc -> (forall i, i < n -> (le_num (nth i (gb_keys q0 q1) []) < 2 ^ N.of_nat kb)%N) ->
  pair_of n (div_ceil (Nat.min (kb + 1) (gb_comp n)) 8) (map (party_key n kb enc q0) (seq 0 n), map (party_key n kb enc q1) (seq 0 n))
    (gb_seen_row n kb enc (gb_keys q0 q1) (gb_act q0 q1)).
Proof.
  intros ((C0 & E0 & _ & LA0 & BA0) & (C1 & E1 & _ & LA1 & BA1) & _) HE HG. destruct (col_rows C0) as [R0 _], (col_rows C1) as [R1 _]. rewrite E0 in R0. rewrite E1 in R1.
  assert (HP : forall q, rows_ok n (div_ceil kb 8) (bRows (cDat (gKey q))) -> rows_ok n (div_ceil (Nat.min (kb + 1) (gb_comp n)) 8) (map (party_key n kb enc q) (seq 0 n))).
  { intros q HR. apply rows_map. intros i Hi. destruct (rows_nth HR Hi) as [L B]. unfold party_key, gb_sk.
    pose proof (keyrow_length (nth i (gAct q) 0%N) L) as KL. pose proof (@keyrow_bytes kb _ (nth i (gAct q) 0%N) L B) as KB. destruct (Nat.leb_spec (kb + 1) (gb_comp n)) as [H|H].
    - rewrite Nat.min_l by exact H. split; assumption.
    - rewrite Nat.min_r by lia. apply (HE H); assumption. }
  split; [apply HP, R0|]. split; [apply HP, R1|]. cbn [fst snd]. pose proof (HP _ R0) as P0. pose proof (HP _ R1) as P1.
  apply nth_ext with [] []; [unfold xor_rows; rewrite map2_length, !map_length, !seq_length; lia|]. intros i Hi. unfold xor_rows in Hi. rewrite map2_length, !map_length, seq_length, Nat.min_id in Hi.
  rewrite (@nth_xor_rows n) by (rewrite ?map_length, ?seq_length; auto). rewrite !nth_map_seq' by exact Hi. cbn [Nat.add].
  destruct (rows_nth R0 Hi) as [L0 B0], (rows_nth R1 Hi) as [L1 B1]. pose proof (HG i Hi) as Hg.
  assert (Eg : nth i (gb_keys q0 q1) [] = map2 N.lxor (nth i (bRows (cDat (gKey q0))) []) (nth i (bRows (cDat (gKey q1))) [])).
  { unfold gb_keys, shared_rows. apply (@nth_xor_rows n); [apply R0|apply R1|exact Hi]. }
  assert (Ex : map2 N.lxor (keyrow kb (nth i (bRows (cDat (gKey q0))) []) (nth i (gAct q0) 0%N)) (keyrow kb (nth i (bRows (cDat (gKey q1))) []) (nth i (gAct q1) 0%N))
    = le_bytes (div_ceil (kb + 1) 8) (gb_num kb (gb_keys q0 q1) (gb_act q0 q1) i)).
  { rewrite keyrow_xor; try assumption; [|rewrite <- Eg; exact Hg]. rewrite <- Eg. reflexivity. }
  unfold party_key, gb_seen_row, gb_sk. rewrite <- Ex. destruct (Nat.leb_spec (kb + 1) (gb_comp n)) as [H|H]; [reflexivity|].
  symmetry. apply (HE H); try (apply keyrow_length; assumption); apply keyrow_bytes; assumption.
Qed.
Lemma gb_num_lt kb G A i : (le_num (nth i G []) < 2 ^ N.of_nat kb)%N -> (gb_num kb G A i < 256 ^ N.of_nat (div_ceil (kb + 1) 8))%N.
Proof.
  intros H. rewrite pow256. apply N.lt_le_trans with (2 ^ N.of_nat (kb + 1))%N.
  - unfold gb_num. rewrite Nat2N.inj_add, N.pow_add_r. change (2 ^ N.of_nat 1)%N with 2%N. destruct (A i); lia.
  - apply N.pow_le_mono_r; [lia|]. pose proof (key_bytes kb). lia.
Qed.
Lemma gb_seen_num n kb enc G A i : (le_num (nth i G []) < 2 ^ N.of_nat kb)%N -> le_num (gb_seen_row n kb enc G A i) = gb_seen n kb G A enc i.
Proof.
  intros H. unfold gb_seen_row, gb_sk, gb_seen. destruct (kb + 1 <=? gb_comp n); [|reflexivity]. rewrite le_num_le_bytes. apply N.mod_small, gb_num_lt, H.
Qed.
Lemma gb_num_inj kb G A i j : (le_num (nth i G []) < 2 ^ N.of_nat kb)%N -> (le_num (nth j G []) < 2 ^ N.of_nat kb)%N ->
  gb_num kb G A i = gb_num kb G A j -> le_num (nth i G []) = le_num (nth j G []) /\ A i = A j.
Proof. unfold gb_num. intros Hi Hj. destruct (A i), (A j); intros E; split; try reflexivity; lia. Qed.

(* ---- concatColumns ---- *)
Definition gb_party_row (role : bool) (q : gb_query) (K : nat -> list N) (i : nat) : list N :=
  lpart (gb_sel q) i ++ (N.b2n role :: repeat 0%N 7) ++ nth i (bRows (cDat (gKey q))) [] ++ K i ++ [nth i (gAct q) 0%N].
Lemma gb_sel_ok n q : Forall (fun s => fst s = true /\ col_ok n (snd s)) (gAvg q) -> Forall (sel_ok n n) (gb_sel q).
Proof. intros H. unfold gb_sel. rewrite Forall_forall in *. intros s Hs. apply in_map_iff in Hs. destruct Hs as (x & <- & Hx). apply (H x Hx). Qed.
Lemma gb_check_ok n l : Forall (fun s => fst s = true /\ col_ok n (snd s)) l -> mapM (gb_check n) l = Ok (map (fun _ => tt) l).
Proof.
  intros H. apply mapM_ok. intros s Hs. rewrite Forall_forall in H. destruct (H s Hs) as [E (_ & En & Eb & _)]. unfold gb_check. rewrite E, En, Eb, !Nat.eqb_refl. reflexivity.
Qed.
Lemma gb_concat_ok role n kb q offs K ks : 0 < n -> gb_query_ok n kb q -> ks = gb_key_size q -> offs = gb_offsets q ->
  (forall i, i < n -> length (K i) = div_ceil ks 8 /\ bytes (K i)) ->
  gb_concat role q (BM ks (div_ceil ks 8) (map K (seq 0 n))) offs = Ok (map (gb_party_row role q K) (seq 0 n)).
Proof.
  intros Hn (HC & Ekb & HA & LA & BA) -> -> HK. destruct (col_rows HC) as [HR EC]. rewrite Ekb in HR, EC. unfold gb_concat. assert (En : gb_rows q = n) by apply HC. rewrite En.
  rewrite gb_check_ok by exact HA. cbn [bind bCols]. rewrite EC. set (ks := gb_key_size q) in *. pose proof (gb_sel_ok HA) as HS. set (sel := gb_sel q) in *.
  set (w := left_bits sel / 8). set (g := div_ceil kb 8) in *. set (c := div_ceil ks 8) in *. unfold gb_width. fold sel w.
  assert (Ew : left_bits sel = w * 8) by (unfold w; pose proof (left_bits_mod sel); lia).
  replace (repeat (repeat 0%N (w + 8 + g + c + 1)) n) with (map (fun i : nat => (fun _ => []) i ++ repeat 0%N (w + 8 + g + c + 1)) (seq 0 n)) by (rewrite (repeat_map_seq _ n 0); reflexivity).
  unfold gb_offsets. fold sel ks. rewrite Ekb. fold g c.
  rewrite (@concat_left n n n) by (try exact HS; try reflexivity; fold w; lia). fold w. cbn [app concat_cols fst snd].
  assert (Lp : forall i, i < n -> length (lpart sel i) = w) by (intros i _; apply (lpart_len i HS)).
  assert (Hk : forall i, i < n -> length (nth i (bRows (cDat (gKey q))) []) = g) by (intros i Hi; apply (rows_nth HR Hi)).
  set (one := N.b2n role :: repeat 0%N 7). assert (Lone : length one = 8) by reflexivity.
  assert (HO : rows_ok n 8 (repeat one n)).
  { split; [apply repeat_length|]. apply Forall_forall. intros x Hx. apply repeat_spec in Hx. subst x. split; [exact Lone|]. unfold one. constructor; [destruct role; reflexivity|apply bytes_zeros]. }
  rewrite (@write_col_ok n n 8) by (try exact HO; try reflexivity; try (unfold bm_n; apply repeat_length); try exact Lp; try exact Hn; rewrite ?Ew; lia || (intros i Hi; rewrite Nat.div_mul by lia; apply Lp, Hi)).
  cbn [bind bRows].
  set (A1 := fun i : nat => lpart sel i ++ one).
  assert (E1 : map (fun i : nat => lpart sel i ++ nth i (repeat one n) (repeat 0%N 8) ++ repeat 0%N (w + 8 + g + c + 1 - w - 8)) (seq 0 n) = map (fun i => A1 i ++ repeat 0%N (g + c + 1)) (seq 0 n)).
  { apply map_ext_in. intros i Hi. apply in_seq in Hi. unfold A1. rewrite <- app_assoc. f_equal. f_equal; [|f_equal; lia].
    rewrite (nth_indep _ _ one) by (rewrite repeat_length; lia). apply nth_repeat. }
  rewrite E1. assert (L1 : forall i, i < n -> length (A1 i) = (left_bits sel + 64) / 8).
  { intros i Hi. unfold A1. rewrite app_length, Lp, Lone, Ew by exact Hi. replace (w * 8 + 64) with ((w + 8) * 8) by lia. rewrite Nat.div_mul by lia. reflexivity. }
  rewrite (@write_col_ok n n g) by (try exact HR; try exact EC; try exact L1; try exact Hn; try reflexivity; try apply HC; rewrite ?Ew; lia). cbn [bind].
  set (A2 := fun i : nat => A1 i ++ nth i (bRows (cDat (gKey q))) []).
  assert (E2 : map (fun i : nat => A1 i ++ nth i (bRows (cDat (gKey q))) (repeat 0%N g) ++ repeat 0%N (g + c + 1 - g)) (seq 0 n) = map (fun i => A2 i ++ repeat 0%N (c + 1)) (seq 0 n)).
  { apply map_ext_in. intros i Hi. apply in_seq in Hi. unfold A2. rewrite <- app_assoc. f_equal. f_equal; [|f_equal; lia]. apply nth_indep. rewrite (proj1 HR). lia. }
  rewrite E2. assert (L2 : forall i, i < n -> length (A2 i) = (left_bits sel + 64 + g * 8) / 8).
  { intros i Hi. unfold A2. rewrite app_length, L1, Hk, Ew by exact Hi. replace (w * 8 + 64) with ((w + 8) * 8) by lia. replace ((w + 8) * 8 + g * 8) with ((w + 8 + g) * 8) by lia. rewrite !Nat.div_mul by lia. reflexivity. }
  assert (HKR : rows_ok n c (map K (seq 0 n))) by (apply rows_map; exact HK).
  rewrite (@write_col_ok n n c) by (try exact HKR; try exact L2; try exact Hn; try reflexivity; try (unfold bm_n; cbn [bRows]; rewrite map_length, seq_length; reflexivity); rewrite ?Ew; lia). cbn [bind bRows].
  apply mapM_ok. intros i Hi. apply in_seq in Hi. assert (Hin : i < n) by lia.
  rewrite (@get_ok _ _ _ []) by (rewrite map_length, seq_length; lia). rewrite nth_map_seq' by lia. cbn [bind Nat.add]. rewrite (@get_ok _ _ _ 0%N) by lia. cbn [bind].
  rewrite (nth_indep (map K (seq 0 n)) _ []) by (rewrite map_length, seq_length; lia). rewrite nth_map_seq' by lia. cbn [Nat.add]. replace (c + 1 - c) with 1 by lia. cbn [repeat].
  unfold set. rewrite app_assoc. assert (LL : length (A2 i ++ K i) = w + 8 + g + c).
  { rewrite app_length, (proj1 (HK i Hin)), L2, Ew by exact Hin. replace (w * 8 + 64 + g * 8) with ((w + 8 + g) * 8) by lia. rewrite Nat.div_mul by lia. reflexivity. }
  rewrite (proj2 (Nat.ltb_lt _ _)) by (rewrite app_length, LL; cbn [length]; lia). rewrite <- LL, upd_app_here. unfold gb_party_row, A2, A1. fold sel one. rewrite <- !app_assoc. reflexivity.
Qed.
