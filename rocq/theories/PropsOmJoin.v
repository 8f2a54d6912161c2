(* C31, C32: the control bits and the one to many join *)
From Verif Require Import Base Words PermModel KeyMultModel ShuffleModel ShuffleSpec ShuffleSpanProofs GmwModel GmwSpec GmwProofs PropsGmw BitInjProofs TableModel TableSpec TableOpsSpec JoinProofs
  OmJoinModel OmJoinSpec CtrlProofs PackProofs OmJoinProofs OmJoinTop.

(* ================= C31 ================= *)
(* For every width the circuit exists, and its output is 1 iff the rows agree on their low bits, as
   many as the largest power of two that is at most the width. *)
Theorem C31_exact bits : 0 < bits -> exists c, control_circuit bits = Ok c /\ cOuts c = [[2 * bits]] /\ cIns c = [seq 0 bits; seq bits bits] /\
  forall a b, eval (cGates c) (row_env bits a b) (2 * bits) = true <-> agree (2 ^ Nat.log2 bits) a b.
Proof.
  intros Hb. destruct (control_circuit_ok Hb) as (gs & m & E & _ & H). exists (Circuit m [seq 0 bits; seq bits bits] [[2 * bits]] gs). split; [exact E|]. split; [reflexivity|]. split; [reflexivity|].
  intros a b. cbn [cGates]. rewrite H. apply eqs_agree, pow_log_le, Hb.
Qed.
(* all the bits when the width is a power of two: the statement of C31 for these widths *)
(* Missing: other widths, for which it is false (C31_other_widths_refuted). *)
Theorem C31_power_of_two_partial k : exists c, control_circuit (2 ^ k) = Ok c /\
  forall a b, eval (cGates c) (row_env (2 ^ k) a b) (2 * 2 ^ k) = true <-> agree (2 ^ k) a b.
Proof.
  assert (H : 0 < 2 ^ k) by (apply Nat.neq_0_lt_0, Nat.pow_nonzero; lia). destruct (C31_exact H) as (c & E & _ & _ & HC). exists c. split; [exact E|].
  intros a b. rewrite HC, pow2_log. reflexivity.
Qed.
(* for every other width there are different keys the circuit takes to be equal *)
Theorem C31_other_widths_refuted bits : 0 < bits -> (forall k, bits <> 2 ^ k) -> exists c a b j, control_circuit bits = Ok c /\
  length a = div_ceil bits 8 /\ length b = div_ceil bits 8 /\ bytes a /\ bytes b /\ j < bits /\ sbit a j <> sbit b j /\
  eval (cGates c) (row_env bits a b) (2 * bits) = true.
Proof.
  intros Hb Hp. destruct (C31_exact Hb) as (c & E & _ & _ & HC). set (j := 2 ^ Nat.log2 bits).
  assert (Hj : j < bits) by (pose proof (pow_log_le Hb); pose proof (Hp (Nat.log2 bits)); unfold j; lia).
  set (z := repeat 0%N (div_ceil bits 8)). exists c, z, (upd z (j / 8) (2 ^ N.of_nat (j mod 8))%N), j.
  assert (Lz : length z = div_ceil bits 8) by apply repeat_length.
  assert (Hjz : j / 8 < length z) by (rewrite Lz; unfold div_ceil; lia).
  assert (Z : forall i, nth i z 0%N = 0%N) by (intros i; unfold z; apply nth_repeat).
  split; [exact E|]. split; [exact Lz|]. split; [rewrite upd_length; exact Lz|]. split; [apply bytes_zeros|]. split.
  - apply Forall_forall. intros x Hx. apply In_nth with (d := 0%N) in Hx. destruct Hx as (i & Hi & <-). rewrite F2CodeProofs.nth_upd. destruct (_ && _); [|rewrite Z; reflexivity].
    change 256%N with (2 ^ 8)%N. apply N.pow_lt_mono_r; [reflexivity|]. pose proof (Nat.mod_upper_bound j 8). lia.
  - split; [exact Hj|]. split.
    + unfold sbit. rewrite Z, F2CodeProofs.nth_upd, Nat.eqb_refl, (proj2 (Nat.ltb_lt _ _)) by exact Hjz. cbn [andb]. rewrite N.pow2_bits_true. discriminate.
    + apply HC. intros i Hi. fold j in Hi. unfold sbit. rewrite Z, F2CodeProofs.nth_upd. destruct ((j / 8 =? i / 8) && (j / 8 <? length z)) eqn:C; [|rewrite Z; reflexivity].
      apply andb_true_iff in C. destruct C as [C _]. apply Nat.eqb_eq in C. rewrite N.bits_0, N.pow2_bits_false; [reflexivity|]. intros X.
      pose proof (Nat.div_mod j 8). pose proof (Nat.div_mod i 8). lia.
Qed.
(* the protocol: getControlBits on shared rows S.  The first bit is 0; the others are 1 iff the keys
   of the row and the one before agree on the bits compared. *)
Theorem C31_control_bits n c bits off mask d S : 0 < bits -> 0 < n -> off + div_ceil bits 8 <= c -> length mask = n ->
  rows_ok n c (fst d) -> rows_ok n c (snd d) -> xor_rows (fst d) (snd d) = map S (seq 0 n) ->
  exists o0 o1, om_control bits off mask d = Ok (o0, o1) /\ length o0 = n /\ length o1 = n /\
    forall t, t < n -> xbit (nth t o0 0%N) (nth t o1 0%N) = true <->
      0 < t /\ agree (2 ^ Nat.log2 bits) (slice (S (t - 1)) off (div_ceil bits 8)) (slice (S t) off (div_ceil bits 8)).
Proof. intros Hb Hn Ho Lm H0 H1 E. apply (@om_control_ok n c); try assumption. exact (conj H0 (conj H1 E)). Qed.
(* with GMW: the wires of the run, for any levels that list the gates of the circuit *)
Theorem C31_gmw bits ci w lvs mem0 mem1 s0 s1 : 0 < bits -> control_circuit bits = Ok ci -> 0 < w -> concat (map fst lvs) = cGates ci ->
  Forall (level_ok (cWires ci)) lvs -> mem_ok (cWires ci) w mem0 -> mem_ok (cWires ci) w mem1 ->
  ole_segs s0 s1 -> even_segs s0 -> demand w lvs <= length (concat s0) ->
  exists m0 m1 c0 c1 r0 r1 tr, gmw_run w lvs mem0 mem1 s0 s1 = Ok ((m0, c0, r0), (m1, c1, r1), tr) /\
    forall c k, c < w -> (k < 128)%N ->
      (shared m0 m1 c k (2 * bits) = true <-> forall j, j < 2 ^ Nat.log2 bits -> shared mem0 mem1 c k j = shared mem0 mem1 c k (bits + j)).
Proof.
  intros Hb Ec Hw EL HL M0 M1 HS HE HD. destruct (control_circuit_ok Hb) as (gs & m & E & _ & H). rewrite Ec in E. injection E as ->. cbn [cGates cWires] in *.
  assert (Hne : concat (map fst lvs) <> []).
  { rewrite EL. intros ->. specialize (H (fun w => w =? bits)). cbn [eval fold_left] in H. replace (2 * bits =? bits) with false in H by lia. symmetry in H. apply Bool.not_true_iff_false in H. specialize (H).
    clear H. unfold control_circuit in Ec. revert Ec. destruct (mapM _ (seq 0 bits)) as [l| | |] eqn:EM; try discriminate. cbn [bind].
    destruct (and_levels _ _ _ _ _ _) as [r| | |]; try discriminate. cbn [bind]. intros X. injection X as _ X. destruct l; [|discriminate X].
    destruct bits; [lia|]. cbn [seq mapM] in EM. destruct (get _ 0); try discriminate EM. cbn [bind] in EM. destruct (mapM _ _); discriminate EM. }
  destruct (C19_correct Hw HL Hne M0 M1 HS HE HD) as (m0 & m1 & c0 & c1 & r0 & r1 & tr & ER & _ & _ & HR). exists m0, m1, c0, c1, r0, r1, tr. split; [exact ER|].
  intros c k Hc Hk. rewrite HR by assumption. rewrite EL, H. unfold eqs. rewrite forallb_forall. split.
  - intros X j Hj. apply Bool.eqb_prop. apply X. apply in_seq. lia.
  - intros X j Hj. apply in_seq in Hj. rewrite X by lia. apply Bool.eqb_reflx.
Qed.
Print Assumptions C31_exact.
Print Assumptions C31_power_of_two_partial.
Print Assumptions C31_other_widths_refuted.
Print Assumptions C31_control_bits.
Print Assumptions C31_gmw.

Definition ex_eq (bits : nat) (a b : list N) : option bool :=
  match control_circuit bits with Ok c => Some (eval (cGates c) (row_env bits a b) (2 * bits)) | _ => None end.
Example C31_ex_8 : ex_eq 8 [200]%N [200]%N = Some true /\ ex_eq 8 [200]%N [72]%N = Some false. Proof. split; vm_compute; reflexivity. Qed.
(* 3 bits: 1 and 5 are taken to be equal; 12 bits: the third digit is ignored *)
Example C31_ex_3 : ex_eq 3 [1]%N [5]%N = Some true /\ ex_eq 3 [1]%N [3]%N = Some false /\ ex_eq 12 [52; 7]%N [52; 2]%N = Some true. Proof. repeat split; vm_compute; reflexivity. Qed.
Example C31_ex_width : forall k, 12 <> 2 ^ k.
Proof. intros k. destruct k as [|[|[|[|k]]]]; try (cbn; lia). Qed.
(* two bits: three gates in two levels; lane by lane the comparison of 9, 9 with 13, 2 *)
Definition ex_c2 : list level := [([Gate 0 2 GNxor 5; Gate 1 3 GNxor 6], 0); ([Gate 5 6 GAnd 4], 1)].
Example C31_ex_gmw : exists ci, control_circuit 2 = Ok ci /\ concat (map fst ex_c2) = cGates ci /\ cWires ci = 7 /\ Forall (level_ok 7) ex_c2 /\
  run_out (gmw_run 1 ex_c2 [[12]; [10]; [4]; [7]; [0]; [0]; [0]]%N [[5]; [3]; [9]; [5]; [0]; [0]; [0]]%N [[(5, 1); (3, 2)]]%N [[(6, 5); (1, 3)]]%N)
  = Some ([[9]; [9]; [13]; [2]; [N.ldiff (N.ones 128) 15]; [N.ldiff (N.ones 128) 4]; [N.ldiff (N.ones 128) 11]]%N, [], [], [([], []); ([2], [2])]).
Proof.
  destruct (control_circuit 2) as [ci| | |] eqn:E; vm_compute in E; try discriminate E. injection E as <-. eexists. split; [reflexivity|].
  split; [reflexivity|]. split; [reflexivity|]. split; [apply level_okb_ok; reflexivity|]. vm_compute. reflexivity.
Qed.

(* ================= C32 ================= *)
(* Both parties' tables are shares of: one row per right row, in order; it is active iff its key is a
   left key; the right columns are unchanged, and the left columns hold the row of that left key (the
   first one; zeros when there is none).  The keys present must be told apart by what is compared. *)
Theorem C32_join_partial enc q0 q1 rd nL nR kb : 0 < nL -> 0 < nR -> 0 < kb -> queries_ok nL nR kb q0 q1 ->
  (comp_size nL nR < kb -> linear_enc (div_ceil kb 8) (div_ceil (comp_size nL nR) 8) enc) ->
  om_rand_ok (nL + nR) (om_width q0 + div_ceil kb 8) (om_width q0) rd ->
  told_apart enc kb nL nR (left_keys q0 q1 ++ right_keys q0 q1) ->
  exists t0 t1, om_join enc q0 q1 rd = Ok (t0, t1) /\
    shares_of nR t0 t1 (map (om_flag (left_keys q0 q1) (right_keys q0 q1)) (seq 0 nR))
      (map2 (om_col nR (left_keys q0 q1) (right_keys q0 q1)) (qSel q0) (qSel q1)).
Proof. apply om_join_ok. Qed.
(* revealed, without the inactive rows: exactly the join *)
Theorem C32_reveal_partial enc q0 q1 rd nL nR kb : 0 < nL -> 0 < nR -> 0 < kb -> queries_ok nL nR kb q0 q1 ->
  (comp_size nL nR < kb -> linear_enc (div_ceil kb 8) (div_ceil (comp_size nL nR) 8) enc) ->
  om_rand_ok (nL + nR) (om_width q0 + div_ceil kb 8) (om_width q0) rd ->
  told_apart enc kb nL nR (left_keys q0 q1 ++ right_keys q0 q1) ->
  qSel q0 <> [] -> NoDup (map (fun s => cName (oCol s)) (qSel q0)) ->
  (do t <- om_join enc q0 q1 rd; t_reveal (fst t) (snd t) true) =
  Ok (Tab [] (map2 (join_col nR (left_keys q0 q1) (right_keys q0 q1)) (qSel q0) (qSel q1))).
Proof. apply om_join_reveal. Qed.
(* the condition on the keys holds whenever the width is a power of two, the keys are not compressed
   and have clean padding *)
Theorem C32_power_of_two enc nL nR k c l : 2 ^ k <= comp_size nL nR -> Forall (fun x => length x = c /\ bytes x /\ trimmed (2 ^ k) x) l -> told_apart enc (2 ^ k) nL nR l.
Proof. intros H HF. apply (@told_apart_pow2 enc nL nR (2 ^ k) k c l eq_refl H HF). Qed.
(* which is so for 1, 2, 4, 8, 16 and 32 bits whatever the tables *)
Theorem C32_small_widths k nL nR : k <= 5 -> 2 ^ k <= comp_size nL nR.
Proof. intros H. pose proof (comp_size_pos nL nR). do 6 (destruct k as [|k]; [cbn; lia|]). lia. Qed.
(* with unique left keys the match is the only one *)
Theorem C32_unique L x : NoDup L -> forall j, first_eq L x = Some j <-> j < length L /\ nth j L [] = x.
Proof.
  intros ND j. rewrite first_eq_some. split; [tauto|]. intros [H E]. split; [exact H|]. split; [exact E|]. intros i Hi E'.
  assert (i = j); [|lia]. apply (proj1 (NoDup_nth L []) ND); try lia. congruence.
Qed.
(* no rows in one of the tables: the logarithm of 0 is converted to an integer *)
Theorem C32_no_rows_refuted enc q0 q1 rd : cBits (qLeft q0) = cBits (qRight q0) -> bm_n (cDat (qLeft q0)) = 0 \/ bm_n (cDat (qRight q0)) = 0 -> om_join enc q0 q1 rd = UB.
Proof.
  intros E H. unfold om_join, load_keys. rewrite E, Nat.eqb_refl. cbn [negb throw_if bind].
  replace ((bm_n (cDat (qLeft q0)) =? 0) || (bm_n (cDat (qRight q0)) =? 0)) with true; [reflexivity|]. symmetry. apply orb_true_iff. rewrite !Nat.eqb_eq. exact H.
Qed.
(* compressed keys have at least 40 bits, but 32 are compared until the product of the sizes has 24
   bits: a pair of keys is mistaken when 32 bits of the code words agree, not 40 and more *)
Theorem C32_compressed_bits kb nL nR : Nat.log2 (nL * nR) < 24 -> comp_size nL nR < kb -> 40 <= key_bits kb nL nR /\ 2 ^ Nat.log2 (key_bits kb nL nR) = 32.
Proof.
  intros H Hk. unfold key_bits. replace (kb <=? comp_size nL nR) with false by lia. split; [apply comp_size_pos|].
  replace (Nat.log2 (comp_size nL nR)) with 5; [reflexivity|]. symmetry. apply Nat.log2_unique; [lia|]. unfold comp_size. change (2 ^ 5) with 32. change (2 ^ 6) with 64. lia.
Qed.
Print Assumptions C32_join_partial.
Print Assumptions C32_reveal_partial.
Print Assumptions C32_power_of_two.
Print Assumptions C32_small_widths.
Print Assumptions C32_unique.
Print Assumptions C32_no_rows_refuted.
Print Assumptions C32_compressed_bits.

(* left table: keys 7, 3 with a 12 bit column; right table: keys 3, 4, 7, 3 *)
Definition ex_col (name : N) (bits : nat) (rows : list (list N)) : column := Col [name] 0 bits (BM bits (div_ceil bits 8) rows).
Ltac col_ok := split; [split; [split; [reflexivity|repeat constructor]|reflexivity]|split; [reflexivity|split; [reflexivity|split; [cbn; lia|discriminate]]]].
Definition exL0 := ex_col 1 8 [[7]; [1]]%N.   Definition exL1 := ex_col 1 8 [[0]; [2]]%N.
Definition exR0 := ex_col 2 8 [[3]; [5]; [6]; [2]]%N.   Definition exR1 := ex_col 2 8 [[0]; [1]; [1]; [1]]%N.
Definition exV0 := ex_col 3 12 [[170; 1]; [187; 2]]%N.   Definition exV1 := ex_col 3 12 [[0; 4]; [0; 8]]%N.
Definition ex_q0 := OmQ exL0 exR0 [OSel true exV0; OSel false exR0].
Definition ex_q1 := OmQ exL1 exR1 [OSel true exV1; OSel false exR1].
Definition ex_rows (n c : nat) (x : N) : list (list N) := repeat (repeat x c) n.
Definition ex_rd (n c : nat) : om_rand := OmR (ex_rows n (c + 1) 17) (repeat true n) (ex_rows n (c + 1) 99) (repeat true n) (ex_rows n c 200).
Lemma ex_rows_ok n c x : (x < 256)%N -> rows_ok n c (ex_rows n c x).
Proof.
  intros H. split; [apply repeat_length|]. apply Forall_forall. intros r Hr. apply repeat_spec in Hr. subst r. split; [apply repeat_length|]. apply Forall_forall. intros y Hy. apply repeat_spec in Hy. subst y. exact H.
Qed.
Example C32_ex_hyp : queries_ok 2 4 8 ex_q0 ex_q1 /\ om_rand_ok 6 (om_width ex_q0 + 1) (om_width ex_q0) (ex_rd 6 3) /\ told_apart (fun x => x) 8 2 4 (left_keys ex_q0 ex_q1 ++ right_keys ex_q0 ex_q1) /\
  NoDup (map (fun s => cName (oCol s)) (qSel ex_q0)) /\ (comp_size 2 4 < 8 -> False) /\ NoDup (left_keys ex_q0 ex_q1).
Proof.
  split; [|split; [|split; [|split; [|split]]]].
  - split; [|split].
    + split; [col_ok|]. split; [col_ok|]. split; [reflexivity|]. split; [reflexivity|]. constructor; [unfold sel_ok; cbn [oLeft oCol]; col_ok|]. constructor; [unfold sel_ok; cbn [oLeft oCol]; col_ok|constructor].
    + split; [col_ok|]. split; [col_ok|]. split; [reflexivity|]. split; [reflexivity|]. constructor; [unfold sel_ok; cbn [oLeft oCol]; col_ok|]. constructor; [unfold sel_ok; cbn [oLeft oCol]; col_ok|constructor].
    + repeat constructor.
  - split; [apply ex_rows_ok; reflexivity|]. split; [reflexivity|]. split; [apply ex_rows_ok; reflexivity|]. split; [reflexivity|apply ex_rows_ok; reflexivity].
  - apply (@C32_power_of_two (fun x => x) 2 4 3 1); [cbn; lia|]. cbn. repeat (apply Forall_cons; [split; [reflexivity|]; split; [repeat constructor|]|]); try constructor.
    all: intros j Hj; unfold sbit; rewrite nth_overflow by (cbn [length]; cbn in Hj; pose proof (Nat.div_le_mono 8 j 8); lia); reflexivity.
  - repeat constructor; cbn; intuition discriminate.
  - cbn. lia.
  - repeat constructor; cbn; intuition discriminate.
Qed.
(* right rows 0, 2, 3 have a match *)
Example C32_ex : (do t <- om_join (fun x => x) ex_q0 ex_q1 (ex_rd 6 3); t_reveal (fst t) (snd t) true) =
  Ok (Tab [] [ex_col 3 12 [[187; 10]; [170; 5]; [187; 10]]; ex_col 2 8 [[3]; [7]; [3]]])%N.
Proof. vm_compute. reflexivity. Qed.

(* The condition is needed: 12 bit keys 0x101 and 0x201 are distinct, but the join has a row.  3 bit
   keys 1 and 5: the same. *)
Definition bad_q (bits : nat) (l r : list N) : om_query := OmQ (ex_col 1 bits [l]) (ex_col 2 bits [r]) [OSel true (ex_col 3 8 [[55]]%N); OSel false (ex_col 2 bits [r])].
Definition zero_q (bits : nat) : om_query :=
  let z := repeat 0%N (div_ceil bits 8) in OmQ (ex_col 1 bits [z]) (ex_col 2 bits [z]) [OSel true (ex_col 3 8 [[0]]%N); OSel false (ex_col 2 bits [z])].
Theorem C32_widths_refuted : exists bits q0 q1 rd, queries_ok 1 1 bits q0 q1 /\ om_rand_ok 2 (om_width q0 + div_ceil bits 8) (om_width q0) rd /\ bits <= comp_size 1 1 /\
  left_keys q0 q1 = [[1; 1]]%N /\ right_keys q0 q1 = [[1; 2]]%N /\
  (do t <- om_join (fun x => x) q0 q1 rd; t_reveal (fst t) (snd t) true) = Ok (Tab [] [ex_col 3 8 [[55]]; ex_col 2 12 [[1; 2]]])%N.
Proof.
  exists 12, (bad_q 12 [1; 1]%N [1; 2]%N), (zero_q 12), (OmR (ex_rows 2 4 17) [true; true] (ex_rows 2 4 99) [true; true] (ex_rows 2 2 200)).
  split; [|split; [|split; [cbn; lia|split; [reflexivity|split; [reflexivity|vm_compute; reflexivity]]]]].
  - split; [|split].
    + split; [col_ok|]. split; [col_ok|]. split; [reflexivity|]. split; [reflexivity|]. constructor; [unfold sel_ok; cbn [oLeft oCol]; col_ok|]. constructor; [unfold sel_ok; cbn [oLeft oCol]; col_ok|constructor].
    + split; [col_ok|]. split; [col_ok|]. split; [reflexivity|]. split; [reflexivity|]. constructor; [unfold sel_ok; cbn [oLeft oCol]; col_ok|]. constructor; [unfold sel_ok; cbn [oLeft oCol]; col_ok|constructor].
    + repeat constructor.
  - split; [apply ex_rows_ok; reflexivity|]. split; [reflexivity|]. split; [apply ex_rows_ok; reflexivity|]. split; [reflexivity|apply ex_rows_ok; reflexivity].
Qed.
Print Assumptions C32_widths_refuted.

(* 48 bit keys of two tables with one row are compressed to 40 bits; here by dropping a byte *)
Definition drop_enc (x : list N) : list N := firstn 5 x.
Example C32_ex_enc : linear_enc (div_ceil 48 8) (div_ceil (comp_size 1 1) 8) drop_enc /\ comp_size 1 1 < 48.
Proof.
  split; [|cbn; lia]. unfold drop_enc. split.
  - intros x L B. change (div_ceil 48 8) with 6 in L. split; [rewrite firstn_length, L; reflexivity|apply firstn_bytes, B].
  - intros x y L1 L2 _ _. change (firstn 5 ?z) with (slice z 0 5). apply map2_slice. congruence.
Qed.
Definition long_q := bad_q 48 [1; 2; 3; 4; 5; 6]%N [1; 2; 3; 4; 5; 6]%N.
Example C32_ex_long : (do t <- om_join drop_enc long_q (zero_q 48) (OmR (ex_rows 2 8 17) [true; true] (ex_rows 2 8 99) [true; true] (ex_rows 2 2 200)); t_reveal (fst t) (snd t) true) =
  Ok (Tab [] [ex_col 3 8 [[55]]; ex_col 2 48 [[1; 2; 3; 4; 5; 6]]])%N.
Proof. vm_compute. reflexivity. Qed.
Example C32_ex_told : told_apart drop_enc 48 1 1 (left_keys long_q (zero_q 48) ++ right_keys long_q (zero_q 48)).
Proof. intros x y Hx Hy _. cbn in Hx, Hy. destruct Hx as [<-|[<-|[]]], Hy as [<-|[<-|[]]]; reflexivity. Qed.
