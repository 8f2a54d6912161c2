(* What happens in a join after the sort, with the runs of its circuits. *)
From Verif Require Import Base Words PrfModel PrfProofs PermModel PermCorModel PermCorProofs PermViewModel KeyMultModel KeyMultProofs ShuffleModel ShuffleSpec GmwModel GmwSpec GmwProofs GmwIoModel GmwIoSpec BitInjProofs AggModel AggSpec AggProofs AggCirModel AggCirSpec AggCirProofs AggCirBuild AggCirAdd AggCirRun
  AggTwoModel AggTwoSpec AggTwoRel AggTwoTree AggRunModel AggRunProofs AggTwoScan AggViewModel AggViewSpec AggViewHide AggViewLanes AggViewFull AggViewErase RoundPrivacy RadixModel RadixSpec GenPermPrivacy TableModel TableSpec TrimProofs TableProofs TableIOModel BinFileProofs OmJoinModel OmJoinSpec OmJoinProofs JoinViewModel JoinPrivSpec JoinPrivacy CtrlProofs WhereProofs HexProofs JoinRunModel JoinRunSpec JoinRunCtl JoinRunStages CompressProofs PackProofs PropsAggCir PropsAggTwo PropsAggView.

Lemma sbit_lxor x y j : length x = length y -> sbit (map2 N.lxor x y) j = xorb (sbit x j) (sbit y j).
Proof.
  intros L. unfold sbit. destruct (Nat.lt_ge_cases (j / 8) (length x)) as [H|H].
  - rewrite (@map2_nth _ _ _ N.lxor x y (j / 8) 0%N 0%N) by lia. apply N.lxor_spec.
  - rewrite !nth_overflow by (rewrite ?map2_length; lia). rewrite N.bits_0. reflexivity.
Qed.
Lemma sbit_one x : sbit [x] 0 = N.odd x.
Proof. unfold sbit. change (0 / 8) with 0. change (0 mod 8) with 0. cbn [nth]. change (N.of_nat 0) with 0%N. apply N.bit0_odd. Qed.
Lemma bits_row_len w l : length (bits_row w l) = w.
Proof. unfold bits_row. rewrite map_length. apply seq_length. Qed.
Lemma bits_row_bytes w l : bytes (bits_row w l).
Proof.
  apply Forall_forall. intros x Hx. apply in_map_iff in Hx. destruct Hx as (b & <- & _). change 256%N with (2 ^ N.of_nat 8)%N. apply RoundPrivacy.of_bits_lt. rewrite map_length, seq_length. lia.
Qed.
Lemma bits_row_bit w l b k : b < w -> k < 8 -> N.testbit (nth b (bits_row w l) 0%N) (N.of_nat k) = nth (8 * b + k) l false.
Proof. intros Hb Hk. unfold bits_row. rewrite map_seq_nth by exact Hb. rewrite of_bits_bit, map_seq_nth by exact Hk. reflexivity. Qed.
Lemma byte_ext a b : (a < 256)%N -> (b < 256)%N -> (forall k, k < 8 -> N.testbit a (N.of_nat k) = N.testbit b (N.of_nat k)) -> a = b.
Proof.
  intros Ha Hb H. apply N.bits_inj. intros k. destruct (N.lt_ge_cases k 8) as [L|L].
  - specialize (H (N.to_nat k) ltac:(lia)). rewrite N2Nat.id in H. exact H.
  - assert (HH : forall x, (x < 256)%N -> N.testbit x k = false).
    { clear - L. intros x Hx. destruct (N.eq_dec x 0) as [->|Nz]; [apply N.bits_0|]. apply N.bits_above_log2. assert (N.log2 x < 8)%N; [|lia]. apply N.log2_lt_pow2; [lia|exact Hx]. }
    rewrite !HH by assumption. reflexivity.
Qed.
Lemma bytes_nth l i : bytes l -> (nth i l 0%N < 256)%N.
Proof. intros H. destruct (Nat.lt_ge_cases i (length l)) as [L|L]; [|rewrite nth_overflow by exact L; reflexivity]. unfold bytes in H. rewrite Forall_forall in H. apply H, nth_In, L. Qed.
Lemma bits_row_back w l : length l = w -> bytes l -> bits_row w (row_bits (8 * w) l) = l.
Proof.
  intros L B. apply (@list_eq_nth _ 0%N); [rewrite bits_row_len; congruence|]. intros b Hb. rewrite bits_row_len in Hb. apply byte_ext; [apply bytes_nth, bits_row_bytes|apply bytes_nth, B|].
  intros k Hk. rewrite bits_row_bit by assumption. unfold row_bits. rewrite map_seq_nth by lia. unfold sbit. replace ((8 * b + k) / 8) with b by (apply Nat.div_unique with k; lia). replace ((8 * b + k) mod 8) with k by (apply Nat.mod_unique with b; lia). reflexivity.
Qed.
Lemma bits_row_xor w a b : length a = 8 * w -> length b = 8 * w -> bits_row w (map2 xorb a b) = map2 N.lxor (bits_row w a) (bits_row w b).
Proof.
  intros La Lb. apply (@list_eq_nth _ 0%N); [rewrite map2_length, !bits_row_len; lia|]. intros i Hi. rewrite bits_row_len in Hi. rewrite (@map2_nth _ _ _ N.lxor _ _ i 0%N 0%N) by (rewrite bits_row_len; exact Hi).
  apply byte_ext; [apply bytes_nth, bits_row_bytes| |].
  - apply ExtractPrivacy.lxor_byte; apply bytes_nth, bits_row_bytes.
  - intros k Hk. rewrite N.lxor_spec, !bits_row_bit by assumption. apply (@map2_nth _ _ _ xorb a b (8 * i + k) false false); lia.
Qed.

Lemma hd_bytes (o : list bool) : map (hd 0%N) (map (fun b => [N.b2n b]) o) = map N.b2n o.
Proof. rewrite map_map. reflexivity. Qed.
Lemma odd_b2n (o : list bool) : map N.odd (map N.b2n o) = o.
Proof. rewrite map_map. rewrite (map_ext _ (fun b => b)); [apply map_id|]. intros []; reflexivity. Qed.
Lemma put_bytes_flags off d : forall fl, put_bytes off d (map N.b2n fl) = put_flags off d fl.
Proof.
  unfold put_bytes, put_flags. induction d as [|x d IH]; intros [|f fl]; try reflexivity. cbn [map combine mapM fst snd]. rewrite IH. reflexivity.
Qed.
Lemma skeys_at n c off size d i : lens n c d -> i < n -> nth (S i) (repeat 0%N size :: map (fun r => slice r off size) d) [] = slice (nth i d []) off size.
Proof. intros [L _] Hi. cbn [nth]. rewrite (@nth_map' _ _ _ d i []) by lia. reflexivity. Qed.

Section Run.
Variables (n w bits flag cap : nat) (lb : join_lib) (jl : join_levels) (jt : join_tapes).
Hypothesis Hn : 2 <= n.
Hypothesis Hn32 : (N.of_nat n <= 2 ^ 32)%N.
Hypothesis Hb : 0 < bits.
Hypothesis Hw : flag + 1 + div_ceil bits 8 <= w.
Hypothesis Hcap : 4 + w + (flag + 1) <= cap.
Hypothesis Hcap' : (N.of_nat cap < 2 ^ 64)%N.
Hypothesis Hlb : lib_ok w lb.
Hypothesis Hjl : levels_fit lb w bits jl.
Hypothesis Hjt : tapes_fit n jl jt.
Notation outv := (outv n bits flag).
Notation cbv := (cbv n bits flag).
Notation duv := (duv n w bits flag).

Lemma control_ok Z0 Z1 : lens n w Z0 -> lens n w Z1 ->
  exists o0 o1 tr, control_run bits (flag + 1) (jlCtrl jl) (jtpCtrl jt) (Z0, Z1) = Ok ((map N.b2n o0, map N.b2n o1), tr) /\ length o0 = n /\ o1 = map2 xorb o0 (outv (xor_rows Z0 Z1)).
Proof using All.
  intros H0 H1. destruct (control_circuit_ok Hb) as (gs & m & Ec & _ & _). destruct (control_runnable Hb Ec) as (HR & HF & EO & EI).
  destruct Hjl as (HL & _). specialize (HL _ Ec). destruct Hjt as (P0 & P1 & _ & _ & HT & _).
  set (size := div_ceil bits 8) in *. set (s0 := repeat 0%N size :: map (fun r => slice r (flag + 1) size) Z0). set (s1 := repeat 0%N size :: map (fun r => slice r (flag + 1) size) Z1).
  assert (L0 : length s0 = S n) by (unfold s0; cbn [length]; rewrite map_length, (proj1 H0); reflexivity). assert (L1 : length s1 = S n) by (unfold s1; cbn [length]; rewrite map_length, (proj1 H1); reflexivity).
  destruct (@gmw_rows_ok n _ bits (same_low bits) (jlCtrl jl) (fst (jtpCtrl jt)) (snd (jtpCtrl jt)) (firstn n s0) (skipn 1 s0) (firstn n s1) (skipn 1 s1) HR HF HL) as (o0 & o1 & tr & E & Lo0 & Lo1 & HO); try assumption; try lia; rewrite ?firstn_length, ?skipn_length; try lia.
  exists o0, o1, tr. split; [|split; [exact Lo0|]].
  - unfold control_run. rewrite Ec. cbn [bind fst snd]. fold size. rewrite (@skeys_lens n w), (@skeys_lens n w) by assumption. cbn [bind]. fold s0. fold s1. rewrite (proj1 H0).
    unfold size. rewrite E. cbn [bind fst snd]. rewrite !hd_bytes. reflexivity.
  - assert (LX : length (xor_rows Z0 Z1) = n) by apply (xor_rows_lens H0 H1). assert (LV := outv_len Hn Hn32 Hb Hw Hcap Hcap' LX).
    apply (@list_eq_nth _ false); [rewrite map2_length; lia|]. intros r Hr. rewrite Lo1 in Hr. rewrite (@map2_nth _ _ _ xorb _ _ r false false) by lia.
    assert (EV : nth r (outv (xor_rows Z0 Z1)) false = xorb (nth r o0 false) (nth r o1 false)).
    { specialize (HO r Hr). unfold JoinPrivacy.outv. rewrite Ec. cbn [okd cGates]. fold size.
      assert (LK : length (kvv bits flag (xor_rows Z0 Z1)) = S n) by (unfold kvv; cbn [length]; rewrite map_length, LX; reflexivity).
      rewrite (@map2_nth _ _ _ _ (firstn n (kvv bits flag (xor_rows Z0 Z1))) (skipn 1 (kvv bits flag (xor_rows Z0 Z1))) r [] []) by (rewrite ?firstn_length, ?skipn_length; lia).
      set (ka := nth r (firstn n (kvv bits flag (xor_rows Z0 Z1))) []). set (kb := nth r (skipn 1 (kvv bits flag (xor_rows Z0 Z1))) []).
      pose proof (HF (row_env bits ka kb)) as EF. cbn [cOuts cIns cGates map] in EF.
      assert (NF : forall (A : Type) (l : list A) i d, i < n -> nth i (firstn n l) d = nth i l d).
      { clear. intros A l i d. revert n i. induction l as [|x l IH]; intros [|n] [|i] H; try lia; cbn [firstn nth]; try reflexivity. apply IH. lia. }
      assert (KX : forall i, i < S n -> length (nth i s0 []) = length (nth i s1 []) /\ nth i (kvv bits flag (xor_rows Z0 Z1)) [] = map2 N.lxor (nth i s0 []) (nth i s1 [])).
      { intros [|i] Hi; [split; reflexivity|]. unfold kvv, s0, s1. rewrite !(@skeys_at n w) by (assumption || lia). fold size. cbn [nth].
        rewrite (@nth_map' _ _ _ (xor_rows Z0 Z1) i []) by lia. assert (lens n w Z0 /\ lens n w Z1) as [[A1 A2] [B1 B2]] by (split; assumption).
        assert (length (nth i Z0 []) = w) by (rewrite Forall_forall in A2; apply A2, nth_In; lia). assert (length (nth i Z1 []) = w) by (rewrite Forall_forall in B2; apply B2, nth_In; lia).
        split; [unfold slice; rewrite !firstn_length, !skipn_length; lia|]. unfold xor_rows. rewrite (@map2_nth _ _ _ (map2 N.lxor) _ _ i [] []) by lia. apply map2_slice. congruence. }
      assert (E1 : map (row_env bits ka kb) (seq 0 bits) = map (fun j => xorb (sbit (nth r (firstn n s0) []) j) (sbit (nth r (firstn n s1) []) j)) (seq 0 bits)).
      { apply map_ext_in. intros j Hj. apply in_seq in Hj. unfold row_env. rewrite (proj2 (Nat.ltb_lt _ _)) by lia. unfold ka. rewrite !NF by exact Hr. destruct (KX r ltac:(lia)) as [KL ->]. apply sbit_lxor, KL. }
      assert (E2 : map (row_env bits ka kb) (seq bits bits) = map (fun j => xorb (sbit (nth r (skipn 1 s0) []) j) (sbit (nth r (skipn 1 s1) []) j)) (seq 0 bits)).
      { apply (@list_eq_nth _ false); [rewrite !map_length, !seq_length; reflexivity|]. intros j Hj. rewrite map_length, seq_length in Hj. rewrite map_seq_nth by exact Hj. rewrite (@nth_map' _ _ _ (seq bits bits) j 0) by (rewrite seq_length; exact Hj). rewrite seq_nth by exact Hj.
        unfold row_env. rewrite (proj2 (Nat.ltb_ge _ _)) by lia. replace (bits + j - bits) with j by lia. unfold kb. rewrite !nth_skipn. destruct (KX (1 + r) ltac:(lia)) as [KL ->]. apply sbit_lxor, KL. }
      rewrite E1, E2, HO in EF. congruence. }
    rewrite EV. destruct (nth r o0 false), (nth r o1 false); reflexivity.
Qed.

Lemma lens_rows_bits Z0 Z1 : lens n w Z0 -> lens n w Z1 -> F3 (word_shares (8 * w)) (map (row_bits (8 * w)) Z0) (map (row_bits (8 * w)) Z1) (map (row_bits (8 * w)) (xor_rows Z0 Z1)).
Proof using All.
  intros [L0 F0] [L1 F1]. rewrite <- L1 in L0. clear L1. revert Z1 L0 F1. induction F0 as [|x Z0 Hx F0 IH]; intros [|y Z1] L F1; try discriminate L; [constructor|]. apply Forall_cons_iff in F1. destruct F1 as [Hy F1].
  cbn [map xor_rows map2]. constructor; [|apply IH; [injection L as L; exact L|exact F1]].
  unfold word_shares, row_bits. rewrite !map_length, seq_length. split; [reflexivity|]. split; [reflexivity|].
  apply (@list_eq_nth _ false); [rewrite map2_length, !map_length, seq_length; lia|]. intros j Hj. rewrite map_length, seq_length in Hj.
  rewrite (@map2_nth _ _ _ xorb _ _ j false false) by (rewrite map_length, seq_length; exact Hj). rewrite !map_seq_nth by exact Hj. apply sbit_lxor. congruence.
Qed.
Lemma bits_shares : forall o0 o1 : list N, length o0 = length o1 -> F3 bit_shares (map N.odd o0) (map N.odd o1) (map2 xbit o0 o1).
Proof using All.
  induction o0 as [|x o0 IH]; intros [|y o1] L; try discriminate L; [constructor|]. cbn [map map2]. constructor; [|apply IH; injection L as L; exact L].
  unfold bit_shares, xbit. rewrite <- !N.bit0_odd. apply N.lxor_spec.
Qed.

Lemma dup_ok' Z0 Z1 o0 o1 : lens n w Z0 -> lens n w Z1 -> rows_ok n w (xor_rows Z0 Z1) -> length o0 = n -> length o1 = n -> map2 xbit o0 o1 = cbv (xor_rows Z0 Z1) ->
  exists U0 U1 tr, dup_run (lbMux lb) w jl jt (o0, o1) (Z0, Z1) = Ok ((U0, U1), tr) /\ rows_ok n w U0 /\ U1 = xor_rows U0 (duv (xor_rows Z0 Z1)).
Proof using All.
  intros H0 H1 HV Lo0 Lo1 EX. set (V := xor_rows Z0 Z1) in *. set (k := 8 * w). assert (LV : length V = n) by apply HV.
  assert (Lc := cbv_len Hn Hn32 Hb Hw Hcap Hcap' LV).
  destruct Hlb as (HM & _). destruct Hjl as (_ & LU & LD & LL & _). destruct Hjt as (_ & _ & _ & _ & _ & _ & sh & Es & TU0 & TU1 & TD0 & TD1 & TU & TD & TL).
  destruct (@C71_up k (fun a b => a) dup_circuit (lbMux lb) Prefix (@dup_ok k) HM) as (cu & Eu & _). destruct (@C71_down k (fun a b => a) dup_circuit Prefix ([], false) ([], false) (@dup_ok k)) as (cd & Ed & _).
  destruct (@C71_leaf k (fun a b => a) dup_circuit (lbMux lb) Prefix (@dup_ok k) HM) as (cl & El & _).
  set (top := length (sSizes sh) - 1) in *. set (src := map (row_bits k) V). assert (Ls : length src = n) by (unfold src; rewrite map_length; exact LV).
  assert (C0 : nth_error (cbv V) 0 = Some false). { unfold JoinPrivacy.cbv. assert (Lo := outv_len Hn Hn32 Hb Hw Hcap Hcap' LV). destruct (JoinPrivacy.outv n bits flag V) as [|x o]; [cbn [length] in Lo; lia|reflexivity]. }
  destruct (@C72_tree k (fun a b => a) dup_circuit (lbMux lb) Prefix cu cd cl (jlUp jl) (jlDown jl) (jlLeaf jl)
    (fun l => nth l (fst (jtpUp jt)) no_tape) (fun l => nth l (snd (jtpUp jt)) no_tape) (fun l => nth (top - l - 1) (fst (jtpDown jt)) no_tape) (fun l => nth (top - l - 1) (snd (jtpDown jt)) no_tape) (fst (jtpLeaf jt)) (snd (jtpLeaf jt))
    (map (row_bits k) Z0) (map (row_bits k) Z1) src (map N.odd o0) (map N.odd o1) (cbv V) sh) as (r0 & r1 & E & HR); try assumption; try lia.
  - apply dup_ok.
  - apply dup_word.
  - apply (LU _ Eu).
  - apply (LD _ Ed).
  - apply (LL _ El).
  - right. exact C0.
  - apply (lens_rows_bits H0 H1).
  - rewrite <- EX. apply bits_shares. congruence.
  - rewrite Ls. exact Es.
  - intros lvl Hl. apply (TU lvl); apply nth_error_nth'; lia.
  - intros lvl Hl. specialize (TD (top - lvl - 1) (nth (top - lvl - 1) (fst (jtpDown jt)) no_tape) (nth (top - lvl - 1) (snd (jtpDown jt)) no_tape)). replace (top - (top - lvl - 1) - 1) with lvl in TD by (fold top in Hl; lia). fold top in Hl. apply TD; apply nth_error_nth'; lia.
  - assert (Lz : length (map (row_bits k) Z0) = n) by (rewrite map_length; apply H0).
    rewrite (@C73_same Prefix (repeat false k) cu cd cl (jlUp jl) (jlDown jl) (jlLeaf jl) (fst (jtpUp jt)) (snd (jtpUp jt)) (fst (jtpDown jt)) (snd (jtpDown jt)) (fst (jtpLeaf jt)) (snd (jtpLeaf jt)) _ _ _ _ sh) in E by (rewrite ?Lz; assumption).
    apply bind_inv in E. destruct E as ([rr tr] & EA & E). cbn [fst] in E.
    assert (rr = (r0, r1)) as -> by congruence. clear E. rewrite dup_scan, Ls in HR.
    assert (L0 : length r0 = n /\ length r1 = n) by (destruct (f3_len HR) as [A B]; rewrite map_length, seq_length in A, B; split; congruence). destruct L0 as [L0 L1].
    assert (HR' : forall i, i < n -> length (nth i r0 []) = k /\ length (nth i r1 []) = k /\ row_bits k (nth (blk_start (cbv V) i) V []) = map2 xorb (nth i r0 []) (nth i r1 [])).
    { intros i Hi. pose proof (blk_start_le (cbv V) i) as Hbl. destruct (f3_nth_error HR (i := i) (c := nth (blk_start (cbv V) i) src (repeat false k))) as (a & b & Ha & Hb' & W1 & W2 & W3).
      { rewrite nth_error_map, (nth_error_nth' _ 0) by (rewrite seq_length; exact Hi). rewrite seq_nth by exact Hi. reflexivity. }
      rewrite (nth_error_nth _ _ [] Ha), (nth_error_nth _ _ [] Hb'). split; [exact W1|]. split; [exact W2|]. rewrite <- W3. unfold src. rewrite (@nth_map' _ _ (row_bits k) V _ []) by lia. reflexivity. }
    exists (map (bits_row w) r0), (map (bits_row w) r1), tr. split; [|split].
    + unfold dup_run. fold k. rewrite Eu. cbn [bind]. rewrite Ed. cbn [bind]. rewrite El. cbn [bind fst snd]. rewrite EA. reflexivity.
    + split; [rewrite map_length; exact L0|]. apply Forall_forall. intros x Hx. apply in_map_iff in Hx. destruct Hx as (y & <- & _). split; [apply bits_row_len|apply bits_row_bytes].
    + destruct (duv_ok Hn Hn32 Hb Hw Hcap Hcap' HV) as [ED HD].
      apply (@list_eq_nth _ []); [unfold xor_rows; rewrite map2_length, !map_length, (proj1 HD); lia|]. intros i Hi. rewrite map_length, L1 in Hi.
      unfold xor_rows at 1. rewrite (@map2_nth _ _ _ (map2 N.lxor) _ _ i [] []) by (rewrite ?map_length, ?(proj1 HD); lia). rewrite !(@nth_map' _ _ (bits_row w) _ i []) by lia.
      assert (EDi : nth i (duv V) [] = nth (blk_start (cbv V) i) V []).
      { pose proof (blk_start_le (cbv V) i) as Hbl. unfold JoinPrivacy.duv. rewrite agg_prefix_ok by (exact C0 || lia || (intros ? ? ?; reflexivity)). cbn [okd]. rewrite LV, map_seq_nth by exact Hi. rewrite agg_range_first by lia. apply nth_indep. lia. }
      rewrite EDi. destruct (HR' i Hi) as (W1 & W2 & W3).
      assert (bits_row w (row_bits k (nth (blk_start (cbv V) i) V [])) = nth (blk_start (cbv V) i) V []) as <-.
      { pose proof (blk_start_le (cbv V) i) as Hbl. apply bits_row_back; apply (rows_nth HV); lia. }
      rewrite W3. rewrite bits_row_xor by assumption.
      apply (@list_eq_nth _ 0%N); [rewrite !map2_length, !bits_row_len; lia|]. intros j Hj. rewrite bits_row_len in Hj. rewrite !(@map2_nth _ _ _ N.lxor _ _ j 0%N 0%N) by (rewrite ?map2_length, !bits_row_len; lia).
      rewrite <- N.lxor_assoc, N.lxor_nilpotent, N.lxor_0_l. reflexivity.
Qed.

Lemma flags_ok U0 U1 o0 o1 : rows_ok n w U0 -> rows_ok n w U1 -> length o0 = n -> length o1 = n ->
  exists mk R tr, length mk = n /\ flags_run (lbAnd lb) flag (jlFlag jl) (jtpFlag jt) (o0, o1) (U0, U1) = (do R <- om_flags flag mk (o0, o1) (U0, U1); Ok (R, tr)) /\ om_flags flag mk (o0, o1) (U0, U1) = Ok R.
Proof using All.
  intros H0 H1 Lo0 Lo1. destruct Hlb as (_ & HR & HF). destruct Hjl as (_ & _ & _ & _ & HL). destruct Hjt as (_ & _ & P0 & P1 & _ & HT & _).
  assert (HG : forall d0, TableSpec.rows_ok n w d0 -> mapM (fun r => get r flag) d0 = Ok (map (fun r => nth flag r 0%N) d0)).
  { intros d0 [_ HF']. apply mapM_ok. intros r Hr. rewrite Forall_forall in HF'. apply get_ok. rewrite (proj1 (HF' r Hr)). lia. }
  set (f0 := map (fun r => nth flag r 0%N) U0). set (f1 := map (fun r => nth flag r 0%N) U1). assert (Lf0 : length f0 = n) by (unfold f0; rewrite map_length; apply H0). assert (Lf1 : length f1 = n) by (unfold f1; rewrite map_length; apply H1).
  set (one := map (fun x : N => [x])).
  destruct (@gmw_rows_ok n (lbAnd lb) 1 and_fun (jlFlag jl) (fst (jtpFlag jt)) (snd (jtpFlag jt)) (one o0) (one f0) (one o1) (one f1) HR HF HL) as (b0 & b1 & tr & E & Lb0 & Lb1 & HO); try assumption; try lia; try (unfold one; rewrite map_length; assumption).
  assert (EB : b1 = map2 xorb b0 (map2 andb (map2 xbit o0 o1) (map2 xbit f0 f1))).
  { assert (LL : length (map2 andb (map2 xbit o0 o1) (map2 xbit f0 f1)) = n) by (rewrite !map2_length; lia).
    apply (@list_eq_nth _ false); [rewrite map2_length; lia|]. intros r Hr. rewrite Lb1 in Hr. rewrite (@map2_nth _ _ _ xorb _ _ r false false) by lia.
    rewrite (@map2_nth _ _ _ andb _ _ r false false) by (rewrite map2_length; lia). rewrite !(@map2_nth _ _ _ xbit _ _ r 0%N 0%N) by lia.
    specialize (HO r Hr). unfold and_fun in HO. cbn [seq map nth] in HO. unfold one in HO. rewrite !(@nth_map' _ _ (fun x : N => [x]) _ r 0%N) in HO by lia. rewrite !sbit_one in HO.
    assert (X : forall a b, xbit a b = xorb (N.odd a) (N.odd b)) by (intros; unfold xbit; rewrite <- !N.bit0_odd; apply N.lxor_spec). rewrite !X.
    assert (HO' : xorb (N.odd (nth r o0 0%N)) (N.odd (nth r o1 0%N)) && xorb (N.odd (nth r f0 0%N)) (N.odd (nth r f1 0%N)) = xorb (nth r b0 false) (nth r b1 false)) by congruence. rewrite HO'. destruct (nth r b0 false), (nth r b1 false); reflexivity. }
  assert (LM : length (map2 xorb b0 (map2 andb (map2 xbit o0 o1) (map2 xbit f0 f1))) = n) by (rewrite <- EB; exact Lb1).
  exists b0. eexists. exists tr. split; [exact Lb0|].
  assert (EF : om_flags flag b0 (o0, o1) (U0, U1) = Ok (map (fun i => firstn flag (nth i U0 []) ++ [N.b2n (nth i b0 false)]) (seq 0 n), map (fun i => firstn flag (nth i U1 []) ++ [N.b2n (nth i b1 false)]) (seq 0 n))).
  { unfold om_flags. cbn [fst snd]. rewrite (HG _ H0), (HG _ H1). cbn [bind]. fold f0. fold f1. rewrite <- EB. rewrite (@put_flags_ok n w) by (try assumption; lia). rewrite (@put_flags_ok n w) by (try assumption; lia). reflexivity. }
  split; [|exact EF]. rewrite EF. cbn [bind]. unfold flags_run. cbn [fst snd]. rewrite (HG _ H0), (HG _ H1). cbn [bind]. fold f0. fold f1. fold one. rewrite (proj1 H0). change (div_ceil 1 8) with 1 in E. rewrite E. cbn [bind fst snd].
  rewrite !hd_bytes, !put_bytes_flags. rewrite (@put_flags_ok n w) by (try assumption; lia). rewrite (@put_flags_ok n w) by (try assumption; lia). reflexivity.
Qed.

(* the whole rest of the join *)
Lemma chain_run_cir y0 y1 D0 D1 c0 c1 : RadixSpec.comps_ok n cap (c0, c1) -> GenPermPrivacy.psh n y0 y1 -> rows_ok n w D0 -> rows_ok n w D1 ->
  exists m tr, masks_ok n w m /\ join_chain_run lb n w bits flag y0 y1 D0 D1 (c0, c1) jl jt = do r <- join_chain n w bits flag y0 y1 D0 D1 (c0, c1) m; Ok (r, tr).
Proof using All.
  intros HC HD H0 H1. set (m0 := JM (repeat false n) (repeat (repeat 0%N w) n) (repeat false n)).
  assert (Hm0 : masks_ok n w m0).
  { unfold masks_ok, m0. cbn [jmCtrl jmDup jmFlag]. rewrite !repeat_length. split; [reflexivity|]. split; [|reflexivity]. split; [apply repeat_length|]. apply Forall_forall. intros x Hx. apply repeat_spec in Hx. subst x. split; [apply repeat_length|apply bytes_zeros]. }
  destruct (chain_ok Hn Hn32 Hb Hw Hcap Hcap' HC HD H0 H1 Hm0) as (m1 & m2 & z0 & z1 & m3 & b0 & b1 & Lz0 & Lz1 & _ & _ & EZ & _ & EC & _).
  pose proof (Zv_ok HD H0 H1) as HV. set (V := Zv n y0 y1 D0 D1) in *.
  unfold join_chain in EC. cbn [fst snd] in EC. apply bind_inv in EC. destruct EC as (x1 & M1 & EC). apply bind_inv in EC. destruct EC as (e & E1 & EC). apply bind_inv in EC. destruct EC as (x2 & M2 & EC). apply bind_inv in EC. destruct EC as ([[a0 g0] [a1 g1]] & E2 & EC).
  cbv zeta in EC. apply bind_inv in EC. destruct EC as (v1 & _ & EC). apply bind_inv in EC. destruct EC as (v2 & _ & EC). apply bind_inv in EC. destruct EC as (v3 & _ & EC). apply bind_inv in EC. destruct EC as (v4 & _ & EC).
  apply bind_inv in EC. destruct EC as (v5 & _ & EC). apply bind_inv in EC. destruct EC as (v6 & _ & EC). apply bind_inv in EC. destruct EC as ([[v7 v8] [v9 v10]] & _ & EC).
  apply (f_equal (fun o => match o with Ok r => ctZ r | _ => ([], []) end)) in EC. cbv beta iota in EC. cbn [ctZ] in EC.
  set (Z0 := TableIOModel.chunks w n z0) in *. set (Z1 := TableIOModel.chunks w n z1) in *. assert (LZ0 : lens n w Z0) by (apply chunks_lens, Lz0). assert (LZ1 : lens n w Z1) by (apply chunks_lens, Lz1).
  destruct (control_ok LZ0 LZ1) as (o0 & o1 & t1 & R1 & Lo0 & Eo1). rewrite EZ in Eo1. assert (LV : length V = n) by apply HV. assert (LO := outv_len Hn Hn32 Hb Hw Hcap Hcap' LV).
  assert (Lo1 : length o1 = n) by (rewrite Eo1, map2_length, Lo0, LO; apply Nat.min_id).
  set (p0 := upd (map N.b2n o0) 0 0%N). set (p1 := upd (map N.b2n o1) 0 0%N). assert (Lp0 : length p0 = n) by (unfold p0; rewrite upd_length, map_length; exact Lo0). assert (Lp1 : length p1 = n) by (unfold p1; rewrite upd_length, map_length; exact Lo1).
  assert (EX : map2 xbit p0 p1 = cbv V) by (unfold p0, p1; rewrite Eo1; apply (set_xbit Hn Hn32 Hb Hw Hcap Hcap'); assumption).
  rewrite <- EZ in HV, EX. destruct (dup_ok' LZ0 LZ1 HV Lp0 Lp1 EX) as (U0 & U1 & t2 & R2 & HU0 & EU1).
  assert (HU1 : rows_ok n w U1) by (rewrite EU1; apply xor_rows_ok; [exact HU0|apply (duv_ok Hn Hn32 Hb Hw Hcap Hcap' HV)]).
  destruct (flags_ok HU0 HU1 Lp0 Lp1) as (mk & R & t3 & Lmk & R3 & _).
  exists (JM o0 U0 mk), (t1, t2, t3). split; [unfold masks_ok; cbn [jmCtrl jmDup jmFlag]; split; [exact Lo0|]; split; [exact HU0|exact Lmk]|].
  assert (C1 : om_control_v bits (flag + 1) o0 (Z0, Z1) = Ok (o0, o1)). { pose proof (@control_v_ok n w bits flag Hb Hw Z0 Z1 (JM o0 U0 mk) LZ0 LZ1 Lo0) as X. cbv zeta in X. cbn [jmCtrl] in X. rewrite X, EZ, <- Eo1. reflexivity. }
  assert (C2 : set (map N.b2n o0) 0 0%N = Ok p0) by (unfold set; rewrite map_length, Lo0, (proj2 (Nat.ltb_lt _ _)) by lia; reflexivity).
  assert (C3 : set (map N.b2n o1) 0 0%N = Ok p1) by (unfold set; rewrite map_length, Lo1, (proj2 (Nat.ltb_lt _ _)) by lia; reflexivity).
  assert (C4 : om_dup w U0 (p0, p1) (Z0, Z1) = Ok (U0, U1)). { unfold om_dup. cbn [fst snd]. rewrite EX, (proj1 (duv_ok Hn Hn32 Hb Hw Hcap Hcap' HV)). cbn [bind]. unfold reshare. rewrite EU1. reflexivity. }
  unfold join_chain_run, join_chain. cbn [fst snd jmCtrl jmDup jmFlag]. rewrite M1. cbn [bind]. rewrite E1. cbn [bind fst snd]. rewrite M2. cbn [bind]. rewrite E2. cbn [bind]. rewrite EC. rewrite R1, C1. cbn [bind fst snd]. unfold om_control_set. rewrite C2, C3. cbn [bind].
  rewrite R2, C4. cbn [bind fst snd]. rewrite R3. destruct (om_flags flag mk (p0, p1) (U0, U1)) as [[f0 f1]| | |]; cbn [bind fst snd]; try reflexivity.
  rewrite !odd_b2n. destruct (comp_apply_msgs g0 g1 Regular _ _) as [m4| | |]; cbn [bind]; try reflexivity.
  destruct (comp_apply g0 g1 Regular _ _ _ _) as [[[? ?] [? ?]]| | |]; reflexivity.
Qed.
End Run.
