(* The runs of the join's circuits give what JoinViewModel takes them to give, for some shares of party 0. *)
From Verif Require Import Base Words PrfModel PrfProofs PermModel PermCorModel PermCorProofs KeyMultModel KeyMultProofs ShuffleModel ShuffleSpec GmwModel GmwSpec GmwProofs GmwIoModel GmwIoSpec BitInjProofs AggModel AggSpec AggCirModel AggCirSpec AggCirProofs AggCirRun
  AggTwoModel AggTwoSpec AggTwoRel AggTwoTree AggRunModel AggRunProofs AggTwoScan AggViewModel AggViewHide AggViewLanes AggViewErase TableModel TableSpec OmJoinModel OmJoinSpec OmJoinProofs JoinViewModel JoinPrivSpec JoinPrivacy CtrlProofs WhereProofs JoinRunModel JoinRunSpec JoinRunCtl.

Lemma mapO_len A B (f : A -> outcome B) : forall l r, mapO f l = Ok r -> length r = length l.
Proof.
  induction l as [|a l IH]; cbn [mapO]; intros r E; [assert (r = []) as -> by congruence; reflexivity|].
  destruct (f a) as [y| | |]; cbn [bind] in E; try discriminate. destruct (mapO f l) as [ys| | |] eqn:E2; cbn [bind] in E; try discriminate. assert (r = y :: ys) as -> by congruence. cbn [length]. rewrite (IH ys eq_refl). reflexivity.
Qed.
Lemma view_bundle junk bs i g g' p b : bundle_view junk bs i g = Ok (g', p, b) -> nth_error bs i = Some b.
Proof.
  unfold bundle_view. intros E. do 3 inv_do. match goal with H : get bs i = Ok ?x |- _ => unfold get in H; destruct (nth_error bs i) as [c|]; [|discriminate H]; congruence end.
Qed.
Lemma first_bit (f : nat -> bool) : (forall k, 1 <= k < 8 -> f k = false) -> of_bits (map f (seq 0 8)) = N.b2n (f 0).
Proof. intros H. cbn [seq map]. rewrite (H 1), (H 2), (H 3), (H 4), (H 5), (H 6), (H 7) by lia. destruct (f 0); reflexivity. Qed.
(* an output of one bit is a byte that is 0 or 1 *)
Lemma output_byte junk pad i n h h' o v : get_output junk pad i 1 n 1 h = Ok (h', o) -> nth_error (gOuts h) i = Some [v] -> (forall r j, pad r j = false) ->
  o = map (fun r => [N.b2n (sbit (nth r o []) 0)]) (seq 0 n).
Proof.
  unfold get_output. intros E Ev HP. apply bind_inv in E. destruct E as (vw & E1 & E). destruct vw as [[g' [r0 o0]] b]. apply view_bundle in E1. rewrite Ev in E1. assert (b = [v]) as -> by congruence.
  cbn [Nat.mul Nat.add Nat.eqb] in E. apply bind_inv in E. destruct E as (? & _ & E). apply bind_inv in E. destruct E as (? & _ & E). apply bind_inv in E. destruct E as (mem & EM & E).
  apply mapO_len in EM. cbn [length seq] in EM.
  assert (EO : o = map (tr_out pad 1 mem) (seq 0 n)) by congruence. clear E.
  assert (HT : forall r, tr_out pad 1 mem r = [N.b2n (sbit (tr_out pad 1 mem r) 0)]).
  { intros r. unfold tr_out at 1. change (seq 0 1) with [0]. cbn [map]. rewrite first_bit.
    - unfold sbit, tr_out. change (seq 0 1) with [0]. cbn [map]. change (0 / 8) with 0. change (0 mod 8) with 0. cbn [nth]. change (N.of_nat 0) with 0%N.
      rewrite first_bit; [rewrite N.b2n_bit0; reflexivity|]. intros k Hk. rewrite (proj2 (Nat.ltb_ge _ _)) by lia. apply HP.
    - intros k Hk. rewrite (proj2 (Nat.ltb_ge _ _)) by lia. apply HP. }
  rewrite EO at 1. apply map_ext_in. intros r Hr. apply in_seq in Hr. rewrite EO, map_seq_nth by lia. apply HT.
Qed.

(* one run on rows with two inputs of bits bits and one output bit *)
Lemma gmw_rows_ok n c bits F lvs t0 t1 a0 b0 a1 b1 : runnable c [bits; bits] [1] -> computes c F -> levels_of c lvs -> 0 < n -> 0 < bits ->
  length a0 = n -> length b0 = n -> length a1 = n -> length b1 = n -> tapes_ok n lvs t0 t1 -> pad_zero t0 -> pad_zero t1 ->
  exists (o0 o1 : list bool) tr, gmw_rows n c lvs (div_ceil bits 8) t0 t1 [a0; b0] [a1; b1] = Ok ((map (fun b => [N.b2n b]) o0, map (fun b => [N.b2n b]) o1), tr) /\
    length o0 = n /\ length o1 = n /\
    forall r, r < n -> F [map (fun j => xorb (sbit (nth r a0 []) j) (sbit (nth r a1 []) j)) (seq 0 bits); map (fun j => xorb (sbit (nth r b0 []) j) (sbit (nth r b1 []) j)) (seq 0 bits)] = [[xorb (nth r o0 false) (nth r o1 false)]].
Proof.
  intros HR HF HL Hn Hb La0 Lb0 La1 Lb1 (HS & HE & HD) P0 P1. pose proof HR as (EI & EO & _).
  assert (exists ia ib, cIns c = [ia; ib] /\ length ia = bits /\ length ib = bits) as (ia & ib & EC & Li & Lj).
  { destruct (cIns c) as [|x [|y [|z l]]]; try discriminate EI. exists x, y. cbn [map] in EI. assert (length x = bits) by congruence. assert (length y = bits) by congruence. auto. }
  assert (exists v, cOuts c = [[v]]) as (v & ECo).
  { destruct (cOuts c) as [|x [|y l]]; try discriminate EO. cbn [map] in EO. destruct x as [|v [|? ?]]; try discriminate EO. exists v. reflexivity. }
  destruct (@run_rows c [bits; bits] [1] F lvs n (tpJunk t0) (tpJunk t1) (tpJunk2 t0) (tpJunk2 t1) (tpPast t0) (tpPast t1) (map (GRows 1 (div_ceil bits 8)) [a0; b0]) (map (GRows 1 (div_ceil bits 8)) [a1; b1]) [None] [None] (tpCor t0) (tpCor t1))
    as (g0 & g1 & ids0 & ids1 & h0 & h1 & G0 & G1 & GX & H); auto.
  { discriminate. }
  { rewrite EC. intros [|[|i]] b x Hx Hy; cbn [nth_error map] in Hx, Hy; try (destruct i; discriminate); (assert (x = GRows 1 (div_ceil bits 8) a0 \/ x = GRows 1 (div_ceil bits 8) b0) as [-> | ->] by (first [left; congruence|right; congruence])); cbn [given_ok];
    assert (length b = bits) as -> by congruence; (split; [lia|]); rewrite Nat.div_1_r; unfold div_ceil; rewrite Nat.mul_1_l; split; auto. }
  { rewrite EC. intros [|[|i]] b x Hx Hy; cbn [nth_error map] in Hx, Hy; try (destruct i; discriminate); (assert (x = GRows 1 (div_ceil bits 8) a1 \/ x = GRows 1 (div_ceil bits 8) b1) as [-> | ->] by (first [left; congruence|right; congruence])); cbn [given_ok];
    assert (length b = bits) as -> by congruence; (split; [lia|]); rewrite Nat.div_1_r; unfold div_ceil; rewrite Nat.mul_1_l; split; auto. }
  { split; [rewrite ECo; reflexivity|]. intros [|i] b d _ E; cbn in E; [discriminate|destruct i; discriminate]. }
  { split; [rewrite ECo; reflexivity|]. intros [|i] b d _ E; cbn in E; [discriminate|destruct i; discriminate]. }
  rewrite exec_erase in GX. destruct (gmw_exec_msg lvs (tpJunk2 t0) (tpJunk2 t1) (tpCor t0) (tpCor t1) g0 g1) as [[hh tr]| | |] eqn:GM; cbn [bind fst] in GX; try discriminate. assert (hh = (h0, h1)) as -> by congruence. clear GX.
  assert (GX : gmw_exec lvs (tpJunk2 t0) (tpJunk2 t1) (tpCor t0) (tpCor t1) g0 g1 = Ok (h0, h1)) by (rewrite exec_erase, GM; reflexivity).
  assert (HG : gOuts h0 = cOuts c /\ gOuts h1 = cOuts c) by (destruct (exec_outs GX) as [-> ->]; rewrite (prepare_outs G0), (prepare_outs G1); auto). destruct HG as [HG0 HG1].
  destruct (H 0 1 1 1 (tpJunk t0) (tpJunk t1) (tpOutPad t0 0) (tpOutPad t1 0) eq_refl (le_n 1) eq_refl) as (o0 & o1 & X0 & X1 & L0 & L1 & _ & _ & HB & _).
  exists (map (fun r => sbit (nth r o0 []) 0) (seq 0 n)), (map (fun r => sbit (nth r o1 []) 0) (seq 0 n)), tr. split; [|split; [|split]].
  - unfold gmw_rows. rewrite G0. cbn [bind]. rewrite G1. cbn [bind fst snd]. rewrite GM. cbn [bind fst snd].
    assert (OB : forall tp h o, gOuts h = cOuts c -> get_output (tpJunk tp) (tpOutPad tp 0) 0 1 n 1 h = Ok (h, o) -> get_output_bm (tpJunk tp) (tpOutPad tp 0) 0 n 1 h = Ok (h, o)).
    { intros tp h o EG X. unfold get_output_bm. rewrite EG, ECo. cbn [length Nat.ltb Nat.leb throw_if bind get nth_error Nat.eqb negb]. exact X. }
    rewrite (OB _ _ _ HG0 X0), (OB _ _ _ HG1 X1). cbn [bind snd]. do 3 f_equal; rewrite map_map.
    + apply (@output_byte _ _ _ _ _ _ _ v X0); [rewrite HG0, ECo; reflexivity|intros r j; apply P0].
    + apply (@output_byte _ _ _ _ _ _ _ v X1); [rewrite HG1, ECo; reflexivity|intros r j; apply P1].
  - rewrite map_length. apply seq_length.
  - rewrite map_length. apply seq_length.
  - intros r Hr. specialize (HB r Hr). unfold row_vals in HB. rewrite EC in HB. cbn [map combine fst snd given_bit] in HB. rewrite Li, Lj in HB.
    rewrite !map_seq_nth by exact Hr. cbn [seq map] in HB. set (X := [map _ (seq 0 bits); map _ (seq 0 bits)]) in *.
    assert (LF : map (@length bool) (F X) = [1]).
    { assert (EX : X = map (map (env_of X)) (cIns c)) by (symmetry; apply (env_of_ins (outs := [1]) HR); unfold X; cbn [map]; rewrite !map_length, seq_length; reflexivity).
      rewrite EX, <- (HF (env_of X)), map_map, ECo. reflexivity. }
    destruct (F X) as [|[|y [|? ?]] [|? ?]]; cbn [map length] in LF; try discriminate LF. cbn [nth] in HB. rewrite <- HB. reflexivity.
Qed.
