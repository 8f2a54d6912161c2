(* The runs of the circuits of a group by give what GroupByModel takes them to give, for some shares of party 0. *)
From Verif Require Import Base Words PrfModel PrfProofs PermModel PermCorModel PermCorProofs KeyMultModel KeyMultProofs ShuffleModel ShuffleSpec GmwModel GmwSpec GmwProofs GmwIoModel GmwIoSpec BitInjProofs RadixModel RadixSpec AggModel AggSpec AggProofs AggCirModel AggCirSpec AggCirProofs AggCirBuild AggCirAdd AggCirRun
  AggTwoModel AggTwoSpec AggTwoRel AggTwoTree AggRunModel AggRunProofs AggTwoScan AggViewModel TableModel TableSpec TrimProofs TableProofs OmJoinModel OmJoinSpec PackProofs OmJoinProofs CtrlProofs WhereProofs JoinRunModel JoinRunSpec JoinRunCtl JoinRunStages JoinRunChain GroupByModel GroupBySpec GroupByArith
  HexProofs BinFileProofs CompressProofs GroupByRunModel GroupByRunSpec PropsAggCir PropsAggTwo PropsAggView.

(* ---- the control bits ---- *)
Lemma row_len n c d i : rows_ok n c d -> i < n -> length (nth i d []) = c.
Proof. intros [L F] Hi. rewrite Forall_forall in F. apply F, nth_In. lia. Qed.
Lemma skeys_rows n c off size d : rows_ok n c d -> off + size <= c -> skeys off size d = Ok (repeat 0%N size :: map (fun r => slice r off size) d).
Proof.
  intros [_ F] H. unfold skeys. rewrite (@mapM_ok _ _ _ (fun r => slice r off size)); [reflexivity|]. intros r Hr. rewrite Forall_forall in F. apply readN_ok. rewrite (proj1 (F r Hr)). exact H.
Qed.
Lemma control_any n c bits off lvs t Z0 Z1 : 0 < n -> 0 < bits -> off + div_ceil bits 8 <= c -> lists_levels (control_circuit bits) lvs -> pad_zero (fst t) -> pad_zero (snd t) -> tapes_ok n lvs (fst t) (snd t) ->
  rows_ok n c Z0 -> rows_ok n c Z1 ->
  exists o0 o1 tr p0 p1, control_run bits off lvs t (Z0, Z1) = Ok ((map N.b2n o0, map N.b2n o1), tr) /\ length o0 = n /\
    set (map N.b2n o0) 0 0%N = Ok p0 /\ set (map N.b2n o1) 0 0%N = Ok p1 /\ length p0 = n /\ length p1 = n /\ om_control bits off o0 (Z0, Z1) = Ok (p0, p1).
Proof.
  intros Hn Hb Hc HL P0 P1 HT H0 H1. destruct (control_circuit_ok Hb) as (gs & m & Ec & _ & _). destruct (control_runnable Hb Ec) as (HR & HF & EO & EI). specialize (HL _ Ec).
  set (size := div_ceil bits 8) in *. set (s0 := repeat 0%N size :: map (fun r => slice r off size) Z0). set (s1 := repeat 0%N size :: map (fun r => slice r off size) Z1).
  assert (L0 : length s0 = S n) by (unfold s0; cbn [length]; rewrite map_length, (proj1 H0); reflexivity). assert (L1 : length s1 = S n) by (unfold s1; cbn [length]; rewrite map_length, (proj1 H1); reflexivity).
  destruct (@gmw_rows_ok n _ bits (same_low bits) lvs (fst t) (snd t) (firstn n s0) (skipn 1 s0) (firstn n s1) (skipn 1 s1) HR HF HL) as (o0 & o1 & tr & E & Lo0 & Lo1 & HO); try assumption; try lia; rewrite ?firstn_length, ?skipn_length; try lia.
  assert (LE : forall i, i < S n -> length (nth i s0 []) = length (nth i s1 [])).
  { intros [|i] Hi; [reflexivity|]. unfold s0, s1. cbn [nth]. rewrite !(@nth_map' _ _ _ _ i []) by (rewrite ?(proj1 H0), ?(proj1 H1); lia). unfold slice. rewrite !firstn_length, !skipn_length, (row_len (i := i) H0), (row_len (i := i) H1) by lia. reflexivity. }
  set (k := xor_rows s0 s1). assert (LK : length k = S n) by (unfold k, xor_rows; rewrite map2_length; lia).
  assert (KX : forall i, i < S n -> nth i k [] = map2 N.lxor (nth i s0 []) (nth i s1 [])) by (intros i Hi; unfold k, xor_rows; apply (@map2_nth _ _ _ (map2 N.lxor) _ _ i [] []); lia).
  set (out := map2 (fun a b => eval gs (row_env bits a b) (2 * bits)) (firstn n k) (skipn 1 k)).
  assert (Lout : length out = n) by (unfold out; rewrite map2_length, firstn_length, skipn_length; lia).
  assert (E1 : o1 = map2 xorb o0 out).
  { apply (@list_eq_nth _ false); [rewrite map2_length; lia|]. intros r Hr. rewrite Lo1 in Hr. rewrite (@map2_nth _ _ _ xorb _ _ r false false) by lia.
    assert (EV : nth r out false = xorb (nth r o0 false) (nth r o1 false)).
    { specialize (HO r Hr). unfold out. rewrite (@map2_nth _ _ _ _ (firstn n k) (skipn 1 k) r [] []) by (rewrite ?firstn_length, ?skipn_length; lia).
      set (ka := nth r (firstn n k) []). set (kb := nth r (skipn 1 k) []).
      pose proof (HF (row_env bits ka kb)) as EF. rewrite EO, EI in EF. cbn [cGates map] in EF.
      assert (NF : forall (A : Type) (l : list A) i d, i < n -> nth i (firstn n l) d = nth i l d).
      { clear. intros A l i d. revert n i. induction l as [|x l IH]; intros [|n] [|i] H; try lia; cbn [firstn nth]; try reflexivity. apply IH. lia. }
      assert (X1 : map (row_env bits ka kb) (seq 0 bits) = map (fun j => xorb (sbit (nth r (firstn n s0) []) j) (sbit (nth r (firstn n s1) []) j)) (seq 0 bits)).
      { apply map_ext_in. intros j Hj. apply in_seq in Hj. unfold row_env. rewrite (proj2 (Nat.ltb_lt _ _)) by lia. unfold ka. rewrite !NF by exact Hr. rewrite KX by lia. apply sbit_lxor, LE. lia. }
      assert (X2 : map (row_env bits ka kb) (seq bits bits) = map (fun j => xorb (sbit (nth r (skipn 1 s0) []) j) (sbit (nth r (skipn 1 s1) []) j)) (seq 0 bits)).
      { apply (@list_eq_nth _ false); [rewrite !map_length, !seq_length; reflexivity|]. intros j Hj. rewrite map_length, seq_length in Hj. rewrite map_seq_nth by exact Hj. rewrite (@nth_map' _ _ _ (seq bits bits) j 0) by (rewrite seq_length; exact Hj). rewrite seq_nth by exact Hj.
        unfold row_env. rewrite (proj2 (Nat.ltb_ge _ _)) by lia. replace (bits + j - bits) with j by lia. unfold kb. rewrite !nth_skipn. rewrite KX by lia. apply sbit_lxor, LE. lia. }
      rewrite X1, X2, HO in EF. congruence. }
    rewrite EV. destruct (nth r o0 false), (nth r o1 false); reflexivity. }
  assert (S0 : forall o : list bool, length o = n -> set (map N.b2n o) 0 0%N = Ok (upd (map N.b2n o) 0 0%N)) by (intros o Lo; unfold set; rewrite map_length, Lo, (proj2 (Nat.ltb_lt _ _)) by lia; reflexivity).
  exists o0, o1, tr, (upd (map N.b2n o0) 0 0%N), (upd (map N.b2n o1) 0 0%N).
  split; [|split; [exact Lo0|]; split; [apply S0, Lo0|]; split; [apply S0, Lo1|]; split; [rewrite upd_length, map_length; exact Lo0|]; split; [rewrite upd_length, map_length; exact Lo1|]].
  - unfold control_run. rewrite Ec. cbn [bind fst snd]. fold size. rewrite (@skeys_rows n c), (@skeys_rows n c) by assumption. cbn [bind]. fold s0. fold s1. rewrite (proj1 H0).
    unfold size. rewrite E. cbn [bind fst snd]. rewrite !hd_bytes. reflexivity.
  - unfold om_control. rewrite Ec. cbn [bind fst snd]. fold size. rewrite (@skeys_rows n c), (@skeys_rows n c) by assumption. cbn [bind]. fold s0. fold s1. rewrite (proj1 H0). fold k. cbn [cGates]. fold out.
    rewrite <- E1. rewrite (S0 o0 Lo0), (S0 o1 Lo1). reflexivity.
Qed.

(* ---- the flags ---- *)
Definition nand_fun (xs : list (list bool)) : list (list bool) := match xs with [a; b] => [[negb (nth 0 a false) && nth 0 b false]] | _ => [] end.
Lemma flag_good : runnable flag_circuit [1; 1] [1] /\ computes flag_circuit nand_fun.
Proof.
  split; [|intros e; reflexivity].
  split; [reflexivity|]. split; [reflexivity|]. split; [reflexivity|]. split; [split; [intros i [->|[_ ->]]; cbn; auto|split; [cbn; intros [H|[H|[]]]; discriminate H|exact I]]|]. split.
  - intros g [<-|[]]. cbn. split; [discriminate|]. lia.
  - intros v [<-|[]]. eexists. split; [left; reflexivity|reflexivity].
Qed.
Lemma flags_any n lvs t p0 p1 f0 f1 : 0 < n -> levels_of flag_circuit lvs -> pad_zero (fst t) -> pad_zero (snd t) -> tapes_ok n lvs (fst t) (snd t) -> length p0 = n -> length p1 = n -> length f0 = n -> length f1 = n ->
  exists mk tr, length mk = n /\ gb_flags_run lvs t (p0, p1) f0 f1 = Ok (gb_flags mk (p0, p1) f0 f1, tr).
Proof.
  intros Hn HL P0 P1 HT Lp0 Lp1 Lf0 Lf1. destruct flag_good as [HR HF]. set (one := map (fun x : N => [x])). set (bit := map (fun b => [N.b2n b])).
  destruct (@gmw_rows_ok n flag_circuit 1 nand_fun lvs (fst t) (snd t) (one p0) (bit f0) (one p1) (bit f1) HR HF HL) as (b0 & b1 & tr & E & Lb0 & Lb1 & HO); try assumption; try lia; try (unfold one, bit; rewrite map_length; assumption).
  exists b0, tr. split; [exact Lb0|].
  unfold gb_flags_run. fold one. fold bit. cbn [fst snd]. rewrite Lf0. change (div_ceil 1 8) with 1 in E. rewrite E. cbn [bind fst snd]. rewrite !hd_bytes. unfold gb_flags. cbn [fst snd]. do 4 f_equal.
  set (v := map2 _ (map2 xbit p0 p1) (map2 xorb f0 f1)). assert (Lv : length v = n) by (unfold v; rewrite !map2_length; lia).
  apply (@list_eq_nth _ false); [rewrite map2_length; lia|]. intros r Hr. rewrite Lb1 in Hr. rewrite (@map2_nth _ _ _ xorb _ _ r false false) by lia.
  unfold v. rewrite (@map2_nth _ _ _ _ (map2 xbit p0 p1) (map2 xorb f0 f1) r false false) by (rewrite map2_length; lia). rewrite (@map2_nth _ _ _ xbit _ _ r 0%N 0%N) by lia. rewrite (@map2_nth _ _ _ xorb f0 f1 r false false) by lia.
  specialize (HO r Hr). unfold nand_fun in HO. cbn [seq map nth] in HO. unfold one, bit in HO. rewrite !(@nth_map' _ _ (fun x : N => [x]) _ r 0%N) in HO by lia. rewrite !(@nth_map' _ _ (fun b => [N.b2n b]) _ r false) in HO by lia. rewrite !sbit_one in HO.
  assert (X : forall a b, xbit a b = xorb (N.odd a) (N.odd b)) by (intros; unfold xbit; rewrite <- !N.bit0_odd; apply N.lxor_spec). rewrite X.
  assert (OB : forall b, N.odd (N.b2n b) = b) by (intros []; reflexivity). rewrite !OB in HO.
  set (c := xorb (N.odd (nth r p0 0%N)) (N.odd (nth r p1 0%N))) in *. set (f := xorb (nth r f0 false) (nth r f1 false)) in *.
  assert (EE : eval (cGates flag_circuit) (fun w => if w =? 0 then c else f) 2 = negb c && f) by (destruct c, f; reflexivity).
  assert (HO' : negb c && f = xorb (nth r b0 false) (nth r b1 false)) by congruence. rewrite EE, HO'. destruct (nth r b0 false), (nth r b1 false); reflexivity.
Qed.
