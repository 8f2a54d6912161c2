From Verif Require Import Base Words GmwModel ShuffleModel ShuffleSpec KeyMultModel PrfModel BitInjModel RadixModel RadixSpec BitInjProofs HadamardProofs RadixProofs.
From Verif Require Import PermSpec PermProofs PrfProofs PermCorProofs GmwProofs ShuffleSpanProofs CompressProofs CorStartProofs Mod3Proofs.

(* ---------- rows of bits ---------- *)
Lemma ceil8 a : div_ceil a 8 = (a + 7) / 8.
Proof. unfold div_ceil. f_equal. lia. Qed.

Lemma bits_bytes_length l : length (bits_bytes l) = div_ceil (length l) 8.
Proof. unfold bits_bytes. rewrite map_length, seq_length. reflexivity. Qed.
Lemma bits_bytes_bit l k : k < length l -> sbit (bits_bytes l) k = nth k l false.
Proof.
  intros Hk. unfold sbit, bits_bytes. rewrite nth_map_seq'.
  - cbn [Nat.add]. rewrite of_bits_bit. rewrite nth_firstn by (apply Nat.mod_upper_bound; lia). rewrite nth_skipn. f_equal. symmetry. apply Nat.div_mod. lia.
  - rewrite ceil8. pose proof (Nat.div_mod k 8 ltac:(lia)). pose proof (Nat.mod_upper_bound k 8 ltac:(lia)).
    assert (H1 : 8 * (k / 8) + 8 <= length l + 7) by lia.
    assert (k / 8 + 1 <= (length l + 7) / 8) by (apply Nat.div_le_lower_bound; lia). lia.
Qed.

Lemma sbit_row l rb i v : v < 8 * rb -> sbit l (8 * rb * i + v) = sbit (slice l (i * rb) rb) v.
Proof. intros H. rewrite slice_bit by exact H. f_equal. lia. Qed.

Lemma map2_lxor_bit a b k : length a = length b -> sbit (map2 N.lxor a b) k = xorb (sbit a k) (sbit b k).
Proof.
  intros H. unfold sbit. destruct (Nat.lt_ge_cases (k / 8) (length a)) as [Hk|Hk].
  - rewrite (@map2_nth _ _ _ N.lxor _ _ _ 0%N 0%N) by lia. apply N.lxor_spec.
  - rewrite !nth_overflow by (rewrite ?map2_length; lia). rewrite !N.bits_0. reflexivity.
Qed.

Lemma pow2_8 L : 3 <= L -> 2 ^ L = 8 * 2 ^ (L - 3).
Proof. intros H. replace L with (3 + (L - 3)) at 1 by lia. rewrite Nat.pow_add_r. reflexivity. Qed.
Lemma row_bytes L : div_ceil (2 ^ L) 8 = if L <=? 3 then 1 else 2 ^ (L - 3).
Proof.
  destruct (Nat.leb_spec L 3) as [H|H].
  - destruct L as [|[|[|[|]]]]; try reflexivity. lia.
  - rewrite (@pow2_8 L) by lia. rewrite ceil8. rewrite (Nat.mul_comm 8), Nat.div_add_l by lia. replace (7 / 8) with 0 by reflexivity. lia.
Qed.
Lemma row_fits L : 2 ^ L <= 8 * div_ceil (2 ^ L) 8.
Proof.
  rewrite ceil8. pose proof (Nat.div_mod (2 ^ L + 7) 8 ltac:(lia)). pose proof (Nat.mod_upper_bound (2 ^ L + 7) 8 ltac:(lia)). lia.
Qed.

(* ---------- packing ---------- *)
Lemma or_fold_bit w m : forall (l : list N) a v, a < length l -> v < w -> m = N.ones (N.of_nat w) ->
  N.testbit (fold_right (fun x acc => N.lor (N.land x m) (N.shiftl acc (N.of_nat w))) 0%N l) (N.of_nat (a * w + v)) = N.testbit (nth a l 0%N) (N.of_nat v).
Proof.
  induction l as [|x l IH]; intros a v Ha Hv Hm; cbn [length] in Ha; [lia|]. cbn [fold_right]. rewrite N.lor_spec, N.land_spec.
  destruct a as [|a].
  - cbn [Nat.mul Nat.add nth]. subst m. rewrite N.ones_spec_low by lia. rewrite andb_true_r. rewrite N.shiftl_spec_low by lia. apply orb_false_r.
  - cbn [nth]. replace (N.testbit m (N.of_nat (S a * w + v))) with false by (subst m; rewrite N.ones_spec_high by nia; reflexivity).
    rewrite andb_false_r. cbn [orb]. rewrite N.shiftl_spec_high' by nia. rewrite <- (IH a v) by (lia || assumption). f_equal. nia.
Qed.

(* bits of the packed array *)
Definition packed (w q : nat) (d d' : list N) (n : nat) : Prop :=
  forall i v, i < n -> v < w -> N.testbit (nth (i / q) d' 0%N) (N.of_nat (i mod q * w + v)) = N.testbit (nth i d 0%N) (N.of_nat v).

Lemma pack_rows_ok L n d : L = 1 \/ L = 2 -> n <= length d ->
  exists d', pack_rows L n d = Ok d' /\ length d' = length d /\ packed (2 ^ L) (8 / 2 ^ L) d d' n.
Proof.
  intros HL Hn. unfold pack_rows. cbv zeta. remember (2 ^ L) as w eqn:Ew. remember (8 / w) as q eqn:Eq.
  assert (Hw : q * w = 8 /\ 2 <= q /\ 2 <= w) by (destruct HL; subst; cbn; lia). destruct Hw as (Hqw & Hq & Hw).
  pose proof (Nat.div_mod n q ltac:(lia)) as Dn. pose proof (Nat.mod_upper_bound n q ltac:(lia)) as Bn.
  set (m := N.ones (N.of_nat w)). set (pk := fun x => fold_right (fun v acc => N.lor (N.land v m) (N.shiftl acc (N.of_nat w))) 0%N x).
  destruct (@forN_inv _ (fun k d' => length d' = length d /\ (forall i, k <= i -> nth i d' 0%N = nth i d 0%N) /\
       forall i, i < k -> nth i d' 0%N = pk (slice d (q * i) q))
    (fun i d => do x <- readN d (q * i) q; set d i (pk x)) (n / q) 0 d) as (d1 & E1 & L1 & S1 & P1).
  - split; [reflexivity|]. split; [intros; reflexivity|intros; lia].
  - intros k d' Hk (L' & S' & P'). rewrite readN_ok by nia. cbn [bind].
    assert (ES : slice d' (q * k) q = slice d (q * k) q).
    { apply nth_ext with 0%N 0%N; [rewrite !slice_length by nia; reflexivity|]. rewrite slice_length by nia. intros t Ht.
      rewrite !slice_nth by exact Ht. apply S'. nia. }
    rewrite ES. rewrite set_lt by nia. eexists. split; [reflexivity|]. split; [rewrite upd_length; exact L'|]. split.
    + intros i Hi. rewrite nth_upd by nia. replace (k =? i) with false by lia. apply S'. lia.
    + intros i Hi. rewrite nth_upd by nia. destruct (Nat.eqb_spec k i) as [<-|Hne]; [reflexivity|]. apply P'. lia.
  - cbn [Nat.add] in *. match goal with |- context [bind ?e _] => change e with (forN 0 (n / q) (fun i d => do x <- readN d (q * i) q; set d i (pk x)) d) end.
    rewrite E1. cbn [bind]. remember (n / q) as e eqn:Ee. remember (n mod q) as rr eqn:Err.
    destruct (@forN_inv _ (fun j d' => length d' = length d /\ (forall i, i <> e -> nth i d' 0%N = nth i d1 0%N) /\
         (j = 0 -> nth e d' 0%N = nth e d1 0%N) /\
         (0 < j -> forall a v, a < j -> v < w -> N.testbit (nth e d' 0%N) (N.of_nat (a * w + v)) = N.testbit (nth (q * e + a) d 0%N) (N.of_nat v)) /\
         (0 < j -> forall t, j * w <= t -> N.testbit (nth e d' 0%N) (N.of_nat t) = false))
      (fun j d => do s <- get d (q * e + j); do o <- get d e;
         set d e (N.lor (N.shiftl (N.land s m) (N.of_nat (w * j))) (if j =? 0 then 0%N else o))) rr 0 d1) as (d2 & E2 & L2 & S2 & Z2 & P2 & H2).
    + split; [exact L1|]. split; [intros; reflexivity|]. split; [intros; reflexivity|]. split; intros; lia.
    + intros j d' Hj (L' & S' & Z' & P' & H'). rewrite (get_ok 0%N) by nia. cbn [bind]. rewrite (get_ok 0%N) by nia. cbn [bind].
      assert (ES : nth (q * e + j) d' 0%N = nth (q * e + j) d 0%N).
      { destruct (Nat.eq_dec (q * e + j) e) as [Ez|Ez].
        - assert (j = 0) by nia. rewrite Ez. rewrite Z' by assumption. apply S1. lia.
        - rewrite S' by exact Ez. apply S1. nia. }
      rewrite ES. rewrite set_lt by nia. eexists. split; [reflexivity|]. split; [rewrite upd_length; exact L'|]. split; [|split; [|split]].
      * intros i Hi. rewrite nth_upd by nia. replace (e =? i) with false by lia. apply S'. exact Hi.
      * lia.
      * intros _ a v Ha Hv. rewrite nth_upd by nia. rewrite Nat.eqb_refl. rewrite N.lor_spec.
        destruct (Nat.eq_dec a j) as [->|Haj].
        -- rewrite N.shiftl_spec_high' by nia. replace (N.of_nat (j * w + v) - N.of_nat (w * j))%N with (N.of_nat v) by nia.
           rewrite N.land_spec. unfold m. rewrite N.ones_spec_low by lia. rewrite andb_true_r.
           destruct (Nat.eqb_spec j 0) as [Ej|Ej]; [rewrite N.bits_0; apply orb_false_r|]. rewrite H' by nia. apply orb_false_r.
        -- rewrite N.shiftl_spec_low by nia. cbn [orb]. destruct (Nat.eqb_spec j 0) as [Ej|Ej]; [lia|]. apply P'; lia.
      * intros _ t Ht. rewrite nth_upd by nia. rewrite Nat.eqb_refl. rewrite N.lor_spec. rewrite N.shiftl_spec_high' by nia. rewrite N.land_spec.
        unfold m. rewrite N.ones_spec_high by nia. rewrite andb_false_r. cbn [orb].
        destruct (Nat.eqb_spec j 0) as [Ej|Ej]; [apply N.bits_0|]. apply H'; nia.
    + match goal with |- exists d', ?f = _ /\ _ => change f with (forN 0 rr (fun j d => do s <- get d (q * e + j); do o <- get d e;
         set d e (N.lor (N.shiftl (N.land s m) (N.of_nat (w * j))) (if j =? 0 then 0%N else o))) d1) end.
      rewrite E2. exists d2. split; [reflexivity|]. split; [exact L2|]. intros i v Hi Hv. cbn [Nat.add] in *.
      pose proof (Nat.div_mod i q ltac:(lia)) as Di. pose proof (Nat.mod_upper_bound i q ltac:(lia)) as Bi.
      destruct (Nat.eq_dec (i / q) e) as [Eie|Eie].
      * rewrite Eie. rewrite P2 by nia. f_equal. f_equal. nia.
      * assert (Hlt : i / q < e) by nia. rewrite S2 by exact Eie. rewrite P1 by exact Hlt. unfold pk.
        rewrite (@or_fold_bit w m) by (rewrite ?slice_length by nia; assumption || reflexivity).
        rewrite slice_nth by exact Bi. f_equal. f_equal. nia.
Qed.

Lemma pack_fbin_ok L n d : 0 < L -> length d = n * div_ceil (2 ^ L) 8 ->
  exists d', pack_fbin L n d = Ok d' /\ n * 2 ^ L <= 8 * length d' /\ length d' = div_ceil (n * 2 ^ L) 8 /\
    forall i v, i < n -> v < 2 ^ L -> sbit d' (i * 2 ^ L + v) = sbit d (8 * div_ceil (2 ^ L) 8 * i + v).
Proof.
  intros HL Hd. unfold pack_fbin. destruct (Nat.leb_spec L 2) as [H2|H2].
  - assert (HL' : L = 1 \/ L = 2) by lia.
    assert (E1 : div_ceil (2 ^ L) 8 = 1) by (rewrite row_bytes; replace (L <=? 3) with true by lia; reflexivity). rewrite E1 in *.
    destruct (@pack_rows_ok L n d HL') as (d1 & E & Ld & P); [lia|]. rewrite E. cbn [bind].
    assert (Hw : 2 ^ L <= 4) by (destruct HL'; subst; cbn; lia).
    assert (Hceil : div_ceil (n * 2 ^ L) 8 <= n).
    { rewrite ceil8. remember (2 ^ L) as w. assert ((n * w + 7) / 8 < S n) by (apply Nat.div_lt_upper_bound; nia). lia. }
    assert (Hfit : n * 2 ^ L <= 8 * div_ceil (n * 2 ^ L) 8).
    { rewrite ceil8. pose proof (Nat.div_mod (n * 2 ^ L + 7) 8 ltac:(lia)). pose proof (Nat.mod_upper_bound (n * 2 ^ L + 7) 8 ltac:(lia)). lia. }
    rewrite readN_ok by lia. eexists. split; [reflexivity|]. rewrite slice_length by lia. split; [exact Hfit|]. split; [reflexivity|].
    intros i v Hi Hv. assert (Hb : i * 2 ^ L + v < n * 2 ^ L) by nia.
    rewrite slice_bit by (cbn [Nat.mul Nat.add]; lia). cbn [Nat.mul Nat.add]. specialize (P i v Hi Hv).
    assert (Dv : 8 * i + v = 8 * i + v) by reflexivity.
    assert (Hv8 : v < 8) by lia. unfold sbit.
    replace ((i + (i + (i + (i + (i + (i + (i + (i + 0))))))) + v)) with (8 * i + v) by lia.
    rewrite <- (Nat.div_unique (8 * i + v) 8 i v Hv8 eq_refl), <- (Nat.mod_unique (8 * i + v) 8 i v Hv8 eq_refl).
    rewrite <- P. remember (2 ^ L) as w eqn:Ew. remember (8 / w) as q eqn:Eq.
    assert (Hqw : q * w = 8 /\ 2 <= q /\ 2 <= w) by (destruct HL'; subst; cbn; lia). destruct Hqw as (Hqw & Hq & Hw2).
    pose proof (Nat.div_mod i q ltac:(lia)) as Di. pose proof (Nat.mod_upper_bound i q ltac:(lia)) as Bi.
    assert (Hs : i mod q * w + v < 8) by nia. assert (Es : i * w + v = 8 * (i / q) + (i mod q * w + v)) by nia.
    rewrite <- (Nat.div_unique _ _ _ _ Hs Es), <- (Nat.mod_unique _ _ _ _ Hs Es). reflexivity.
  - exists d. rewrite row_bytes in *. pose proof (@pow2_8 L ltac:(lia)) as E8.
    assert (ER : (if L <=? 3 then 1 else 2 ^ (L - 3)) = 2 ^ (L - 3)) by (destruct (Nat.leb_spec L 3); [replace L with 3 by lia; reflexivity|reflexivity]).
    rewrite ER in *. split; [reflexivity|]. split; [rewrite Hd, E8; lia|]. split.
    + rewrite Hd, E8, ceil8. replace (n * (8 * 2 ^ (L - 3)) + 7) with (n * 2 ^ (L - 3) * 8 + 7) by lia. rewrite Nat.div_add_l by lia. replace (7 / 8) with 0 by reflexivity. lia.
    + intros i v Hi Hv. rewrite <- E8. f_equal. lia.
Qed.

(* ---------- the flags ---------- *)
Definition digit (L : nat) (k0 k1 : list N) (i : nat) : nat := N.to_nat ((N.lxor (nth i k0 0%N) (nth i k1 0%N)) mod 2 ^ N.of_nat L).

Lemma digit_lt L k0 k1 i : digit L k0 k1 i < 2 ^ L.
Proof.
  unfold digit. pose proof (N.mod_lt (N.lxor (nth i k0 0%N) (nth i k1 0%N)) (2 ^ N.of_nat L) ltac:(apply N.pow_nonzero; discriminate)) as Hm.
  rewrite <- (Nat2N.inj_pow 2 L : N.of_nat (2 ^ L) = (2 ^ N.of_nat L)%N) in *. lia.
Qed.

Lemma one_bit k : (k < 2)%N -> k = 0%N \/ k = 1%N.
Proof. intros H. destruct k as [|[|[]|]]; auto; exfalso; lia. Qed.

Lemma gen_fbin_ok L n k0 k1 r : 0 < L -> length k0 = n -> length k1 = n ->
  (L = 1 -> Forall (fun k => (k < 2)%N) k0 /\ Forall (fun k => (k < 2)%N) k1) ->
  length r = n * div_ceil (2 ^ L) 8 ->
  exists b0 b1, gen_fbin L n k0 k1 r = Ok (b0, b1) /\ length b0 = n * div_ceil (2 ^ L) 8 /\ length b1 = n * div_ceil (2 ^ L) 8 /\
    forall i v, i < n -> v < 2 ^ L ->
      xorb (sbit b0 (8 * div_ceil (2 ^ L) 8 * i + v)) (sbit b1 (8 * div_ceil (2 ^ L) 8 * i + v)) = (v =? digit L k0 k1 i).
Proof.
  intros HL L0 L1 Hone Hr. unfold gen_fbin. destruct (Nat.eqb_spec L 1) as [->|HL1].
  - destruct (Hone eq_refl) as [F0 F1]. rewrite Forall_forall in F0, F1.
    set (g0 := fun i => let k := nth i k0 0%N in N.lor (N.shiftl k 1) (N.land k 1)).
    set (g1 := fun i => let k := nth i k1 0%N in N.lor (N.shiftl k 1) (N.lxor (N.land k 1) 1)).
    rewrite (@mapM_seq _ _ g0).
    2:{ intros i Hi. rewrite (get_ok 0%N) by lia. cbn [bind]. assert (nth i k0 0 < 2)%N by (apply F0, nth_In; lia). replace (2 <=? nth i k0 0)%N with false by lia. reflexivity. }
    cbn [bind]. rewrite (@mapM_seq _ _ g1).
    2:{ intros i Hi. rewrite (get_ok 0%N) by lia. cbn [bind]. assert (nth i k1 0 < 2)%N by (apply F1, nth_In; lia). replace (2 <=? nth i k1 0)%N with false by lia. reflexivity. }
    cbn [bind]. eexists _, _. split; [reflexivity|]. change (div_ceil (2 ^ 1) 8) with 1. split; [rewrite map_length, seq_length; lia|]. split; [rewrite map_length, seq_length; lia|].
    intros i v Hi Hv. assert (Hv8 : v < 8) by (cbn in Hv; lia). unfold sbit. rewrite Nat.mul_1_r.
    rewrite <- (Nat.div_unique (8 * i + v) 8 i v Hv8 eq_refl), <- (Nat.mod_unique (8 * i + v) 8 i v Hv8 eq_refl).
    rewrite !nth_map_seq' by exact Hi. cbn [Nat.add]. unfold g0, g1, digit.
    assert (nth i k0 0 < 2)%N as B0 by (apply F0, nth_In; lia). assert (nth i k1 0 < 2)%N as B1 by (apply F1, nth_In; lia).
    apply one_bit in B0, B1. destruct B0 as [-> | ->], B1 as [-> | ->]; destruct v as [|[|v]]; try (cbn in Hv; lia); reflexivity.
  - rewrite L0, L1, Nat.eqb_refl. cbn [andb negb throw_if bind].
    set (g := fun i => map (fun v => v =? digit L k0 k1 i) (seq 0 (2 ^ L))).
    rewrite (@mapM_seq _ _ g).
    2:{ intros i Hi. rewrite (get_ok 0%N) by lia. cbn [bind]. rewrite (get_ok 0%N) by lia. cbn [bind]. rewrite one_hot_ok by exact HL. reflexivity. }
    cbn [bind]. rewrite Hr, Nat.eqb_refl. cbn [negb throw_if bind].
    set (rb := div_ceil (2 ^ L) 8) in *.
    assert (LB : forall x, In x (map bits_bytes (map g (seq 0 n))) -> length x = rb).
    { intros x Hx. apply in_map_iff in Hx. destruct Hx as (y & <- & Hy). apply in_map_iff in Hy. destruct Hy as (i & <- & _).
      rewrite bits_bytes_length. unfold g. rewrite map_length, seq_length. reflexivity. }
    assert (LC : length (concat (map bits_bytes (map g (seq 0 n)))) = n * rb).
    { rewrite (concat_length LB). rewrite !map_length, seq_length. reflexivity. }
    eexists _, _. split; [reflexivity|]. split; [exact Hr|]. split; [rewrite map2_length; lia|].
    intros i v Hi Hv. assert (Hv8 : v < 8 * rb) by (unfold rb; pose proof (row_fits L); lia).
    rewrite map2_lxor_bit by lia. rewrite <- xorb_assoc, xorb_nilpotent, xorb_false_l.
    rewrite sbit_row by exact Hv8. rewrite (slice_concat LB) by (rewrite !map_length, seq_length; exact Hi).
    rewrite map_map. rewrite nth_map_seq' by exact Hi. cbn [Nat.add]. rewrite bits_bytes_bit by (unfold g; rewrite map_length, seq_length; exact Hv).
    unfold g. rewrite nth_map_seq' by exact Hv. reflexivity.
Qed.

Lemma gen_val_masks_ok L n k0 k1 r ss rs : 0 < L -> length k0 = n -> length k1 = n ->
  (L = 1 -> Forall (fun k => (k < 2)%N) k0 /\ Forall (fun k => (k < 2)%N) k1) ->
  length r = n * div_ceil (2 ^ L) 8 -> ots_ok (n * 2 ^ L) ss rs ->
  exists b0 b1 f0 f1, gen_val_masks L n L n k0 k1 r ss rs = Ok ((b0, b1), (f0, f1)) /\
    n * 2 ^ L <= 8 * length b0 /\ n * 2 ^ L <= 8 * length b1 /\ length f0 = n * 2 ^ L /\ length f1 = n * 2 ^ L /\
    forall i v, i < n -> v < 2 ^ L ->
      xorb (sbit b0 (i * 2 ^ L + v)) (sbit b1 (i * 2 ^ L + v)) = (v =? digit L k0 k1 i) /\
      shares_bit 32 (v =? digit L k0 k1 i) (nth (i * 2 ^ L + v) f0 0%N) (nth (i * 2 ^ L + v) f1 0%N).
Proof.
  intros HL L0 L1 Hone Hr Hots. unfold gen_val_masks. rewrite !Nat.eqb_refl. cbn [negb throw_if bind].
  destruct (@gen_fbin_ok L n k0 k1 r HL L0 L1 Hone Hr) as (b0 & b1 & E & B0 & B1 & HB). rewrite E. cbn [bind fst snd].
  destruct (@pack_fbin_ok L n b0 HL B0) as (p0 & E0 & G0 & C0 & P0). rewrite E0. cbn [bind].
  destruct (@pack_fbin_ok L n b1 HL B1) as (p1 & E1 & G1 & C1 & P1). rewrite E1. cbn [bind].
  destruct (@bit_inject_ok 1 (n * 2 ^ L) (n * 2 ^ L) 1 (length p0) p0 p1 32 ss rs) as (o0 & o1 & EO & LO0 & LO1 & HO);
    [lia|reflexivity|lia|lia|lia|left; reflexivity|rewrite Nat.mul_1_l; exact Hots|].
  rewrite EO. cbn [bind]. exists p0, p1, o0, o1. rewrite Nat.mul_1_l in *.
  split; [reflexivity|]. split; [exact G0|]. split; [exact G1|]. split; [exact LO0|]. split; [exact LO1|].
  intros i v Hi Hv. assert (EX : xorb (sbit p0 (i * 2 ^ L + v)) (sbit p1 (i * 2 ^ L + v)) = (v =? digit L k0 k1 i)) by (rewrite P0, P1 by assumption; apply HB; assumption).
  split; [exact EX|]. rewrite <- EX. apply (HO 0 (i * 2 ^ L + v)); [lia|nia].
Qed.
