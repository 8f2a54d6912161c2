From Verif Require Import Base Words Mod3Proofs GmwModel ShuffleModel ShuffleSpec AggModel TableModel TableSpec PlainAggModel GmwProofs ShuffleSpanProofs TrimProofs.

Definition xrow (d x : list N) : list N := map2 N.lxor d x.

Lemma xor_row_ok c d x : length d = c -> length x = c -> pt_xor_row c d x = Ok (xrow d x).
Proof.
  intros Hd Hx. unfold pt_xor_row.
  set (inv := fun i (y : list N) => length y = c /\ forall k, k < i -> nth_error y k = nth_error (xrow d x) k).
  match goal with |- forN 0 c ?f ?y0 = _ => destruct (@forN_inv _ inv f c 0 y0) as [y [Hrun [L I]]] end.
  - split; [apply repeat_length|]. intros k Hk. lia.
  - intros i y Hi [L I]. destruct (nth_error d i) as [a|] eqn:Ea; [|apply nth_error_None in Ea; lia].
    destruct (nth_error x i) as [b|] eqn:Eb; [|apply nth_error_None in Eb; lia].
    unfold get. rewrite Ea, Eb. cbn [bind]. rewrite set_lt by lia. eexists. split; [reflexivity|].
    split; [rewrite upd_length; exact L|]. intros k Hk. destruct (Nat.eq_dec k i) as [->|Ne].
    + rewrite nth_error_upd_eq by lia. unfold xrow. rewrite nth_error_map2, Ea, Eb. reflexivity.
    + rewrite nth_error_upd_ne by lia. apply I. lia.
  - rewrite Hrun. f_equal. apply nth_error_ext. intros k. destruct (Nat.ltb_spec k c) as [Lk|Lk]; [apply I; exact Lk|].
    rewrite !(proj2 (nth_error_None _ _)); [reflexivity|unfold xrow; rewrite map2_length; lia|lia].
Qed.

Lemma share_rows c n d x : rows_ok n c d -> rows_ok n c x ->
  forN 0 n (fun i x1 => do a <- get d i; do b <- get x i; do r <- pt_xor_row c a b; set x1 i r) (repeat (repeat 0%N c) n)
  = Ok (map2 xrow d x).
Proof.
  intros [Ld Hd] [Lx Hx].
  set (inv := fun i (y : list (list N)) => length y = n /\ forall k, k < i -> nth_error y k = nth_error (map2 xrow d x) k).
  match goal with |- forN 0 n ?f ?y0 = _ => destruct (@forN_inv _ inv f n 0 y0) as [y [Hrun [L I]]] end.
  - split; [apply repeat_length|]. intros k Hk. lia.
  - intros i y Hi [L I]. destruct (nth_error d i) as [a|] eqn:Ea; [|apply nth_error_None in Ea; lia].
    destruct (nth_error x i) as [b|] eqn:Eb; [|apply nth_error_None in Eb; lia].
    unfold get. rewrite Ea, Eb. cbn [bind].
    rewrite Forall_forall in Hd, Hx. destruct (Hd a (nth_error_In _ _ Ea)) as [La _]. destruct (Hx b (nth_error_In _ _ Eb)) as [Lb _].
    rewrite xor_row_ok by assumption. cbn [bind]. rewrite set_lt by lia. eexists. split; [reflexivity|].
    split; [rewrite upd_length; exact L|]. intros k Hk. destruct (Nat.eq_dec k i) as [->|Ne].
    + rewrite nth_error_upd_eq by lia. rewrite nth_error_map2, Ea, Eb. reflexivity.
    + rewrite nth_error_upd_ne by lia. apply I. lia.
  - rewrite Hrun. f_equal. apply nth_error_ext. intros k. destruct (Nat.ltb_spec k n) as [Lk|Lk]; [apply I; exact Lk|].
    rewrite !(proj2 (nth_error_None _ _)); [reflexivity|rewrite map2_length; lia|lia].
Qed.

Lemma trim_rows_ok bits n c a a' : rows_ok n c a -> Forall2 (trim_rel bits) a a' -> rows_ok n c a'.
Proof.
  intros [L H] HF. split; [rewrite <- L; symmetry; apply (Forall2_length HF)|].
  clear L. induction HF as [|x y l l' Hxy HF IH]; [constructor|].
  constructor; [|apply IH; exact (Forall_inv_tail H)]. destruct (Forall_inv H) as [Lx _]. destruct Hxy as [Ly [By _]]. split; [lia|exact By].
Qed.

Lemma share_ok bits n d rnd : rows_ok n (div_ceil bits 8) d -> rows_ok n (div_ceil bits 8) rnd ->
  exists x0, Forall2 (trim_rel bits) rnd x0 /\ rows_ok n (div_ceil bits 8) x0 /\
    pt_share bits d rnd = Ok (BM bits (div_ceil bits 8) x0, BM bits (div_ceil bits 8) (map2 xrow d x0)).
Proof.
  intros Hd Hr. destruct (@bm_trim_ok (BM bits (div_ceil bits 8) rnd)) as [x0 [E HF]].
  { split; [|reflexivity]. cbn. unfold bm_n. cbn. destruct Hr as [L H]. rewrite L. split; assumption. }
  cbn [bBits bRows bCols] in *. pose proof (trim_rows_ok Hr HF) as Hx. exists x0. split; [exact HF|]. split; [exact Hx|].
  unfold pt_share. cbv zeta. rewrite E. cbn [bind bRows]. rewrite (proj1 Hd), (share_rows Hd Hx). reflexivity.
Qed.

Lemma xrow_inv d : forall x, length d = length x -> map2 N.lxor x (xrow d x) = d.
Proof.
  induction d as [|a d IH]; intros [|b x] H; cbn in H; try lia; [reflexivity|].
  unfold xrow. cbn [map2]. f_equal; [|apply IH; lia]. rewrite (N.lxor_comm a), <- N.lxor_assoc, N.lxor_nilpotent. apply N.lxor_0_l.
Qed.

Lemma xrows_inv c n d : forall x, rows_ok n c d -> rows_ok n c x -> map2 xrow x (map2 xrow d x) = d.
Proof.
  revert n. induction d as [|a d IH]; intros n [|b x] [Ld Hd] [Lx Hx]; cbn in Ld, Lx; try lia; [reflexivity|].
  cbn [map2]. destruct (Forall_inv Hd) as [La _]. destruct (Forall_inv Hx) as [Lb _].
  f_equal; [apply xrow_inv; lia|]. apply (IH (n - 1)); (split; [lia|]); [exact (Forall_inv_tail Hd)|exact (Forall_inv_tail Hx)].
Qed.

Lemma xrow_bytes a : forall b, bytes a -> bytes b -> bytes (xrow a b).
Proof.
  induction a as [|x a IH]; intros [|y b] Ha Hb; try constructor.
  - pose proof (Forall_inv Ha) as H1. pose proof (Forall_inv Hb) as H2. cbn beta in H1, H2. change 256%N with (2 ^ 8)%N in *.
    apply bits_high_pow2. intros i Hi. rewrite N.lxor_spec, (pow2_bits_high H1 Hi), (pow2_bits_high H2 Hi). reflexivity.
  - apply IH; [exact (Forall_inv_tail Ha)|exact (Forall_inv_tail Hb)].
Qed.

Lemma xrow_sbit a : forall b j, length a = length b -> sbit (xrow a b) j = xorb (sbit a j) (sbit b j).
Proof.
  intros b j H. unfold sbit, xrow. destruct (Nat.ltb_spec (j / 8) (length a)) as [L|L].
  - assert (E : nth_error (map2 N.lxor a b) (j / 8) = Some (N.lxor (nth (j / 8) a 0%N) (nth (j / 8) b 0%N))).
    { rewrite nth_error_map2, (nth_error_nth' a 0%N L), (nth_error_nth' b 0%N) by lia. reflexivity. }
    rewrite (nth_error_nth _ _ 0%N E). apply N.lxor_spec.
  - rewrite !nth_overflow by (rewrite ?map2_length; lia). rewrite !N.bits_0. reflexivity.
Qed.

Lemma share_hides bits n d y : let c := div_ceil bits 8 in
  rows_ok n c d -> rows_ok n c y -> Forall (trimmed bits) d -> Forall (trimmed bits) y ->
  exists rnd, rows_ok n c rnd /\ Forall (trimmed bits) rnd /\ (exists x0, pt_share bits d rnd = Ok (x0, BM bits c y)) /\
    forall rnd' x0', rows_ok n c rnd' -> Forall (trimmed bits) rnd' -> pt_share bits d rnd' = Ok (x0', BM bits c y) -> rnd' = rnd.
Proof.
  intros c Hd Hy Td Ty. set (rnd := map2 xrow d y).
  assert (Hr : rows_ok n c rnd /\ Forall (trimmed bits) rnd).
  { unfold rnd. clear rnd. destruct Hd as [Ld Hd], Hy as [Ly Hy]. split; [split; [rewrite map2_length; lia|]|].
    - revert y Ly Hy Ty. revert n Ld. induction d as [|a d IH]; intros n Ld [|b y] Ly Hy Ty; cbn [map2 length] in *; try lia; constructor.
      + destruct (Forall_inv Hd) as [La Ba]. destruct (Forall_inv Hy) as [Lb Bb]. split; [unfold xrow; rewrite map2_length; lia|apply xrow_bytes; assumption].
      + apply (IH (Forall_inv_tail Hd) (Forall_inv_tail Td) (n - 1)); try lia; [exact (Forall_inv_tail Hy)|exact (Forall_inv_tail Ty)].
    - revert y Ly Hy Ty. revert n Ld. induction d as [|a d IH]; intros n Ld [|b y] Ly Hy Ty; cbn [map2 length] in *; try lia; constructor.
      + destruct (Forall_inv Hd) as [La _]. destruct (Forall_inv Hy) as [Lb _]. intros j Hj. rewrite xrow_sbit by lia.
        rewrite (Forall_inv Td j Hj), (Forall_inv Ty j Hj). reflexivity.
      + apply (IH (Forall_inv_tail Hd) (Forall_inv_tail Td) (n - 1)); try lia; [exact (Forall_inv_tail Hy)|exact (Forall_inv_tail Ty)]. }
  assert (Hkey : forall r, rows_ok n c r -> Forall (trimmed bits) r -> forall x, Forall2 (trim_rel bits) r x -> x = r).
  { intros r [_ Hr'] Tr x HF. revert Hr' Tr. induction HF as [|u v l l' Huv HF IH]; intros Hr' Tr; [reflexivity|].
    f_equal; [apply (@trim_rel_eq bits u v); [apply (Forall_inv Hr')|exact (Forall_inv Tr)|exact Huv]|].
    apply IH; [exact (Forall_inv_tail Hr')|exact (Forall_inv_tail Tr)]. }
  exists rnd. split; [apply Hr|]. split; [apply Hr|]. split.
  - destruct (@share_ok bits n d rnd Hd (proj1 Hr)) as [x0 [HF [Hx E]]]. pose proof (Hkey rnd (proj1 Hr) (proj2 Hr) x0 HF) as ->.
    eexists. rewrite E. f_equal. f_equal. f_equal. unfold rnd. clear -Hd Hy.
    revert n y Hd Hy. induction d as [|a d IH]; intros n [|b y] [Ld Hd] [Ly Hy]; cbn [map2 length] in *; try lia; [reflexivity|].
    destruct (Forall_inv Hd) as [La _]. destruct (Forall_inv Hy) as [Lb _]. f_equal.
    + clear -La Lb. revert b La Lb. generalize c. clear c. induction a as [|u a IH]; intros c [|v b] La Lb; cbn [map2 length] in *; try lia; [reflexivity|].
      unfold xrow. cbn [map2]. f_equal; [rewrite <- N.lxor_assoc, N.lxor_nilpotent; apply N.lxor_0_l|]. apply (IH (c - 1)); lia.
    + apply (IH (n - 1)); (split; [lia|]); [exact (Forall_inv_tail Hd)|exact (Forall_inv_tail Hy)].
  - intros rnd' x0' Hr' Tr' E'. destruct (@share_ok bits n d rnd' Hd Hr') as [x0 [HF [Hx E]]]. rewrite E in E'.
    pose proof (Hkey rnd' Hr' Tr' x0 HF) as ->.
    assert (EY : map2 xrow d rnd' = y) by congruence. unfold rnd. rewrite <- EY. clear -Hd Hr'.
    revert n rnd' Hd Hr'. induction d as [|a d IH]; intros n [|b y] [Ld Hd] [Ly Hy]; cbn [map2 length] in *; try lia; [reflexivity|].
    destruct (Forall_inv Hd) as [La _]. destruct (Forall_inv Hy) as [Lb _]. f_equal.
    + clear -La Lb. revert b La Lb. generalize c. clear c. induction a as [|u a IH]; intros c [|v b] La Lb; cbn [map2 length] in *; try lia; [reflexivity|].
      unfold xrow. cbn [map2]. f_equal; [rewrite <- N.lxor_assoc, N.lxor_nilpotent; symmetry; apply N.lxor_0_l|]. apply (IH (c - 1)); lia.
    + apply (IH (n - 1)); (split; [lia|]); [exact (Forall_inv_tail Hd)|exact (Forall_inv_tail Hy)].
Qed.
