From Coq Require Import Btauto.
From Verif Require Import Base Words Mod3Model F2CodeModel F2CodeSpec PermProofs Mod3Proofs.

Lemma xsum_app l m : xsum (l ++ m) = N.lxor (xsum l) (xsum m).
Proof.
  induction l as [|a l IH]; cbn [app xsum fold_right]. - rewrite N.lxor_0_l. reflexivity.
  - fold (xsum (l ++ m)) (xsum l). rewrite IH, N.lxor_assoc. reflexivity.
Qed.

Lemma xsum_snoc l a : xsum (l ++ [a]) = N.lxor (xsum l) a.
Proof. rewrite xsum_app. cbn [xsum fold_right]. rewrite N.lxor_0_r. reflexivity. Qed.

Lemma map_seq_shift A (f : nat -> A) n a b : map f (seq (a + b) n) = map (fun k => f (a + k)) (seq b n).
Proof.
  revert b. induction n as [|n IH]; intros b; cbn [seq map]; auto. f_equal.
  rewrite <- IH. f_equal. f_equal. lia.
Qed.

Lemma xsum_chunks (f : nat -> N) w : forall m,
  xsum (map f (seq 0 (w * m))) = xsum (map (fun i => xsum (map (fun k => f (w * i + k)) (seq 0 w))) (seq 0 m)).
Proof.
  induction m as [|m IH].
  - rewrite Nat.mul_0_r. reflexivity.
  - replace (w * S m) with (w * m + w) by lia. rewrite seq_app, map_app, xsum_app, IH.
    rewrite seq_S, map_app, xsum_app. f_equal. cbn [map xsum fold_right Nat.add].
    rewrite N.lxor_0_r. f_equal. rewrite <- (map_seq_shift f w (w * m) 0). f_equal. f_equal. lia.
Qed.

(* value of a table entry *)
Definition entry (G : list N) (i j : nat) : N :=
  xsum (map (fun k => if N.testbit (N.of_nat j) (N.of_nat k) then nth (8 * i + k) G 0%N else 0%N) (seq 0 8)).

Lemma subcode_entry_ok G i j t0 : 8 * i + 8 <= length G ->
  subcode_entry G i j t0 = Ok (N.lxor t0 (entry G i j)).
Proof.
  intros H. unfold subcode_entry.
  destruct (forN_inv (P := fun k t => t = N.lxor t0 (xsum (map (fun k => if N.testbit (N.of_nat j) (N.of_nat k) then nth (8 * i + k) G 0%N else 0%N) (seq 0 k))))
    (f := fun k t => if N.testbit (N.of_nat j) (N.of_nat k)
    then do g <- get G (8 * i + k); Ok (N.lxor t g) else Ok t) (n := 8) (i := 0) (s := t0)) as [t [E Ht]].
  - cbn [seq map xsum fold_right]. rewrite N.lxor_0_r. reflexivity.
  - intros k t Hk ->. rewrite (Nat.add_comm k 1). cbn [Nat.add]. rewrite seq_S, map_app. cbn [map Nat.add]. rewrite xsum_snoc.
    destruct (N.testbit (N.of_nat j) (N.of_nat k)).
    + assert (Eg : get G (8 * i + k) = Ok (nth (8 * i + k) G 0%N)).
      { apply get_Ok, nth_error_nth_lt. lia. }
      rewrite Eg. cbn [bind]. eexists. split; [reflexivity|]. rewrite N.lxor_assoc. reflexivity.
    + eexists. split; [reflexivity|]. rewrite N.lxor_0_r. reflexivity.
  - rewrite E, Ht. reflexivity.
Qed.

Lemma entry_0 G i : entry G i 0 = 0%N.
Proof. unfold entry. cbn [seq map]. rewrite !N.bits_0. reflexivity. Qed.

Lemma generateSubcodes_ok G m : length G = 64 * m -> m <= 8 ->
  exists T, generateSubcodes G = Ok T /\ length T = 256 * (8 * m) /\
    forall i j, i < 8 * m -> j < 256 -> nth_error T (i * 256 + j) = Some (entry G i j).
Proof.
  intros HG Hm. unfold generateSubcodes, throw_if.
  destruct (Nat.ltb_spec (64 * 8) (length G)); [lia|]. cbn [bind].
  replace (((length G + 7) / 8 + 7) / 8 * 8) with (8 * m) by lia.
  destruct (forN_inv (P := fun k T => length T = 256 * (8 * m) /\
     forall i j, i < 8 * m -> j < 256 -> nth_error T (i * 256 + j) = Some (if i <? k then entry G i j else 0%N))
     (f := fun i T => forN 1 255 (fun j T => do t0 <- get T (i * 256 + j);
        do t <- subcode_entry G i j t0; set T (i * 256 + j) t) T)
     (n := 8 * m) (i := 0) (s := repeat 0%N (256 * (8 * m)))) as [T [E [HL HT]]].
  - split; [apply repeat_length|]. intros i j Hi Hj. rewrite nth_error_repeat.
    destruct (Nat.ltb_spec (i * 256 + j) (256 * (8 * m))); [reflexivity|lia].
  - intros i T Hi [HL HT].
    destruct (forN_inv (P := fun jj T' => length T' = 256 * (8 * m) /\
       forall i' j, i' < 8 * m -> j < 256 -> nth_error T' (i' * 256 + j) =
          Some (if (i' <? i) || ((i' =? i) && (j <? jj)) then entry G i' j else 0%N))
       (f := fun j T => do t0 <- get T (i * 256 + j);
          do t <- subcode_entry G i j t0; set T (i * 256 + j) t)
       (n := 255) (i := 1) (s := T)) as [T' [E' [HL' HT']]].
    + split; auto. intros i' j Hi' Hj. rewrite HT by auto. f_equal.
      destruct (Nat.ltb_spec i' i); cbn [orb]; auto. destruct (Nat.eqb_spec i' i); cbn [andb]; auto.
      destruct (Nat.ltb_spec j 1); auto. replace j with 0 by lia. rewrite entry_0. reflexivity.
    + intros j T1 Hj [HL1 HT1].
      pose proof (HT1 i j ltac:(lia) ltac:(lia)) as Hij.
      destruct (Nat.ltb_spec i i); [lia|]. cbn [orb] in Hij. rewrite Nat.eqb_refl in Hij. cbn [andb] in Hij.
      destruct (Nat.ltb_spec j j); [lia|].
      assert (Eg : get T1 (i * 256 + j) = Ok 0%N) by (apply get_Ok; exact Hij).
      rewrite Eg. cbn [bind]. rewrite subcode_entry_ok by lia. cbn [bind]. rewrite N.lxor_0_l.
      rewrite set_lt by lia. eexists. split; [reflexivity|]. rewrite upd_length. split; auto.
      intros i' j' Hi' Hj'. rewrite nth_error_upd, HL1.
      destruct (Nat.eqb_spec (i * 256 + j) (i' * 256 + j')) as [e|ne].
      * assert (i' = i) by lia. assert (j' = j) by lia. subst i' j'.
        destruct (Nat.ltb_spec (i * 256 + j) (256 * (8 * m))); [|lia]. cbn [andb].
        rewrite Nat.ltb_irrefl, Nat.eqb_refl. destruct (Nat.ltb_spec j (j + 1)); [reflexivity|lia].
      * cbn [andb]. rewrite HT1 by auto. f_equal.
        destruct (Nat.ltb_spec i' i); cbn [orb]; auto. destruct (Nat.eqb_spec i' i); cbn [andb]; auto.
        assert (j' <> j) by (intros ->; subst; lia).
        destruct (Nat.ltb_spec j' j), (Nat.ltb_spec j' (j + 1)); auto; lia.
    + rewrite E'. eexists. split; [reflexivity|]. split; auto. intros i' j Hi' Hj. rewrite HT' by auto. f_equal.
      destruct (Nat.ltb_spec j (1 + 255)); [|lia]. rewrite andb_true_r.
      destruct (Nat.ltb_spec i' i), (Nat.eqb_spec i' i), (Nat.ltb_spec i' (i + 1)); cbn [orb]; auto; lia.
  - exists T. split; auto. split; auto. intros i j Hi Hj. rewrite HT by auto.
    destruct (Nat.ltb_spec i (0 + 8 * m)); [auto|lia].
Qed.

Lemma byte_of_bit x b k : (k < 8)%N -> N.testbit (byte_of x b) k = N.testbit x (8 * b + k).
Proof.
  intros Hk. unfold byte_of. change 255%N with (N.ones 8). rewrite N.land_spec, N.shiftr_spec', testbit_ones.
  destruct (N.ltb_spec k 8); [|lia]. rewrite andb_true_r. f_equal. lia.
Qed.

(* the sum of the 16 lookups is the matrix product *)
Lemma lookups_product G x : length G = 128 ->
  xsum (map (fun i => entry G i (N.to_nat (byte_of x (N.of_nat i)))) (seq 0 16)) = f2_mul G x.
Proof.
  intros HG. unfold f2_mul. rewrite HG. change 128 with (8 * 16). rewrite xsum_chunks. f_equal.
  apply map_ext_in. intros i Hi. apply in_seq in Hi. unfold entry. f_equal.
  apply map_ext_in. intros k Hk. apply in_seq in Hk.
  rewrite Nnat.N2Nat.id, byte_of_bit by lia.
  replace (8 * N.of_nat i + N.of_nat k)%N with (N.of_nat (8 * i + k)) by lia. reflexivity.
Qed.

Lemma f2_init_ok gcols G : length G = 128 -> 1 <= gcols <= 16 ->
  exists T, f2_init gcols G = Ok (16, T) /\ length T = 4096 /\
    forall i j, i < 16 -> j < 256 -> nth_error T (i * 256 + j) = Some (entry G i j).
Proof.
  intros HG Hc. unfold f2_init. destruct (generateSubcodes_ok (G := G) (m := 2)) as (T & E & HL & HT); try lia.
  rewrite E. cbn [bind]. unfold throw_if.
  replace ((gcols + 15) / 16) with 1 by lia. rewrite HG.
  exists T. split; [reflexivity|]. split; [lia|]. intros i j Hi Hj. apply HT; lia.
Qed.

(* sixteen numbers xored in the order of the C++ code *)
Lemma xor16 (v : nat -> N) :
  N.lxor (N.lxor (N.lxor (N.lxor (N.lxor 0 (v 0)) (v 8)) (N.lxor (N.lxor 0 (v 4)) (v 12)))
                 (N.lxor (N.lxor (N.lxor 0 (v 2)) (v 10)) (N.lxor (N.lxor 0 (v 6)) (v 14))))
         (N.lxor (N.lxor (N.lxor (N.lxor 0 (v 1)) (v 9)) (N.lxor (N.lxor 0 (v 5)) (v 13)))
                 (N.lxor (N.lxor (N.lxor 0 (v 3)) (v 11)) (N.lxor (N.lxor 0 (v 7)) (v 15))))
  = xsum (map v (seq 0 16)).
Proof.
  cbn [seq map xsum fold_right]. apply N.bits_inj. intros t. rewrite !N.lxor_spec, !N.bits_0.
  repeat match goal with |- context [N.testbit (v ?k) t] => generalize (N.testbit (v k) t); intro end.
  btauto.
Qed.

Lemma f2_encode_ok T (v : nat -> N) x :
  (forall i, i < 16 -> get T (i * 256 + N.to_nat (byte_of x (N.of_nat i))) = Ok (v i)) ->
  f2_encode T x = Ok (xsum (map v (seq 0 16))).
Proof.
  intros H. unfold f2_encode.
  assert (E : forN 0 2 (fun s c => forN 0 8 (fun q c => do cq <- get c q;
       do t <- get T ((8 * s + q) * 256 + N.to_nat (byte_of x (N.of_nat (8 * s + q))));
       set c q (N.lxor cq t)) c) (repeat 0%N 8) =
     forN 0 2 (fun s c => forN 0 8 (fun q c => do cq <- get c q;
       set c q (N.lxor cq (v (8 * s + q)))) c) (repeat 0%N 8)).
  { apply forN_ext. intros s c Hs. apply forN_ext. intros q c' Hq.
    destruct (get c' q); cbn [bind]; auto. rewrite H by lia. reflexivity. }
  rewrite E. clear E H.
  cbn -[N.lxor seq]. rewrite xor16. reflexivity.
Qed.

Lemma f2_encode_correct gcols G bs T x : length G = 128 -> 1 <= gcols <= 16 ->
  f2_init gcols G = Ok (bs, T) -> f2_encode T x = Ok (f2_mul G x).
Proof.
  intros HG Hc HI. destruct (f2_init_ok HG Hc) as (T' & E & HL & HT). rewrite E in HI. inversion HI; subst.
  rewrite (f2_encode_ok (v := fun i => entry G i (N.to_nat (byte_of x (N.of_nat i))))).
  - f_equal. apply lookups_product. exact HG.
  - intros i Hi. apply get_Ok. apply HT; auto. pose proof (byte_of_lt x (N.of_nat i)). lia.
Qed.

(* ---------- encodeN ---------- *)
(* a doubly nested loop over 8*i+q is a loop over n = 8*(n/8) *)
Lemma nest8 S (f : nat -> S -> outcome S) m s :
  forN 0 m (fun i s => forN 0 8 (fun q s => f (8 * i + q) s) s) s = forN 0 (8 * m) f s.
Proof.
  rewrite <- forN_chunk. apply forN_ext. intros i s' _.
  change (8 * i) with (0 + 8 * i) at 2. rewrite forN_shift. apply forN_ext. intros q s'' _.
  rewrite Nat.add_comm. reflexivity.
Qed.

Lemma nth_upd A (l : list A) i x j d :
  nth j (upd l i x) d = if (i =? j) && (i <? length l) then x else nth j l d.
Proof.
  revert i j. induction l as [|a l IH]; intros [|i] [|j]; cbn [upd nth Nat.eqb andb length]; auto.
  - rewrite andb_false_r. reflexivity.
  - rewrite IH. reflexivity.
Qed.

Lemma pointwise_loop n (g : nat -> N -> N) (body : nat -> list N -> outcome (list N)) c :
  length c = n ->
  (forall i c', i < n -> length c' = n -> body i c' = set c' i (g i (nth i c' 0%N))) ->
  exists c', forN 0 n body c = Ok c' /\ length c' = n /\
    forall i, i < n -> nth i c' 0%N = g i (nth i c 0%N).
Proof.
  intros HL HB.
  destruct (forN_inv (P := fun k c' => length c' = n /\
      forall i, i < n -> nth i c' 0%N = if i <? k then g i (nth i c 0%N) else nth i c 0%N)
     (f := body) (n := n) (i := 0) (s := c)) as [c' [E [HL' H]]].
  - split; auto.
  - intros k c' Hk [HL' H]. rewrite HB by (auto; lia). rewrite set_lt by lia. eexists. split; [reflexivity|].
    rewrite upd_length. split; auto. intros i Hi.
    rewrite nth_upd.
    destruct (Nat.eqb_spec k i) as [->|Hne]; cbn [andb].
    + destruct (Nat.ltb_spec i (length c')); [|lia].
      rewrite H by lia. rewrite Nat.ltb_irrefl. destruct (Nat.ltb_spec i (i + 1)); [auto|lia].
    + rewrite H by lia.
      destruct (Nat.ltb_spec i k), (Nat.ltb_spec i (k + 1)); auto; lia.
  - exists c'. split; auto. split; auto. intros i Hi. rewrite H by auto.
    destruct (Nat.ltb_spec i (0 + n)); [auto|lia].
Qed.

Lemma f2_encodeN_correct gcols G bs T xs n : length G = 128 -> 1 <= gcols <= 16 ->
  f2_init gcols G = Ok (bs, T) -> length xs = n -> n mod 8 = 0 ->
  f2_encodeN n bs T xs = Ok (map (f2_mul G) xs).
Proof.
  intros HG Hc HI Hxs Hn. destruct (f2_init_ok HG Hc) as (T' & E & HL & HT). rewrite E in HI. inversion HI; subst bs T'.
  unfold f2_encodeN, throw_if. cbn [Nat.eqb negb bind].
  set (v := fun i j => entry G j (N.to_nat (byte_of (nth i xs 0%N) (N.of_nat j)))).
  assert (HTv : forall i j, j < 16 -> get T (j * 256 + N.to_nat (byte_of (nth i xs 0%N) (N.of_nat j))) = Ok (v i j)).
  { intros i j Hj. apply get_Ok. apply HT; auto. pose proof (byte_of_lt (nth i xs 0%N) (N.of_nat j)). lia. }
  assert (Hx : forall i, i < n -> get xs i = Ok (nth i xs 0%N)).
  { intros i Hi. apply get_Ok, nth_error_nth_lt. lia. }
  assert (H8 : 8 * (n / 8) = n) by lia.
  rewrite (nest8 (fun i c => do x <- get xs i; do t <- get T (N.to_nat (byte_of x 0)); set c i t)).
  rewrite H8.
  destruct (pointwise_loop (n := n) (g := fun i _ => v i 0)
     (body := fun i c => do x <- get xs i; do t <- get T (N.to_nat (byte_of x 0)); set c i t)
     (c := repeat 0%N n)) as (c0 & E0 & L0 & H0).
  { apply repeat_length. }
  { intros i c' Hi _. rewrite Hx by auto. cbn [bind].
    pose proof (HTv i 0 ltac:(lia)) as Hv. cbn [Nat.mul Nat.add N.of_nat] in Hv. rewrite Hv. reflexivity. }
  rewrite E0. cbn [bind].
  destruct (forN_inv (P := fun j c => length c = n /\ forall i, i < n -> nth i c 0%N = xsum (map (v i) (seq 0 j)))
     (f := fun j c => forN 0 (n / 8) (fun i c => forN 0 8 (fun q c =>
        do x <- get xs (8 * i + q); do t <- get T (j * 256 + N.to_nat (byte_of x (N.of_nat j)));
        do ci <- get c (8 * i + q); set c (8 * i + q) (N.lxor ci t)) c) c)
     (n := 15) (i := 1) (s := c0)) as [c [Ec [Lc Hcv]]].
  - split; auto. intros i Hi. rewrite H0 by auto. cbn [seq map xsum fold_right]. rewrite N.lxor_0_r. reflexivity.
  - intros j c Hj [Lc Hcv].
    rewrite (nest8 (fun i c => do x <- get xs i; do t <- get T (j * 256 + N.to_nat (byte_of x (N.of_nat j)));
        do ci <- get c i; set c i (N.lxor ci t))). rewrite H8.
    destruct (pointwise_loop (n := n) (g := fun i ci => N.lxor ci (v i j))
       (body := fun i c => do x <- get xs i; do t <- get T (j * 256 + N.to_nat (byte_of x (N.of_nat j)));
           do ci <- get c i; set c i (N.lxor ci t)) (c := c)) as (c1 & E1 & L1 & H1); auto.
    { intros i c' Hi HL'. rewrite Hx by auto. cbn [bind]. rewrite HTv by lia. cbn [bind].
      assert (Eg : get c' i = Ok (nth i c' 0%N)) by (apply get_Ok, nth_error_nth_lt; lia).
      rewrite Eg. reflexivity. }
    rewrite E1. eexists. split; [reflexivity|]. split; auto. intros i Hi. rewrite H1, Hcv by auto.
    rewrite (Nat.add_comm j 1). cbn [Nat.add]. rewrite seq_S, map_app. cbn [map]. rewrite xsum_snoc. reflexivity.
  - rewrite Ec. f_equal. apply nth_error_ext_len; [rewrite map_length; lia|]. intros i Hi.
    rewrite nth_error_map, (nth_error_nth_lt (l := xs) 0%N) by lia. cbn [option_map].
    rewrite (nth_error_nth_lt (l := c) 0%N) by lia. rewrite Hcv by lia. f_equal.
    apply lookups_product. exact HG.
Qed.

(* fewer rows: the table construction reads past the matrix *)
Lemma generateSubcodes_short_oob : generateSubcodes (repeat 1%N 121) = UB.
Proof. vm_compute. reflexivity. Qed.

Lemma f2_init_short : exists gcols G, (length G + 7) / 8 = 16 /\ (gcols + 15) / 16 = 1 /\ f2_init gcols G = UB.
Proof.
  exists 16, (repeat 1%N 121). split; [reflexivity|]. split; [reflexivity|].
  unfold f2_init. rewrite generateSubcodes_short_oob. reflexivity.
Qed.

Lemma xsum_bits l c : N.testbit (xsum l) c = fold_right xorb false (map (fun v => N.testbit v c) l).
Proof.
  induction l as [|a l IH]; cbn [xsum fold_right map]. - apply N.bits_0.
  - rewrite N.lxor_spec. fold (xsum l). rewrite IH. reflexivity.
Qed.

Lemma f2_mul_bits G x c : N.testbit (f2_mul G x) c =
  fold_right xorb false (map (fun r => N.testbit x (N.of_nat r) && N.testbit (nth r G 0%N) c) (seq 0 (length G))).
Proof.
  unfold f2_mul. rewrite xsum_bits, map_map. f_equal. apply map_ext. intros r.
  destruct (N.testbit x (N.of_nat r)); [reflexivity|apply N.bits_0].
Qed.

Lemma f2_mul_linear G x y : f2_mul G (N.lxor x y) = N.lxor (f2_mul G x) (f2_mul G y).
Proof.
  apply N.bits_inj. intros c. rewrite N.lxor_spec, !f2_mul_bits.
  induction (seq 0 (length G)) as [|r l IH]; cbn [map fold_right]; auto. rewrite IH, N.lxor_spec.
  destruct (N.testbit x (N.of_nat r)), (N.testbit y (N.of_nat r)), (N.testbit (nth r G 0%N) c); cbn [andb xorb];
  repeat match goal with |- context [fold_right xorb false ?m] => destruct (fold_right xorb false m) end; reflexivity.
Qed.
