(* The numbers behind the bits of the where clauses. *)
From Verif Require Import Base Words KeyMultModel ShuffleModel ShuffleSpec TableModel TableIOModel ParserModel ParserSpec CsvProofs TrimProofs ShuffleSpanProofs.
Local Open Scope Z_scope.

Lemma pow2S n : 2 ^ Z.of_nat (S n) = 2 * 2 ^ Z.of_nat n.
Proof. rewrite Nat2Z.inj_succ, Z.pow_succ_r by lia. easy. Qed.
Lemma pow2pos n : 0 < 2 ^ Z.of_nat n.
Proof. apply Z.pow_pos_nonneg; lia. Qed.
Lemma pow2half n : (1 <= n)%nat -> 2 ^ Z.of_nat n = 2 * 2 ^ (Z.of_nat n - 1).
Proof. intro H. replace (Z.of_nat n) with (Z.succ (Z.of_nat n - 1)) at 1 by lia. rewrite Z.pow_succ_r by lia. easy. Qed.
Lemma pow2mono a b : (a <= b)%nat -> 2 ^ Z.of_nat a <= 2 ^ Z.of_nat b.
Proof. intro H. apply Z.pow_le_mono_r; lia. Qed.

Lemma bits_num_bound l : 0 <= bits_num l < 2 ^ Z.of_nat (length l).
Proof.
  induction l as [|b l IH]; cbn [bits_num length]; [cbn; lia|]. rewrite pow2S. destruct b; cbn [Z.b2z]; lia.
Qed.
Lemma bits_num_app a b : bits_num (a ++ b) = bits_num a + 2 ^ Z.of_nat (length a) * bits_num b.
Proof.
  induction a as [|x a IH]; cbn [app bits_num length]; [cbn [Z.of_nat]; change (2 ^ 0) with 1; lia|]. rewrite pow2S, IH. lia.
Qed.
Lemma bits_num_zeros k : bits_num (repeat false k) = 0.
Proof. induction k as [|k IH]; cbn [repeat bits_num Z.b2z]; lia. Qed.
Lemma bits_num_ones k : bits_num (repeat true k) = 2 ^ Z.of_nat k - 1.
Proof. induction k as [|k IH]; cbn [repeat bits_num Z.b2z]; [easy|]. rewrite pow2S. lia. Qed.
Lemma bits_num_inj a : forall b, length a = length b -> bits_num a = bits_num b -> a = b.
Proof.
  induction a as [|x a IH]; intros [|y b] L E; cbn [length] in L; try easy. cbn [bits_num] in E.
  assert (x = y /\ bits_num a = bits_num b) as [-> E'] by (destruct x, y; cbn [Z.b2z] in E; split; try easy; lia).
  f_equal. apply IH; [lia|easy].
Qed.

Lemma last_split (l : list bool) : l <> [] -> exists p, l = p ++ [last l false].
Proof. intro H. exists (removelast l). now apply app_removelast_last. Qed.
Lemma two_comp_snoc p b : two_comp (p ++ [b]) = bits_num p - Z.b2z b * 2 ^ Z.of_nat (length p).
Proof.
  unfold two_comp. rewrite last_last, bits_num_app, app_length. cbn [length]. rewrite Nat.add_1_r, pow2S. cbn [bits_num].
  destruct b; cbn [Z.b2z]; lia.
Qed.
Lemma last_repeat (b : bool) k : last (repeat b (S k)) false = b.
Proof. induction k as [|k IH]; [easy|]. exact IH. Qed.
Lemma last_app_cons (l m : list bool) d : m <> [] -> last (l ++ m) d = last m d.
Proof.
  intro H. destruct (last_split H) as [p ->]. rewrite app_assoc, last_last, last_last. easy.
Qed.
(* sign extension *)
Lemma two_comp_ext l k : l <> [] -> two_comp (l ++ repeat (last l false) k) = two_comp l.
Proof.
  intro H. destruct k as [|k]; [now rewrite app_nil_r|]. unfold two_comp.
  rewrite last_app_cons, last_repeat by easy. rewrite bits_num_app, app_length, repeat_length, Nat2Z.inj_add, Z.pow_add_r by lia.
  destruct (last l false); [rewrite bits_num_ones|rewrite bits_num_zeros]; lia.
Qed.
Lemma last_sign (l : list bool) k : (1 <= k)%nat -> last (l ++ repeat false k) false = false.
Proof. intro H. destruct k as [|k]; [lia|]. rewrite last_app_cons by easy. apply last_repeat. Qed.
(* zero extension *)
Lemma two_comp_zext l k : (1 <= k)%nat -> two_comp (l ++ repeat false k) = bits_num l.
Proof. intro H. unfold two_comp. rewrite last_sign by easy. rewrite bits_num_app, bits_num_zeros. lia. Qed.
Lemma bits_num_zext l k : bits_num (l ++ repeat false k) = bits_num l.
Proof. rewrite bits_num_app, bits_num_zeros. lia. Qed.

Lemma two_comp_fits l : l <> [] -> fits (length l) (two_comp l).
Proof.
  intro H. destruct (last_split H) as [p E]. rewrite E at 2. rewrite two_comp_snoc. unfold fits.
  assert (L : length l = S (length p)) by (rewrite E, app_length; cbn; lia). rewrite L.
  replace (Z.of_nat (S (length p)) - 1) with (Z.of_nat (length p)) by lia. pose proof (bits_num_bound p).
  destruct (last l false); cbn [Z.b2z]; lia.
Qed.
Lemma wrap_fits w z : (1 <= w)%nat -> fits w (wrap w z).
Proof.
  intro H. unfold fits, wrap. pose proof (pow2half H). pose proof (Z.mod_pos_bound (z + 2 ^ (Z.of_nat w - 1)) _ (pow2pos w)). lia.
Qed.
Lemma wrap_id w z : (1 <= w)%nat -> fits w z -> wrap w z = z.
Proof.
  unfold fits, wrap. intros H F. pose proof (pow2half H). rewrite Z.mod_small by lia. lia.
Qed.
Lemma wrap_cong w a b : a mod 2 ^ Z.of_nat w = b mod 2 ^ Z.of_nat w -> wrap w a = wrap w b.
Proof.
  intro E. unfold wrap. pose proof (pow2pos w). rewrite Z.add_mod, E, <- Z.add_mod by lia. easy.
Qed.
Lemma wrap_mod w z : (wrap w z) mod 2 ^ Z.of_nat w = z mod 2 ^ Z.of_nat w.
Proof.
  unfold wrap. pose proof (pow2pos w). rewrite Zminus_mod_idemp_l. f_equal. lia.
Qed.
Lemma two_comp_mod l : (two_comp l) mod 2 ^ Z.of_nat (length l) = (bits_num l) mod 2 ^ Z.of_nat (length l).
Proof.
  unfold two_comp. pose proof (pow2pos (length l)). destruct (last l false); [|f_equal; lia].
  replace (bits_num l - 2 ^ Z.of_nat (length l)) with (bits_num l + (-1) * 2 ^ Z.of_nat (length l)) by lia. apply Z.mod_add. lia.
Qed.
Lemma two_comp_wrap l z : l <> [] -> z mod 2 ^ Z.of_nat (length l) = bits_num l -> two_comp l = wrap (length l) z.
Proof.
  intros H E. assert (1 <= length l)%nat by (destruct l; [easy|cbn; lia]).
  rewrite <- (wrap_id (w := length l) (z := two_comp l)) by (try easy; now apply two_comp_fits).
  apply wrap_cong. rewrite two_comp_mod. rewrite (Z.mod_small (bits_num l)) by apply bits_num_bound. easy.
Qed.

Lemma eq_bits_iff a : forall b, length a = length b -> (eq_bits a b = true <-> a = b).
Proof.
  induction a as [|x a IH]; intros [|y b] L; cbn [length] in L; try easy. cbn [eq_bits].
  rewrite andb_true_iff, eqb_true_iff, IH by lia. split; [intros [-> ->]; easy|intro E; injection E as -> ->; easy].
Qed.
Lemma eq_bits_num a b : length a = length b -> eq_bits a b = (bits_num a =? bits_num b).
Proof.
  intro L. apply eq_true_iff_eq. rewrite eq_bits_iff by easy. rewrite Z.eqb_eq. split; [intros ->; easy|]. now apply bits_num_inj.
Qed.
Lemma two_comp_inj a b : length a = length b -> two_comp a = two_comp b -> a = b.
Proof.
  intros L E. apply bits_num_inj; [easy|]. rewrite <- (Z.mod_small _ _ (bits_num_bound a)), <- (Z.mod_small _ _ (bits_num_bound b)).
  rewrite <- !two_comp_mod, E, L. easy.
Qed.
Lemma eq_bits_two a b : length a = length b -> eq_bits a b = (two_comp a =? two_comp b).
Proof.
  intro L. apply eq_true_iff_eq. rewrite eq_bits_iff by easy. rewrite Z.eqb_eq. split; [intros ->; easy|]. now apply two_comp_inj.
Qed.

Lemma add_bits_length a : forall c b, length a = length b -> length (add_bits c a b) = length a.
Proof. induction a as [|x a IH]; intros c [|y b] L; cbn [length] in L; try easy. cbn [add_bits length]. rewrite IH; lia. Qed.
Lemma add_bits_num a : forall c b, length a = length b ->
  bits_num (add_bits c a b) = (bits_num a + bits_num b + Z.b2z c) mod 2 ^ Z.of_nat (length a).
Proof.
  induction a as [|x a IH]; intros c [|y b] L; cbn [length] in L; try easy.
  - cbn [add_bits bits_num length Z.of_nat]. change (2 ^ 0) with 1. now rewrite Z.mod_1_r.
  - cbn [add_bits bits_num length]. rewrite IH by lia. rewrite pow2S. pose proof (pow2pos (length a)) as P.
    set (M := 2 ^ Z.of_nat (length a)) in *. set (k := if c then x || y else x && y).
    replace (Z.b2z x + 2 * bits_num a + (Z.b2z y + 2 * bits_num b) + Z.b2z c) with (Z.b2z (xorb (xorb x y) c) + (bits_num a + bits_num b + Z.b2z k) * 2)
      by (subst k; destruct x, y, c; cbn [xorb Z.b2z orb andb]; lia).
    set (t := bits_num a + bits_num b + Z.b2z k). rewrite Z.rem_mul_r by lia. rewrite Z.mod_add, Z.div_add by lia.
    destruct (xorb (xorb x y) c); cbn [Z.b2z]; [change (1 mod 2) with 1; change (1 / 2) with 0|change (0 mod 2) with 0; change (0 / 2) with 0]; rewrite !Z.add_0_l; reflexivity.
Qed.

Lemma lt_bits_num a : forall k b, length a = length b -> a <> [] ->
  lt_bits k a b = if k then two_comp a <=? two_comp b else two_comp a <? two_comp b.
Proof.
  induction a as [|x a IH]; intros k [|y b] L N; cbn [length] in L; try easy. destruct a as [|x' a], b as [|y' b]; cbn [length] in L; try lia.
  - cbn [lt_bits]. destruct x, y, k; reflexivity.
  - change (lt_bits k (x :: x' :: a) (y :: y' :: b)) with (lt_bits (if xorb x y then y else k) (x' :: a) (y' :: b)).
    rewrite IH by (try easy; cbn; lia).
    assert (T : forall z (l : list bool), l <> [] -> two_comp (z :: l) = Z.b2z z + 2 * two_comp l).
    { intros z l Hl. unfold two_comp. cbn [bits_num length]. rewrite pow2S. replace (last (z :: l) false) with (last l false) by (destruct l; easy).
      destruct (last l false); lia. }
    rewrite (T x (x' :: a)), (T y (y' :: b)) by discriminate. generalize (two_comp (x' :: a)) (two_comp (y' :: b)). intros u v. clear.
    destruct x, y, k; cbn [xorb Z.b2z]; apply eq_true_iff_eq; rewrite ?Z.leb_le, ?Z.ltb_lt; lia.
Qed.
Lemma lt_bits_two a b : length a = length b -> a <> [] -> lt_bits false a b = (two_comp a <? two_comp b).
Proof. intros L N. rewrite lt_bits_num by easy. easy. Qed.

(* strings *)
Lemma row_bits_cons c s k : row_bits (8 + k) (c :: s) = row_bits 8 [c] ++ row_bits k s.
Proof.
  apply nth_error_ext. intro i. rewrite row_bits_nth. destruct (Nat.lt_ge_cases i 8) as [L|L].
  - rewrite nth_error_app1 by (rewrite row_bits_length; easy). rewrite row_bits_nth. rewrite (proj2 (Nat.ltb_lt i (8 + k))), (proj2 (Nat.ltb_lt i 8)) by lia.
    unfold sbit. rewrite Nat.div_small by easy. easy.
  - rewrite nth_error_app2 by (rewrite row_bits_length; easy). rewrite row_bits_length, row_bits_nth.
    assert (E : (exists j, i = j + 1 * 8)%nat) by (exists (i - 8)%nat; lia). destruct E as [j ->]. replace (j + 1 * 8 - 8)%nat with j by lia.
    replace (j + 1 * 8 <? 8 + k)%nat with (j <? k)%nat by (apply eq_true_iff_eq; rewrite !Nat.ltb_lt; lia).
    unfold sbit. rewrite Nat.div_add, Nat.mod_add by lia. rewrite Nat.add_1_r. easy.
Qed.
Lemma bits_num_byte c : (c < 256)%N -> bits_num (row_bits 8 [c]) = Z.of_N c.
Proof.
  intro H. assert (A : forall n, (n < 256)%nat -> bits_num (row_bits 8 [N.of_nat n]) =? Z.of_N (N.of_nat n) = true).
  { assert (F : forallb (fun n => bits_num (row_bits 8 [N.of_nat n]) =? Z.of_N (N.of_nat n)) (seq 0 256) = true) by (vm_compute; reflexivity).
    rewrite forallb_forall in F. intros n L. apply F. apply in_seq. lia. }
  specialize (A (N.to_nat c)). rewrite N2Nat.id in A. apply Z.eqb_eq, A. lia.
Qed.
Lemma bits_num_str s : bytes s -> bits_num (row_bits (length s * 8) s) = str_num s.
Proof.
  induction s as [|c s IH]; intro B; [easy|]. inversion B as [|x y Bc Bs]; subst. cbn [length]. change (S (length s) * 8)%nat with (8 + length s * 8)%nat.
  rewrite row_bits_cons, bits_num_app, bits_num_byte, IH, row_bits_length by easy. cbn [str_num]. change (2 ^ Z.of_nat 8) with 256. easy.
Qed.
Lemma str_num_bound s : bytes s -> 0 <= str_num s < 2 ^ Z.of_nat (8 * length s).
Proof.
  intro B. rewrite <- bits_num_str by easy. rewrite (Nat.mul_comm 8). pose proof (bits_num_bound (row_bits (length s * 8) s)) as H. now rewrite row_bits_length in H.
Qed.
(* strings with one number agree up to trailing zeros *)
Lemma str_num_zero s : str_num s = 0 <-> Forall (fun c => c = 0%N) s.
Proof.
  induction s as [|c s IH]; [easy|]. cbn [str_num]. split.
  - intro E. assert (0 <= str_num s) by (clear; induction s as [|c s IH]; cbn [str_num]; lia). constructor; [lia|]. apply IH. lia.
  - intro F. inversion F as [|x y E Fs]; subst. apply IH in Fs. lia.
Qed.
Lemma str_num_eq s : forall t, bytes s -> bytes t -> (str_num s = str_num t <-> forall i, nth i s 0%N = nth i t 0%N).
Proof.
  induction s as [|c s IH]; intros t B B'.
  - cbn [str_num]. split.
    + intros E i. symmetry in E. apply str_num_zero in E. rewrite Forall_forall in E. destruct (Nat.lt_ge_cases i (length t)) as [L|L].
      * rewrite (E (nth i t 0%N)) by now apply nth_In. now destruct i.
      * rewrite (nth_overflow t) by easy. now destruct i.
    + intro E. symmetry. apply str_num_zero. apply Forall_forall. intros x I. destruct (In_nth _ _ 0%N I) as [i [L Ei]]. rewrite <- Ei, <- E. now destruct i.
  - inversion B as [|x y Bc Bs]; subst. destruct t as [|d t].
    + cbn [str_num]. change (Z.of_N c + 256 * str_num s) with (str_num (c :: s)). rewrite str_num_zero. split.
      * intros F i. rewrite Forall_forall in F. destruct (Nat.lt_ge_cases i (length (c :: s))) as [L|L].
        -- rewrite (F (nth i (c :: s) 0%N)) by now apply nth_In. now destruct i.
        -- rewrite nth_overflow by easy. now destruct i.
      * intro E. apply Forall_forall. intros x I. destruct (In_nth _ _ 0%N I) as [i [L Ei]]. rewrite <- Ei, E. now destruct i.
    + inversion B' as [|x y Bd Bt]; subst. cbn [str_num]. split.
      * intro E. assert (c = d /\ str_num s = str_num t) as [-> E'] by (split; lia). intros [|i]; [easy|]. cbn [nth]. now apply IH.
      * intro E. rewrite (E 0%nat : c = d). f_equal. f_equal. apply IH; try easy. intro i. exact (E (S i)).
Qed.

(* integer literals *)
Lemma i64_length v : length (i64_bits v) = 64%nat. Proof. reflexivity. Qed.
Lemma i64_nth v i : (i < 64)%nat -> nth i (i64_bits v) false = Z.testbit v (Z.of_nat i).
Proof.
  intro L. unfold i64_bits. rewrite nth_indep with (d' := Z.testbit v (Z.of_nat 0)) by (rewrite map_length, seq_length; easy).
  rewrite (map_nth (fun i => Z.testbit v (Z.of_nat i))). rewrite seq_nth by easy. easy.
Qed.
Lemma bits_num_testbits v n : bits_num (map (fun i => Z.testbit v (Z.of_nat i)) (seq 0 n)) = v mod 2 ^ Z.of_nat n.
Proof.
  revert v. induction n as [|n IH]; intro v; [cbn; now rewrite Z.mod_1_r|].
  cbn [seq map bits_num]. rewrite <- seq_shift, map_map.
  rewrite (map_ext _ (fun i => Z.testbit (Z.div2 v) (Z.of_nat i))) by (intro i; rewrite Z.div2_spec, Z.shiftr_spec by lia; f_equal; lia).
  rewrite IH, pow2S. pose proof (pow2pos n). rewrite Z.rem_mul_r by lia. rewrite Z.div2_div. f_equal.
  change (Z.of_nat 0) with 0. rewrite Z.bit0_odd, Zmod_odd. destruct (Z.odd v); easy.
Qed.
Lemma i64_two v : - 2 ^ 63 <= v < 2 ^ 63 -> two_comp (i64_bits v) = v.
Proof.
  intro R. rewrite (two_comp_wrap (z := v)); [|easy|].
  - apply wrap_id; [rewrite i64_length; lia|]. unfold fits. rewrite i64_length. exact R.
  - rewrite i64_length. symmetry. apply (bits_num_testbits v 64).
Qed.
Lemma trim_msb_spec val n : (1 <= n)%nat ->
  (1 <= trim_msb val n <= n)%nat /\ (trim_msb val n = 1%nat \/ nth (trim_msb val n - 1) val false <> last val false) /\
  forall j, (trim_msb val n <= j < n)%nat -> nth j val false = last val false.
Proof.
  induction n as [|[|m] IH]; intro H; [lia|cbn; repeat split; try lia; intros; lia|].
  change (trim_msb val (S (S m))) with (if Bool.eqb (nth (S m) val false) (last val false) then trim_msb val (S m) else S (S m)).
  destruct (Bool.eqb (nth (S m) val false) (last val false)) eqn:E.
  - destruct (IH ltac:(lia)) as [A [B C]]. split; [lia|]. split; [easy|]. intros j J. destruct (Nat.eq_dec j (S m)) as [->|D]; [now apply eqb_prop|]. apply C. lia.
  - split; [lia|]. split; [right|intros; lia]. replace (S (S m) - 1)%nat with (S m) by lia. intro X. apply eqb_false_iff in E. easy.
Qed.
Lemma fits_bit v m : (1 <= m)%nat -> fits m v -> Z.testbit v (Z.of_nat m - 1) = (v <? 0).
Proof.
  intros H F. unfold fits in F. rewrite Z.testbit_odd, Z.shiftr_div_pow2 by lia. set (M := 2 ^ (Z.of_nat m - 1)) in *.
  destruct (Z.ltb_spec v 0) as [L|L].
  - replace (v / M) with (-1) by (apply Z.div_unique with (r := v + M); lia). easy.
  - rewrite Z.div_small by lia. easy.
Qed.
Lemma fits_mono a b v : (a <= b)%nat -> (1 <= a)%nat -> fits a v -> fits b v.
Proof. unfold fits. intros L H F. assert (2 ^ (Z.of_nat a - 1) <= 2 ^ (Z.of_nat b - 1)) by (apply Z.pow_le_mono_r; lia). lia. Qed.
Lemma last_nth (l : list bool) : l <> [] -> last l false = nth (length l - 1) l false.
Proof.
  intro H. destruct (last_split H) as [p E]. rewrite E. generalize (last l false). intro b. rewrite last_last, app_length. cbn [length].
  rewrite app_nth2 by lia. replace (length p + 1 - 1 - length p)%nat with 0%nat by lia. easy.
Qed.
Lemma nth_repeat_any (b : bool) k i : (i < k)%nat -> nth i (repeat b k) false = b.
Proof. revert i. induction k as [|k IH]; intros [|i] H; try lia; [easy|]. apply IH. lia. Qed.
Lemma literal_int s z : stoll s = Ok z -> exists l, literal 0 s = Ok l /\ l <> [] /\ two_comp l = z /\ lit_value 0 s (VInt (length l) z).
Proof.
  intro E. pose proof (stoll_range E) as R. unfold literal. rewrite E. cbn [bind]. cbv zeta.
  destruct (@trim_msb_spec (i64_bits z) 64 ltac:(lia)) as [A [B C]]. set (m := trim_msb (i64_bits z) 64) in *. clearbody m.
  assert (LS : last (i64_bits z) false = Z.testbit z 63) by easy.
  assert (Sg : Z.testbit z 63 = (z <? 0)) by (apply (@fits_bit z 64); [lia|exact R]).
  assert (M : (m <= 63)%nat). { destruct B as [->|B]; [lia|]. assert (m <> 64%nat); [|lia]. intros ->. apply B. rewrite LS. apply i64_nth. lia. }
  rewrite Nat.min_l by lia. replace (m + 1 - 1)%nat with m by lia. rewrite C by lia. rewrite eqb_reflx.
  set (l := firstn (m + 1) (i64_bits z)). assert (Ll : length l = (m + 1)%nat) by (unfold l; rewrite firstn_length, i64_length; lia).
  assert (Nl : l <> []) by (intro X; rewrite X in Ll; cbn in Ll; lia).
  assert (La : last l false = Z.testbit z 63).
  { rewrite last_nth by easy. rewrite Ll. replace (m + 1 - 1)%nat with m by lia. rewrite <- LS, <- (C m) by lia. unfold l.
    fold l. transitivity (nth m (l ++ skipn (m + 1) (i64_bits z)) false); [now rewrite app_nth1 by lia|unfold l; now rewrite firstn_skipn]. }
  assert (T : two_comp l = z).
  { transitivity (two_comp (i64_bits z)); [|now apply i64_two]. rewrite <- (firstn_skipn (m + 1) (i64_bits z)). fold l.
    replace (skipn (m + 1) (i64_bits z)) with (repeat (last l false) (64 - (m + 1))); [symmetry; now apply two_comp_ext|].
    apply nth_ext with (d := false) (d' := false); [rewrite repeat_length, skipn_length, i64_length; lia|].
    intros i Hi. rewrite repeat_length in Hi. rewrite (nth_repeat_any (last l false) Hi), La, <- LS.
    rewrite <- (C (m + 1 + i)%nat) by lia. transitivity (nth (m + 1 + i) (l ++ skipn (m + 1) (i64_bits z)) false); [unfold l; now rewrite firstn_skipn|]. rewrite app_nth2 by lia. f_equal. lia. }
  exists l. split; [easy|]. split; [easy|]. split; [easy|]. cbn [lit_value]. exists z, (length l). split; [easy|]. split; [easy|]. split; [lia|].
  split; [rewrite <- T at 1; now apply two_comp_fits|]. intros w W F. rewrite Ll. destruct B as [->|B]; [lia|].
  destruct (Nat.le_gt_cases (m + 1) w) as [L|L]; [easy|]. exfalso. apply B. rewrite LS, i64_nth by lia.
  replace (Z.of_nat (m - 1)) with (Z.of_nat m - 1) by lia. rewrite (@fits_bit z m) by (try lia; apply fits_mono with (a := w); try lia; easy). easy.
Qed.
