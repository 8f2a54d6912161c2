From Verif Require Import Base Words Mod3Spec Mod3Proofs PermSpec F2CodeModel F2CodeSpec F2CodeProofs F3CodeModel F3CodeSpec F3CodeProofs
  KeyMultModel KeyMultProofs PrfModel PrfSpec.

(* ---------- words from bits, transposition ---------- *)
Lemma of_bits_bit : forall l i, N.testbit (of_bits l) (N.of_nat i) = nth i l false.
Proof.
  induction l as [|b l IH]; intros i; cbn [of_bits].
  - rewrite N.bits_0. destruct i; reflexivity.
  - destruct i as [|i].
    + rewrite N.add_comm. destruct b.
      * rewrite N.testbit_odd_0. reflexivity.
      * rewrite N.add_0_r, N.testbit_even_0. reflexivity.
    + rewrite Nat2N.inj_succ, N.add_comm. cbn [nth]. destruct b.
      * rewrite N.testbit_odd_succ by lia. apply IH.
      * rewrite N.add_0_r, N.testbit_even_succ by lia. apply IH.
Qed.

Lemma transpose_length t : length (transpose128 t) = 128.
Proof. unfold transpose128. rewrite map_length, seq_length. reflexivity. Qed.

Lemma transpose_bit t j i : j < 128 ->
  N.testbit (nth j (transpose128 t) 0%N) (N.of_nat i) = (i <? 128) && N.testbit (nth i t 0%N) (N.of_nat j).
Proof.
  intros Hj. unfold transpose128. rewrite nth_map_seq by assumption. rewrite of_bits_bit.
  destruct (Nat.ltb_spec i 128).
  - rewrite nth_map_seq by assumption. reflexivity.
  - apply nth_overflow. rewrite map_length, seq_length. lia.
Qed.

(* ---------- columns ---------- *)
Lemma set2_ok (M : list (list N)) R C r c v : dims M R C -> r < R -> c < C ->
  exists M', set2 M r c v = Ok M' /\ dims M' R C /\
    forall r' c', cell M' r' c' = if (r =? r') && (c =? c') then v else cell M r' c'.
Proof.
  intros HD Hr Hc. unfold set2. assert (HL := dims_nth HD Hr).
  rewrite (getn []) by (rewrite (proj1 HD); assumption). cbn [bind].
  rewrite set_lt by lia. cbn [bind]. rewrite set_lt by (rewrite (proj1 HD); assumption).
  eexists. split; [reflexivity|]. split.
  - apply dims_upd; [assumption|]. rewrite upd_length. assumption.
  - intros r' c'. unfold cell. rewrite nth_upd, (proj1 HD), (proj2 (Nat.ltb_lt _ _) Hr), andb_true_r.
    destruct (Nat.eqb_spec r r') as [E|E]; [subst r'|reflexivity].
    rewrite nth_upd, HL, (proj2 (Nat.ltb_lt _ _) Hc), andb_true_r. reflexivity.
Qed.

Lemma get2_ok (M : list (list N)) R C r c : dims M R C -> r < R -> c < C -> get2 M r c = Ok (cell M r c).
Proof.
  intros HD Hr Hc. unfold get2. assert (HL := dims_nth HD Hr).
  rewrite (getn []) by (rewrite (proj1 HD); assumption). cbn [bind]. apply getn. lia.
Qed.

Lemma put_col_ok M R C r0 k t : dims M R C -> r0 + 128 <= R -> k < C -> length t = 128 ->
  exists M', put_col r0 k t M = Ok M' /\ dims M' R C /\
    forall r c, cell M' r c = if (c =? k) && ((r0 <=? r) && (r <? r0 + 128)) then nth (r - r0) t 0%N else cell M r c.
Proof.
  intros HD HR Hk Ht. unfold put_col.
  destruct (forN_inv (P := fun n M' => dims M' R C /\
      forall r c, cell M' r c = if (c =? k) && ((r0 <=? r) && (r <? r0 + n)) then nth (r - r0) t 0%N else cell M r c)
    (f := fun j M => do v <- get t j; set2 M (r0 + j) k v) (n := 128) (i := 0) (s := M)) as (M' & E & HD' & HC).
  - split; [assumption|]. intros r c.
    destruct (Nat.leb_spec r0 r), (Nat.ltb_spec r (r0 + 0)); try lia; rewrite ?andb_false_r; reflexivity.
  - intros j M1 Hj [HD1 HC1]. rewrite (getn 0%N) by lia. cbn [bind].
    destruct (@set2_ok M1 R C (r0 + j) k (nth j t 0%N) HD1) as (M2 & E2 & HD2 & HC2); [lia..|].
    exists M2. split; [exact E2|]. split; [exact HD2|]. intros r c. rewrite HC2, HC1.
    destruct (Nat.eqb_spec (r0 + j) r) as [E|E], (Nat.eqb_spec k c) as [Ek|Ek], (Nat.eqb_spec c k) as [Ek'|Ek'],
      (Nat.leb_spec r0 r), (Nat.ltb_spec r (r0 + j)), (Nat.ltb_spec r (r0 + (j + 1))); try lia; cbn [andb]; try reflexivity.
    f_equal. lia.
  - exists M'. split; [exact E|]. split; [exact HD'|]. intros r c. rewrite HC. reflexivity.
Qed.

Lemma get_col_ok M R C r0 k : dims M R C -> r0 + 128 <= R -> k < C ->
  exists t, get_col r0 k M = Ok t /\ length t = 128 /\ forall j, j < 128 -> nth j t 0%N = cell M (r0 + j) k.
Proof.
  intros HD HR Hk. unfold get_col.
  destruct (forN_inv (P := fun n t => length t = 128 /\ forall j, j < n -> nth j t 0%N = cell M (r0 + j) k)
    (f := fun j t => do v <- get2 M (r0 + j) k; set t j v) (n := 128) (i := 0) (s := repeat 0%N 128)) as (t & E & HL & HC).
  - split; [apply repeat_length|]. intros; lia.
  - intros j t Hj [HL HC]. rewrite (get2_ok HD) by lia. cbn [bind]. rewrite set_lt by lia.
    eexists. split; [reflexivity|]. split; [rewrite upd_length; assumption|].
    intros j' Hj'. rewrite nth_upd, HL, (proj2 (Nat.ltb_lt j 128)) by lia. rewrite andb_true_r.
    destruct (Nat.eqb_spec j j') as [Ej|Ej]; [subst; reflexivity|]. apply HC. lia.
  - exists t. split; [exact E|]. split; [exact HL|exact HC].
Qed.

(* ---------- the codes ---------- *)
Definition table_of (T G : list N) : Prop :=
  (forall x, f2_encode T x = Ok (f2_mul G x)) /\
  (forall n xs, length xs = n -> n mod 8 = 0 -> f2_encodeN n 16 T xs = Ok (map (f2_mul G) xs)).

Lemma table_of_init G : length G = 128 -> exists T, f2_init 16 G = Ok (16, T) /\ table_of T G.
Proof.
  intros HG. assert (Hc : 1 <= 16 <= 16) by lia. destruct (f2_init_ok HG Hc) as (T & E & _).
  exists T. split; [exact E|]. split; intros.
  - apply (f2_encode_correct x HG Hc E).
  - eapply f2_encodeN_correct; eassumption.
Qed.

Lemma f2_mul_0 G : f2_mul G 0 = 0%N.
Proof. rewrite <- (N.lxor_nilpotent 0) at 1. rewrite f2_mul_linear, N.lxor_nilpotent. reflexivity. Qed.

Lemma mapM_map A B (f : A -> outcome B) g l : (forall a, f a = Ok (g a)) -> mapM f l = Ok (map g l).
Proof. intros H. induction l as [|a l IH]; cbn [mapM map]; [reflexivity|]. rewrite H, IH. reflexivity. Qed.

Lemma nth_map_default A B (f : A -> B) l i d d' : f d = d' -> nth i (map f l) d' = f (nth i l d).
Proof. intros <-. apply map_nth. Qed.

Lemma encode_chunk_ok T G x i m : table_of T G -> m = Nat.min 128 (length x - i) -> i <= length x ->
  exists t, encode_chunk T x i m = Ok t /\ length t = 128 /\ forall j, j < 128 -> nth j t 0%N = f2_mul G (nth (i + j) x 0%N).
Proof.
  intros [H1 H8] Hm Hi. unfold encode_chunk. destruct (Nat.eqb_spec m 128) as [E|E].
  - match goal with |- context [forN 0 16 ?B _] =>
      destruct (forN_inv (P := fun w t => length t = 128 /\ forall j, j < 8 * w -> nth j t 0%N = f2_mul G (nth (i + j) x 0%N))
        (f := B) (n := 16) (i := 0) (s := repeat 0%N 128)) as (t & Et & HL & HC) end.
    + split; [apply repeat_length|]. intros; lia.
    + intros w t Hw [HL HC]. rewrite readN_ok by lia. cbn [bind].
      rewrite (H8 8) by (rewrite ?slice_length; lia || reflexivity). cbn [bind].
      rewrite writeN_ok by (rewrite map_length, slice_length; lia).
      eexists. split; [reflexivity|]. split; [rewrite overwrite_length; rewrite ?map_length, ?slice_length; lia|].
      intros j Hj. rewrite nth_overwrite by (rewrite map_length, slice_length; lia).
      rewrite map_length, slice_length by lia.
      destruct (Nat.leb_spec (8 * w) j); cbn [andb].
      * rewrite (proj2 (Nat.ltb_lt j (8 * w + 8))) by lia.
        rewrite (nth_map_default (f := f2_mul G) (d := 0%N) (d' := 0%N) _ _ (f2_mul_0 G)). rewrite nth_slice by lia. f_equal. f_equal. lia.
      * apply HC. lia.
    + exists t. split; [exact Et|]. split; [exact HL|exact HC].
  - rewrite readN_ok by lia. cbn [bind]. rewrite (mapM_map _ H1). cbn [bind].
    eexists. split; [reflexivity|]. split.
    + rewrite app_length, map_length, slice_length, repeat_length by lia. lia.
    + intros j Hj. destruct (Nat.lt_ge_cases j m).
      * rewrite app_nth1 by (rewrite map_length, slice_length; lia).
        rewrite (nth_map_default (f := f2_mul G) (d := 0%N) (d' := 0%N) _ _ (f2_mul_0 G)). rewrite nth_slice by lia. reflexivity.
      * rewrite app_nth2 by (rewrite map_length, slice_length; lia). rewrite nth_repeat.
        rewrite (nth_overflow x) by lia. rewrite f2_mul_0. reflexivity.
Qed.

(* ---------- expansion ---------- *)
Definition prf_ok (p : prf) (G : list (list N)) (B : list N) : Prop :=
  length (prfG p) = 3 /\ length G = 3 /\ (forall q, q < 3 -> table_of (nth q (prfG p) []) (nth q G [])) /\
  table_of (prfB p) (transpose128 B) /\ perms_ok KeySize (prfA p).

Definition part (G : list (list N)) (q : nat) (x : N) : N :=
  match q with 0 => x | S q => f2_mul (nth q G []) x end.

Lemma part_linear G q x y : part G q (N.lxor x y) = N.lxor (part G q x) (part G q y).
Proof. destruct q; [reflexivity|apply f2_mul_linear]. Qed.

Definition e_cell (G : list (list N)) (x : list N) (r c : nat) : N :=
  nth (r mod 128) (transpose128 (map (fun j => part G (r / 128) (nth (128 * c + j) x 0%N)) (seq 0 128))) 0%N.

Lemma e_cell_bit G x r c l : N.testbit (e_cell G x r c) (N.of_nat l) = (l <? 128) && e_bit G (nth (128 * c + l) x 0%N) r.
Proof.
  unfold e_cell. rewrite transpose_bit by (apply Nat.mod_upper_bound; lia).
  destruct (Nat.ltb_spec l 128); [|reflexivity]. cbn [andb]. rewrite nth_map_seq by assumption.
  unfold e_bit, part. destruct (r / 128) eqn:E; [|reflexivity].
  f_equal. f_equal. apply Nat.mod_small. apply Nat.div_small_iff in E; lia.
Qed.

Lemma expand_ok p G B x cols xt : prf_ok p G B -> cols = blocks128 (length x) -> dims xt KeySize cols ->
  exists xt', expandInputLinear p x cols xt = Ok xt' /\ dims xt' KeySize cols /\
    forall r c, r < KeySize -> c < cols -> cell xt' r c = e_cell G x r c.
Proof.
  intros (HG3 & HG3' & HT & _ & _) Hcols HD. unfold expandInputLinear.
  rewrite (proj1 HD), Nat.eqb_refl, <- Hcols, Nat.eqb_refl. cbn [negb throw_if bind].
  assert (Hk : forall k, k < cols -> 128 * k < length x) by (unfold blocks128 in Hcols; intros; lia).
  match goal with |- context [forN 0 cols ?B xt] =>
    destruct (forN_inv (P := fun k M => dims M KeySize cols /\ forall r c, r < 128 -> c < k -> cell M r c = e_cell G x r c)
      (f := B) (n := cols) (i := 0) (s := xt)) as (M1 & E1 & HD1 & HC1) end.
  - split; [assumption|]. intros; lia.
  - intros k M Hkk [HDM HCM]. specialize (Hk k). set (m := Nat.min 128 (length x - 128 * k)).
    rewrite readN_ok by lia. cbn [bind].
    destruct (@put_col_ok M KeySize cols 0 k (transpose128 (slice x (128 * k) m ++ repeat 0%N (128 - m))) HDM) as (M' & E & HD' & HC');
      [unfold KeySize; lia|lia|apply transpose_length|].
    exists M'. split; [exact E|]. split; [exact HD'|]. intros r c Hr Hc. rewrite HC'.
    rewrite (proj2 (Nat.ltb_lt r (0 + 128))) by lia. cbn [Nat.leb andb]. rewrite andb_true_r.
    destruct (Nat.eqb_spec c k) as [Ec|Ec]; [|apply HCM; lia].
    subst c. unfold e_cell. rewrite Nat.sub_0_r, (Nat.mod_small r), (Nat.div_small r) by lia. cbn [part].
    f_equal. f_equal. apply (nth_ext _ _ 0%N 0%N).
    + rewrite app_length, slice_length, repeat_length, map_length, seq_length by lia. lia.
    + rewrite app_length, slice_length, repeat_length by lia. intros j Hj. rewrite nth_map_seq by lia.
      destruct (Nat.lt_ge_cases j m).
      * rewrite app_nth1 by (rewrite slice_length; lia). apply nth_slice. assumption.
      * rewrite app_nth2 by (rewrite slice_length; lia). rewrite nth_repeat.
        symmetry. apply nth_overflow. lia.
  - rewrite E1. cbn [bind]. rewrite HG3.
    match goal with |- context [forN 0 3 ?B M1] =>
      destruct (forN_inv (P := fun q M => dims M KeySize cols /\ forall r c, r < 128 * (q + 1) -> c < cols -> cell M r c = e_cell G x r c)
        (f := B) (n := 3) (i := 0) (s := M1)) as (M2 & E2 & HD2 & HC2) end.
    + split; [assumption|]. intros. apply HC1; lia.
    + intros q M Hq [HDM HCM]. rewrite (getn []) by lia. cbn [bind].
      specialize (HT q ltac:(lia)).
      match goal with |- context [forN 0 cols ?B M] =>
        destruct (forN_inv (P := fun k M => dims M KeySize cols /\
            (forall r c, r < 128 * (q + 1) -> c < cols -> cell M r c = e_cell G x r c) /\
            (forall r c, 128 * (q + 1) <= r < 128 * (q + 2) -> c < k -> cell M r c = e_cell G x r c))
          (f := B) (n := cols) (i := 0) (s := M)) as (M3 & E3 & HD3 & HC3 & HC3') end.
      * split; [assumption|]. split; [assumption|]. intros; lia.
      * intros k M' Hkk (HDM' & HA & HB). specialize (Hk k).
        destruct (encode_chunk_ok (x := x) (i := 128 * k) HT eq_refl) as (t & Et & HLt & HCt); [lia|].
        rewrite Et. cbn [bind].
        destruct (@put_col_ok M' KeySize cols (q * 128 + 128) k (transpose128 t) HDM') as (M'' & E & HD' & HC');
          [unfold KeySize; lia|lia|apply transpose_length|].
        exists M''. split; [exact E|]. split; [exact HD'|]. split.
        -- intros r c Hr Hc. rewrite HC'.
           destruct (Nat.leb_spec (q * 128 + 128) r); [lia|]. cbn [andb]. rewrite andb_false_r. apply HA; assumption.
        -- intros r c Hr Hc. rewrite HC'.
           destruct (Nat.leb_spec (q * 128 + 128) r); [|lia]. rewrite (proj2 (Nat.ltb_lt r (q * 128 + 128 + 128))) by lia.
           cbn [andb]. rewrite andb_true_r.
           destruct (Nat.eqb_spec c k) as [Ec|Ec]; [|apply HB; lia].
           subst c. unfold e_cell.
           assert (Hd : r / 128 = S q) by lia.
           replace (r mod 128) with (r - (q * 128 + 128)) by lia. rewrite Hd. cbn [part].
           f_equal. f_equal. apply (nth_ext _ _ 0%N 0%N).
           ++ rewrite map_length, seq_length. assumption.
           ++ rewrite HLt. intros j Hj. rewrite nth_map_seq by assumption. apply HCt. assumption.
      * exists M3. split; [exact E3|]. split; [exact HD3|]. intros r c Hr Hc.
        destruct (Nat.lt_ge_cases r (128 * (q + 1))); [apply HC3; assumption|]. apply HC3'; lia.
    + exists M2. split; [exact E2|]. split; [exact HD2|]. intros r c Hr Hc. apply HC2; [unfold KeySize in Hr; lia|assumption].
Qed.

(* ---------- compressB ---------- *)
Lemma nat_of_N_bit x c : N.testbit x c = N.testbit x (N.of_nat (N.to_nat c)).
Proof. rewrite N2Nat.id. reflexivity. Qed.

Lemma f2_mul_transpose_bit B x c :
  N.testbit (f2_mul (transpose128 B) x) (N.of_nat c) =
  (c <? 128) && fold_right xorb false (map (fun r => N.testbit (nth c B 0%N) (N.of_nat r) && N.testbit x (N.of_nat r)) (seq 0 128)).
Proof.
  rewrite f2_mul_bits, transpose_length.
  assert (G : forall l, (forall r, In r l -> r < 128) ->
    fold_right xorb false (map (fun r => N.testbit x (N.of_nat r) && N.testbit (nth r (transpose128 B) 0%N) (N.of_nat c)) l) =
    (c <? 128) && fold_right xorb false (map (fun r => N.testbit (nth c B 0%N) (N.of_nat r) && N.testbit x (N.of_nat r)) l)).
  { induction l as [|r l IH]; intros Hl; cbn [map fold_right]; [rewrite andb_false_r; reflexivity|].
    rewrite IH by (intros; apply Hl; right; assumption). rewrite transpose_bit by (apply Hl; left; reflexivity).
    destruct (c <? 128), (N.testbit x (N.of_nat r)), (N.testbit (nth c B 0%N) (N.of_nat r)); reflexivity. }
  apply G. intros r Hr. apply in_seq in Hr. lia.
Qed.

Lemma compressB_ok p G B v cols ny : prf_ok p G B -> dims v MidSize cols -> cols = blocks128 ny ->
  exists y, compressB p v cols ny = Ok y /\ length y = ny /\
    forall i c, i < ny -> N.testbit (nth i y 0%N) (N.of_nat c) =
      (c <? 128) && w_bit B (fun r => N.testbit (cell v r (i / 128)) (N.of_nat (i mod 128))) c.
Proof.
  intros (_ & _ & _ & HB & _) HD Hcols. unfold compressB.
  rewrite (proj1 HD), Nat.eqb_refl, <- Hcols, Nat.eqb_refl. cbn [negb throw_if bind].
  set (Q := fun k y => length y = ny /\ forall i c, i < k -> i < ny -> N.testbit (nth i y 0%N) (N.of_nat c) =
      (c <? 128) && w_bit B (fun r => N.testbit (cell v r (i / 128)) (N.of_nat (i mod 128))) c).
  match goal with |- context [forN 0 cols ?B _] =>
    destruct (forN_inv (P := fun k y => Q (128 * k) y) (f := B) (n := cols) (i := 0) (s := repeat 0%N ny)) as (y & E & HL & HC) end.
  - split; [apply repeat_length|]. intros; lia.
  - intros k y Hk HQ.
    assert (Hki : 128 * k < ny) by (unfold blocks128 in Hcols; lia).
    destruct (@get_col_ok v MidSize cols 0 k HD) as (yy & Ey & Ly & Hy); [unfold MidSize; lia|lia|].
    destruct (@get_col_ok v MidSize cols 128 k HD) as (zz & Ez & Lz & Hz); [unfold MidSize; lia|lia|].
    rewrite Ey. cbn [bind]. rewrite Ez. cbn [bind].
    set (m := Nat.min (ny - 128 * k) 128).
    match goal with |- context [forN 0 m ?B y] =>
      destruct (forN_inv (P := fun j y => Q (128 * k + j) y) (f := B) (n := m) (i := 0) (s := y)) as (y' & E' & HQ') end.
    + rewrite Nat.add_0_r. exact HQ.
    + intros j y1 Hj [HL1 HC1]. rewrite !(getn 0%N) by (rewrite transpose_length; lia). cbn [bind].
      rewrite (proj1 HB). cbn [bind]. rewrite set_lt by lia. eexists. split; [reflexivity|].
      split; [rewrite upd_length; assumption|]. intros i c Hi Hin.
      rewrite nth_upd, HL1, (proj2 (Nat.ltb_lt (128 * k + j) ny)) by lia. rewrite andb_true_r.
      destruct (Nat.eqb_spec (128 * k + j) i) as [Ei|Ei]; [|apply HC1; lia].
      assert (Hd : i / 128 = k) by lia. assert (Hm : i mod 128 = j) by lia. rewrite Hd, Hm.
      rewrite N.lxor_spec, f2_mul_transpose_bit, transpose_bit by lia. unfold w_bit.
      destruct (Nat.ltb_spec c 128); [|reflexivity]. cbn [andb].
      rewrite Hy by assumption. f_equal. apply f_equal. apply map_ext_in. intros r Hr. apply in_seq in Hr.
      rewrite transpose_bit, (proj2 (Nat.ltb_lt r 128)) by lia. cbn [andb]. rewrite Hz by lia. reflexivity.
    + rewrite E'. exists y'. split; [reflexivity|]. destruct HQ' as [HL' HC']. split; [assumption|].
      intros i c Hi Hin. apply HC'; lia.
  - exists y. split; [exact E|]. split; [exact HL|]. intros i c Hi. apply HC; [|assumption].
    unfold blocks128 in Hcols. lia.
Qed.
