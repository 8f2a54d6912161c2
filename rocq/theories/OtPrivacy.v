(* Proofs that the messages made from oblivious transfers hide the inputs of both sides. *)
From Verif Require Import Base Words GmwModel ShuffleModel ShuffleSpec KeyMultModel BitInjModel RadixModel RadixSpec BitInjProofs PrivSpec SortViewModel SortPrivSpec.
From Verif Require Import PermCorProofs GmwProofs HadamardProofs.
From Coq Require Import Setoid Morphisms.

(* ---------- two runs that end in the same way ---------- *)
Definition orel {A B} (R : A -> B -> Prop) (a : outcome A) (b : outcome B) : Prop :=
  match a, b with
  | Ok x, Ok y => R x y
  | Throw, Throw | UB, UB | Hang, Hang => True
  | _, _ => False
  end.
Lemma orel_refl A (R : A -> A -> Prop) a : (forall x, R x x) -> orel R a a.
Proof. intros H. destruct a; cbn; auto. Qed.
Lemma orel_bind A B C D (R : A -> B -> Prop) (Q : C -> D -> Prop) a b f g : orel R a b -> (forall x y, R x y -> orel Q (f x) (g y)) -> orel Q (bind a f) (bind b g).
Proof. intros H K. destruct a, b; cbn in *; try contradiction; auto. Qed.
Lemma orel_mono A B (R Q : A -> B -> Prop) a b : orel R a b -> (forall x y, R x y -> Q x y) -> orel Q a b.
Proof. intros H K. destruct a, b; cbn in *; try contradiction; auto. Qed.
Lemma orel_mapM A B C (R : B -> C -> Prop) f g (l : list A) : (forall x, In x l -> orel R (f x) (g x)) -> orel (Forall2 R) (mapM f l) (mapM g l).
Proof.
  induction l as [|a l IH]; intros H; cbn [mapM]; [constructor|].
  apply orel_bind with (R := R); [apply H; left; reflexivity|]. intros x y Hxy.
  apply orel_bind with (R := Forall2 R); [apply IH; intros; apply H; right; assumption|]. intros u v Huv. cbn. constructor; assumption.
Qed.
Lemma orel_same A B (f : A -> B) a b : orel (fun x y => f y = f x) a b -> (do x <- b; Ok (f x)) = (do x <- a; Ok (f x)).
Proof. destruct a, b; cbn; intros H; try contradiction; try reflexivity. rewrite H. reflexivity. Qed.
Lemma orel_get A B (l : list A) (m : list B) i da db : length m = length l -> orel (fun x y => x = nth i l da /\ y = nth i m db /\ i < length l) (get l i) (get m i).
Proof.
  intros H. destruct (Nat.lt_ge_cases i (length l)) as [Hi|Hi].
  - rewrite (get_ok da) by exact Hi. rewrite (get_ok db) by lia. cbn. auto.
  - unfold get. rewrite (proj2 (nth_error_None l i)), (proj2 (nth_error_None m i)) by lia. exact I.
Qed.
Lemma Forall2_length' A B (R : A -> B -> Prop) l m : Forall2 R l m -> length m = length l.
Proof. induction 1; cbn; congruence. Qed.
Lemma Forall2_maps A B C (f : A -> C) (g : B -> C) l m : Forall2 (fun x y => g y = f x) l m -> map g m = map f l.
Proof. induction 1; cbn; congruence. Qed.
Lemma Forall2_mono A B (R Q : A -> B -> Prop) l m : Forall2 R l m -> (forall x y, R x y -> Q x y) -> Forall2 Q l m.
Proof. intros H K. induction H; constructor; auto. Qed.

Lemma list_eq_nth A (d : A) l m : length l = length m -> (forall i, i < length l -> nth i l d = nth i m d) -> l = m.
Proof. intros HL H. apply (nth_ext _ _ d d HL). exact H. Qed.

(* ---------- arithmetic modulo 2^32 ---------- *)
Lemma w32_same a b : eqm (2 ^ 32) a b -> w32 a = w32 b.
Proof. intros H. unfold w32. rewrite (eqm_eq H). reflexivity. Qed.
Lemma w32_of x : (x < 2 ^ 32)%N -> w32 (Z.of_N x) = x.
Proof. intros H. unfold w32. rewrite Z.mod_small, N2Z.id; [reflexivity|]. split; [apply N2Z.is_nonneg|]. change (2 ^ 32)%Z with (Z.of_N (2 ^ 32)). apply N2Z.inj_lt. exact H. Qed.
Lemma w32_shift x a b : (x < 2 ^ 32)%N -> (a + b = 0)%Z -> w32 (Z.of_N (w32 (Z.of_N x + a)) + b) = x.
Proof. intros Hx H. rewrite <- (w32_of Hx) at 2. apply w32_same. rewrite w32_eqm. apply eqm_refl'. lia. Qed.

(* ---------- another choice for the receiver ---------- *)
Definition rflip (e : nat -> bool) (k : nat) (s : ot_send) (r : ot_recv) : ot_recv :=
  let ch := map (fun t => xorb (nth t (oChoice r) false) (e (k + t))) (seq 0 (length s)) in
  OtR ch (map (fun t => if nth t ch false then snd (nth t s (0, 0)%N) else fst (nth t s (0, 0)%N)) (seq 0 (length s))).
Fixpoint rflips (e : nat -> bool) (k : nat) (ss : list ot_send) (rs : list ot_recv) : list ot_recv :=
  match ss, rs with
  | s :: ss, r :: rs => rflip e k s r :: rflips e (k + length s) ss rs
  | _, _ => []
  end.
Lemma rflip_rel e k s r : ot_rel s (rflip e k s r).
Proof.
  unfold ot_rel, rflip. cbn [oChoice oMsg]. rewrite !map_length, seq_length. split; [reflexivity|]. split; [reflexivity|].
  intros j Hj. rewrite nth_map_seq' by exact Hj. reflexivity.
Qed.
Lemma rflip_inv e k s r : ot_rel s r -> rflip e k s (rflip e k s r) = r.
Proof.
  intros (L1 & L2 & H). destruct r as [ch ms]. cbn [oChoice oMsg] in *.
  assert (E : map (fun t => xorb (nth t (oChoice (rflip e k s (OtR ch ms))) false) (e (k + t))) (seq 0 (length s)) = ch).
  { apply list_eq_nth with (d := false); rewrite map_length, seq_length; [lia|]. intros i Hi. rewrite nth_map_seq' by exact Hi. cbn [Nat.add rflip oChoice].
    rewrite nth_map_seq' by exact Hi. cbn [Nat.add]. rewrite xorb_assoc, xorb_nilpotent, xorb_false_r. reflexivity. }
  unfold rflip at 1. cbv zeta. rewrite E. f_equal.
  apply list_eq_nth with (d := 0%N); rewrite map_length, seq_length; [lia|]. intros i Hi. rewrite nth_map_seq' by exact Hi. cbn [Nat.add]. symmetry. apply H. exact Hi.
Qed.
Lemma rflips_rel e : forall ss rs k, length rs = length ss -> Forall2 ot_rel ss (rflips e k ss rs).
Proof. induction ss as [|s ss IH]; intros [|r rs] k H; try discriminate; cbn [rflips]; constructor; [apply rflip_rel|apply IH; injection H; auto]. Qed.
Lemma rflips_inv e : forall ss rs k, Forall2 ot_rel ss rs -> rflips e k ss (rflips e k ss rs) = rs.
Proof. induction ss as [|s ss IH]; intros rs k H; inversion H; subst; cbn [rflips]; [reflexivity|]. rewrite rflip_inv, IH by assumption. reflexivity. Qed.
Lemma rflips_ext e e' : (forall k, e k = e' k) -> forall ss rs k, rflips e k ss rs = rflips e' k ss rs.
Proof.
  intros E. induction ss as [|s ss IH]; intros [|r rs] k; cbn [rflips]; try reflexivity. rewrite IH. f_equal. unfold rflip.
  assert (X : map (fun t => xorb (nth t (oChoice r) false) (e (k + t))) (seq 0 (length s)) = map (fun t => xorb (nth t (oChoice r) false) (e' (k + t))) (seq 0 (length s))).
  { apply map_ext. intros t. rewrite E. reflexivity. }
  cbv zeta. rewrite X. reflexivity.
Qed.
Lemma rflips_ok k e ss rs : fit_otr k ss rs -> fit_otr k ss (rflips e 0 ss rs).
Proof. intros (H & N0 & K). split; [|auto]. apply rflips_rel. apply (Forall2_length' H). Qed.

(* ---------- another string for the sender, the one the receiver does not hold ---------- *)
Definition bump (c : bool) (z : Z) (p : N * N) : N * N :=
  if c then (w32 (Z.of_N (fst p) + z), snd p) else (fst p, w32 (Z.of_N (snd p) + z)).
Definition sflip (e : nat -> bool -> Z) (k : nat) (r : ot_recv) (s : ot_send) : ot_send :=
  map (fun t => let c := nth t (oChoice r) false in bump c (e (k + t) c) (nth t s (0, 0)%N)) (seq 0 (length s)).
Fixpoint sflips (e : nat -> bool -> Z) (k : nat) (rs : list ot_recv) (ss : list ot_send) : list ot_send :=
  match rs, ss with
  | r :: rs, s :: ss => sflip e k r s :: sflips e (k + length s) rs ss
  | _, _ => []
  end.
Lemma sflip_len e k r s : length (sflip e k r s) = length s.
Proof. unfold sflip. rewrite map_length, seq_length. reflexivity. Qed.
Lemma sflip_nth e k r s t : t < length s -> nth t (sflip e k r s) (0, 0)%N = bump (nth t (oChoice r) false) (e (k + t) (nth t (oChoice r) false)) (nth t s (0, 0)%N).
Proof. intros H. unfold sflip. rewrite nth_map_seq' by exact H. reflexivity. Qed.
Lemma bump_u32 c z p : u32p p -> u32p (bump c z p).
Proof. intros [H1 H2]. destruct c; split; cbn [bump fst snd]; try assumption; apply w32_lt. Qed.
Lemma bump_inv c z z' p : u32p p -> (z + z' = 0)%Z -> bump c z' (bump c z p) = p.
Proof. intros [H1 H2] E. destruct p as [a b]. cbn [fst snd] in *. destruct c; cbn [bump fst snd]; rewrite w32_shift by assumption; reflexivity. Qed.
Lemma sflip_rel e k r s : ot_rel s r -> ot_rel (sflip e k r s) r.
Proof.
  intros (L1 & L2 & H). unfold ot_rel. rewrite sflip_len. split; [exact L1|]. split; [exact L2|]. intros j Hj. rewrite sflip_nth, H by exact Hj.
  destruct (nth j (oChoice r) false); reflexivity.
Qed.
Lemma sflip_u32 e k r s : Forall u32p s -> Forall u32p (sflip e k r s).
Proof.
  intros H. rewrite Forall_forall in *. intros p Hp. unfold sflip in Hp. apply in_map_iff in Hp. destruct Hp as (t & <- & Ht). apply in_seq in Ht.
  apply bump_u32, H, nth_In. lia.
Qed.
Lemma sflip_inv e e' k r s : Forall u32p s -> (forall k c, (e k c + e' k c = 0)%Z) -> sflip e' k r (sflip e k r s) = s.
Proof.
  intros H E. apply list_eq_nth with (d := (0, 0)%N); rewrite !sflip_len; [reflexivity|]. intros i Hi.
  rewrite sflip_nth by (rewrite sflip_len; exact Hi). rewrite sflip_nth by exact Hi. apply bump_inv; [|apply E]. rewrite Forall_forall in H. apply H, nth_In. exact Hi.
Qed.
Lemma sflips_rel e : forall rs ss k, Forall2 ot_rel ss rs -> Forall2 ot_rel (sflips e k rs ss) rs.
Proof. induction rs as [|r rs IH]; intros ss k H; inversion H; subst; cbn [sflips]; constructor; [apply sflip_rel; assumption|apply IH; assumption]. Qed.
Lemma sflips_u32 e : forall rs ss k, str32 ss -> str32 (sflips e k rs ss).
Proof. induction rs as [|r rs IH]; intros [|s ss] k H; cbn [sflips]; try constructor; apply Forall_cons_iff in H; destruct H; [apply sflip_u32; assumption|apply IH; assumption]. Qed.
Lemma sflips_inv e e' : (forall k c, (e k c + e' k c = 0)%Z) -> forall rs ss k, length ss = length rs -> str32 ss -> sflips e' k rs (sflips e k rs ss) = ss.
Proof.
  intros E. induction rs as [|r rs IH]; intros [|s ss] k HL H; try discriminate; cbn [sflips]; [reflexivity|]. apply Forall_cons_iff in H. destruct H as [H1 H2].
  injection HL as HL. rewrite sflip_len, IH by assumption. rewrite sflip_inv by assumption. reflexivity.
Qed.
Lemma sflips_nonempty e : forall rs ss k, Forall (fun s => s <> []) ss -> Forall (fun s => s <> []) (sflips e k rs ss).
Proof.
  induction rs as [|r rs IH]; intros [|s ss] k H; cbn [sflips]; try constructor; apply Forall_cons_iff in H; destruct H as [H1 H2]; [|apply IH; assumption].
  intros E. apply H1. apply length_zero_iff_nil. rewrite <- (sflip_len e k r s), E. reflexivity.
Qed.
Lemma sflips_lens (P : nat -> Prop) e : forall rs ss k, Forall (fun s : ot_send => P (length s)) ss -> Forall (fun s => P (length s)) (sflips e k rs ss).
Proof. induction rs as [|r rs IH]; intros [|s ss] k H; cbn [sflips]; try constructor; apply Forall_cons_iff in H; destruct H as [H1 H2]; [rewrite sflip_len; exact H1|apply IH; exact H2]. Qed.
Lemma sflips_count e : forall rs ss k, length ss = length rs -> length (concat (sflips e k rs ss)) = length (concat ss).
Proof. induction rs as [|r rs IH]; intros [|s ss] k H; try discriminate; cbn [sflips concat]; [reflexivity|]. rewrite !app_length, sflip_len, IH by (injection H; auto). reflexivity. Qed.
Lemma sflips_ok k e rs ss : fit_ots k rs ss -> fit_ots k rs (sflips e 0 rs ss).
Proof.
  intros [(H & N0 & K) U]. pose proof (eq_sym (Forall2_length' H)) as L. split; [|apply sflips_u32; exact U]. split; [apply sflips_rel; exact H|].
  split; [apply sflips_nonempty; exact N0|]. rewrite sflips_count by exact L. exact K.
Qed.

(* the change that makes m0 - m1 + v the same as m0' - m1' + v' when d is the difference sent *)
Definition chgZ (v v' : nat -> Z) (D : nat -> bool) (k : nat) (c : bool) : Z := if xorb (D k) c then (v k - v' k)%Z else (v' k - v k)%Z.
Lemma chgZ_swap v v' D k c : (chgZ v v' D k c + chgZ v' v D k c = 0)%Z.
Proof. unfold chgZ. destruct (xorb (D k) c); lia. Qed.
Lemma sel_bump (d c : bool) v v' p :
  let z := if xorb d c then (v - v')%Z else (v' - v)%Z in
  let q := bump c z p in
  eqm (2 ^ 32) (Z.of_N (if d then snd q else fst q) - Z.of_N (if d then fst q else snd q) + v')
    (Z.of_N (if d then snd p else fst p) - Z.of_N (if d then fst p else snd p) + v).
Proof. destruct d, c; cbv zeta; cbn [xorb bump fst snd]; rewrite w32_eqm; apply eqm_refl'; lia. Qed.

(* ---------- bit injection ---------- *)
Lemma mat_bit_orel c d d' row off : length d' = length d -> orel (fun b b' => b = mbit c d row off /\ b' = mbit c d' row off) (mat_bit c d row off) (mat_bit c d' row off).
Proof.
  intros H. destruct (Nat.lt_ge_cases (row * c + off / 8) (length d)) as [Hi|Hi].
  - rewrite !mat_bit_ok by lia. cbn. auto.
  - unfold mat_bit, get. rewrite (proj2 (nth_error_None d _)), (proj2 (nth_error_None d' _)) by lia. exact I.
Qed.
Lemma mapM_bits nb c d d' i : 0 < nb -> length d' = length d -> forall l, (forall t, In t l -> i mod nb + t < nb) ->
  orel (fun x x' => x = map (fun t => inb nb c d (i + t)) l /\ x' = map (fun t => inb nb c d' (i + t)) l)
    (mapM (fun t => mat_bit c d (i / nb) (i mod nb + t)) l) (mapM (fun t => mat_bit c d' (i / nb) (i mod nb + t)) l).
Proof.
  intros Hnb HL. induction l as [|t l IH]; intros Hl; cbn [mapM map]; [cbn; auto|].
  assert (Ht : i mod nb + t < nb) by (apply Hl; left; reflexivity). pose proof (Nat.div_mod i nb ltac:(lia)) as Di.
  assert (E : i + t = nb * (i / nb) + (i mod nb + t)) by lia.
  apply orel_bind with (R := fun b b' => b = inb nb c d (i + t) /\ b' = inb nb c d' (i + t)).
  { unfold inb. rewrite <- (Nat.div_unique _ _ _ _ Ht E), <- (Nat.mod_unique _ _ _ _ Ht E). apply mat_bit_orel. exact HL. }
  intros b b' [-> ->]. eapply orel_bind; [apply IH; intros; apply Hl; right; assumption|]. intros x x' [-> ->]. cbn. auto.
Qed.
Lemma bi_bits_orel nb c d d' m : length d' = length d -> forall fuel i j acc acc',
  orel (fun x x' => x = acc ++ map (fun t => inb nb c d (i + t)) (seq 0 (m - j)) /\ x' = acc' ++ map (fun t => inb nb c d' (i + t)) (seq 0 (m - j)))
    (bi_bits fuel nb c d i j m acc) (bi_bits fuel nb c d' i j m acc').
Proof.
  intros HL. induction fuel as [|fuel IH]; intros i j acc acc'; cbn [bi_bits]; destruct (Nat.leb_spec m j) as [Hj|Hj].
  - replace (m - j) with 0 by lia. cbn. rewrite !app_nil_r. auto.
  - exact I.
  - replace (m - j) with 0 by lia. cbn. rewrite !app_nil_r. auto.
  - destruct (Nat.eqb_spec nb 0) as [H0|H0]; [exact I|]. cbv zeta. set (rem := Nat.min (m - j) (nb - i mod nb)).
    pose proof (Nat.mod_upper_bound i nb H0) as Hmod. assert (Hrem : 0 < rem <= m - j) by (unfold rem; lia).
    eapply orel_bind; [apply mapM_bits; [lia|exact HL|]; intros t Ht; apply in_seq in Ht; unfold rem in Ht; lia|].
    intros x x' [-> ->]. eapply orel_mono; [apply IH|]. intros y y' [-> ->].
    replace (m - j) with (rem + (m - (j + rem))) by lia. rewrite !seq_app_map, !app_assoc.
    split; (f_equal; apply map_ext; intros t; f_equal; lia).
Qed.

Definition ebit (nb c : nat) (d d' : list N) (k : nat) : bool := xorb (inb nb c d k) (inb nb c d' k).
(* the same message, lists of the same lengths *)
Definition rec_rel (x x' : list bool * ot_recv) : Prop :=
  fst x' = fst x /\ length (oChoice (snd x')) = length (oChoice (snd x)) /\ length (oMsg (snd x')) = length (oMsg (snd x)).
Lemma bi_recv1_flip total nb c d d' : length d' = length d -> forall ss rs i, Forall2 ot_rel ss rs ->
  orel (Forall2 rec_rel) (bi_recv1 total nb c d rs i) (bi_recv1 total nb c d' (rflips (ebit nb c d d') i ss rs) i).
Proof.
  intros HL. induction ss as [|s ss IH]; intros rs i H; inversion H as [|? r ? rs' HR H']; subst; cbn [rflips bi_recv1];
    (destruct (Nat.leb_spec total i) as [Ht|Ht]; [constructor|]); [exact I|].
  destruct HR as (L1 & L2 & HR). cbn [rflip oMsg oChoice]. rewrite map_length, seq_length, <- L1.
  cbv zeta. remember (Nat.min (length s) (total - i)) as m eqn:Em.
  destruct (Nat.eqb_spec m 0) as [H0|H0]; [exact I|].
  eapply orel_bind; [apply bi_bits_orel; exact HL|]. intros b b' [-> ->]. cbn [app]. rewrite Nat.sub_0_r.
  assert (E : orel (Forall2 rec_rel) (bi_recv1 total nb c d rs' (i + m)) (bi_recv1 total nb c d' (rflips (ebit nb c d d') (i + length s) ss rs') (i + m))).
  { destruct (Nat.eq_dec m (length s)) as [->|Hm]; [apply IH; exact H'|]. assert (i + m = total) by lia.
    destruct ss as [|s2 ss], rs' as [|r2 rs']; cbn [rflips bi_recv1]; replace (total <=? i + m) with true by lia; constructor. }
  eapply orel_bind; [exact E|]. intros x x' Hx. cbn. constructor; [|exact Hx]. unfold rec_rel. cbn [fst snd oChoice oMsg].
  set (bs := map (fun t => inb nb c d (i + t)) (seq 0 m)). set (bs' := map (fun t => inb nb c d' (i + t)) (seq 0 m)).
  set (ch := map (fun t => xorb (nth t (oChoice r) false) (ebit nb c d d' (i + t))) (seq 0 (length s))).
  assert (Lb : length bs = m) by (unfold bs; rewrite map_length, seq_length; reflexivity). assert (Lb' : length bs' = m) by (unfold bs'; rewrite map_length, seq_length; reflexivity).
  assert (Lc : length (firstn m (oChoice r)) = m) by (rewrite firstn_length; lia).
  assert (Lc' : length (firstn m ch) = m) by (unfold ch; rewrite firstn_length, map_length, seq_length; lia).
  split; [|split].
  - apply list_eq_nth with (d := false); rewrite !map2_length; [lia|]. intros t Hlt.
    rewrite !(@map2_nth _ _ _ xorb _ _ t false false) by lia. rewrite !nth_firstn_lt by lia. unfold bs, bs', ch. rewrite !nth_map_seq' by lia. cbn [Nat.add].
    unfold ebit. destruct (inb nb c d (i + t)), (inb nb c d' (i + t)), (nth t (oChoice r) false); reflexivity.
  - rewrite !map2_length. lia.
  - rewrite map_length, seq_length. exact L1.
Qed.

Lemma Forall2_map_eq A B C (f : A -> C) (g : B -> C) (R : A -> B -> Prop) l m : Forall2 R l m -> (forall x y, R x y -> g y = f x) -> map g m = map f l.
Proof. intros H K. apply Forall2_maps, (Forall2_mono H K). Qed.

Definition vbit (nb c : nat) (d : list N) (k : nat) : Z := (1 - 2 * Z.b2z (inb nb c d k))%Z.
Lemma bi_send_flip total nb c d d' w mask D : length d' = length d -> forall ss rs diffs i, Forall2 ot_rel ss rs ->
  (forall t, D (i + t) = nth t (concat diffs) false) ->
  orel (fun y y' => snd y' = snd y /\ length (fst y') = length (fst y)) (bi_send total nb c d w mask ss diffs i)
    (bi_send total nb c d' w mask (sflips (chgZ (vbit nb c d) (vbit nb c d') D) i rs ss) diffs i).
Proof.
  intros HL. induction ss as [|s ss IH]; intros rs diffs i H HD; inversion H as [|? r ? rs' HR H']; subst; cbn [sflips bi_send];
    (destruct (Nat.leb_spec total i) as [Ht|Ht]; [cbn; auto|]); [exact I|].
  destruct diffs as [|diff diffs]; [exact I|]. rewrite sflip_len. cbv zeta. remember (Nat.min (length s) (total - i)) as m eqn:Em.
  destruct (Nat.eqb_spec m 0) as [H0|H0]; [exact I|]. destruct (Nat.eqb_spec (length diff) m) as [Ld|Ld]; cbn [negb throw_if bind]; [|exact I].
  eapply orel_bind with (R := Forall2 (fun o o' => snd o' = snd o)).
  { apply orel_mapM. intros j Hj. apply in_seq in Hj. assert (Hjs : j < length s) by lia.
    eapply orel_bind; [apply (@mat_bit_orel c d d'); exact HL|]. intros y y' [-> ->].
    rewrite !(get_ok false) by lia. cbn [bind]. rewrite (get_ok (0, 0)%N) by exact Hjs. rewrite (get_ok (0, 0)%N) by (rewrite sflip_len; exact Hjs). cbn [bind].
    cbn [orel fst snd]. f_equal. unfold sub32. apply w32_same. rewrite !add32_eqm, !w32_eqm. rewrite sflip_nth by exact Hjs.
    specialize (HD j). cbn [concat] in HD. rewrite app_nth1 in HD by lia.
    pose proof (@sel_bump (nth j diff false) (nth j (oChoice r) false) (vbit nb c d (i + j)) (vbit nb c d' (i + j)) (nth j s (0, 0)%N)) as SB. cbv zeta in SB.
    rewrite <- HD in *. fold (chgZ (vbit nb c d) (vbit nb c d') D (i + j) (nth j (oChoice r) false)) in SB. 
    fold (inb nb c d (i + j)). fold (inb nb c d' (i + j)). fold (vbit nb c d (i + j)). fold (vbit nb c d' (i + j)).
    set (q := bump _ _ _) in *. clearbody q.
    etransitivity; [|etransitivity; [exact SB|]]; apply eqm_refl'; ring. }
  intros ou ou' Ho. 
  assert (E : orel (fun y y' => snd y' = snd y /\ length (fst y') = length (fst y)) (bi_send total nb c d w mask ss diffs (i + m))
     (bi_send total nb c d' w mask (sflips (chgZ (vbit nb c d) (vbit nb c d') D) (i + length s) rs' ss) diffs (i + m))).
  { destruct (Nat.eq_dec m (length s)) as [->|Hm].
    - apply IH; [exact H'|]. intros t. specialize (HD (length diff + t)). cbn [concat] in HD. rewrite app_nth2 in HD by lia.
      replace (length diff + t - length diff) with t in HD by lia. rewrite <- HD, Ld. f_equal. lia.
    - assert (i + m = total) by lia. destruct ss as [|s2 ss], rs' as [|r2 rs']; cbn [sflips bi_send]; replace (total <=? i + m) with true by lia; cbn; auto. }
  eapply orel_bind; [exact E|]. intros y y' [E1 E2]. cbn. split.
  - f_equal; [|exact E1]. f_equal. apply (Forall2_maps Ho).
  - rewrite !app_length, !map_length, E2, (Forall2_length' Ho). reflexivity.
Qed.

Lemma bi_recv2_len w mask : forall rs rs' msgs, Forall2 (fun r r' => length (oChoice r') = length (oChoice r) /\ length (oMsg r') = length (oMsg r)) rs rs' ->
  orel (fun o o' => length o' = length o) (bi_recv2 w mask rs msgs) (bi_recv2 w mask rs' msgs).
Proof.
  intros rs rs' msgs H. revert msgs. induction H as [|r r' rs rs' [H1 H2] H IH]; intros msgs; cbn [bi_recv2]; [reflexivity|].
  destruct msgs as [|buf msgs]; [exact I|]. cbv zeta. rewrite H1. destruct (negb _); cbn [throw_if bind]; [exact I|].
  destruct (bi_unpack w (length (oChoice r)) buf) as [up| | |]; cbn [bind]; try exact I.
  eapply orel_bind with (R := Forall2 (fun _ _ => True)).
  { apply orel_mapM. intros j _. eapply orel_bind; [apply (orel_get j false false); exact H1|]. intros ? ? _.
    eapply orel_bind; [apply (orel_get j 0%N 0%N); exact H2|]. intros ? ? _. destruct (get up j); cbn; auto. }
  intros x x' Hx. eapply orel_bind; [apply IH|]. intros y y' Hy. cbn. rewrite !app_length, Hy, (Forall2_length' Hx). reflexivity.
Qed.
