(* Proofs that the messages of hadamardSum hide the bits and the values. *)
From Verif Require Import Base Words GmwModel ShuffleModel ShuffleSpec KeyMultModel BitInjModel RadixModel RadixSpec BitInjProofs PrivSpec SortViewModel SortPrivSpec.
From Verif Require Import PermCorProofs GmwProofs HadamardProofs OtPrivacy.
From Coq Require Import Setoid Morphisms.

Lemma vec_bit_orel f f' k : length f' = length f -> orel (fun b b' => b = sbit f k /\ b' = sbit f' k) (vec_bit f k) (vec_bit f' k).
Proof. intros H. unfold vec_bit. eapply orel_mono; [apply (@mat_bit_orel 0 f f' 0 k H)|]. unfold mbit. cbn [Nat.mul Nat.add]. auto. Qed.
Lemma readN_orel (l l' : list N) i n : length l' = length l -> orel (fun _ _ => True) (readN l i n) (readN l' i n).
Proof. intros H. unfold readN. rewrite H. destruct (_ <=? _); cbn; auto. Qed.
Lemma set_orel (l l' : list N) i a a' : length l' = length l -> orel (fun x x' => length x' = length x) (set l i a) (set l' i a').
Proof. intros H. unfold set. rewrite H. destruct (_ <? _); cbn; [|exact I]. rewrite !upd_length. exact H. Qed.
Lemma forN_orel A B (R : A -> B -> Prop) (f : nat -> A -> outcome A) (g : nat -> B -> outcome B) : forall n k x y, (forall i x y, R x y -> orel R (f i x) (g i y)) -> R x y ->
  orel R (forN k n f x) (forN k n g y).
Proof. induction n as [|n IH]; intros k x y H HR; cbn [forN]; [exact HR|]. eapply orel_bind; [apply H; exact HR|]. intros u v Huv. apply IH; assumption. Qed.

Definition fbit (f f' : list N) (k : nat) : bool := xorb (sbit f k) (sbit f' k).
Lemma hs_send1_flip rows cols f f' : length f' = length f -> forall ss rs i, Forall2 ot_rel ss rs ->
  orel (fun x x' => fst x' = fst x /\ length (snd x') = length (snd x)) (hs_send1 rows cols f rs i) (hs_send1 rows cols f' (rflips (fbit f f') (i * cols) ss rs) i).
Proof.
  intros HL. induction ss as [|s ss IH]; intros rs i H; inversion H as [|? r ? rs' HR H']; subst; cbn [rflips hs_send1];
    (destruct (Nat.leb_spec rows i) as [Ht|Ht]; [cbn; auto|]); [exact I|].
  destruct HR as (L1 & L2 & HR). destruct (Nat.eqb_spec cols 0) as [C0|C0]; [exact I|].
  cbn [rflip oMsg oChoice]. rewrite map_length, seq_length, <- L1.
  destruct (Nat.eqb_spec (length s mod cols) 0) as [Em0|Em0]; cbn [negb throw_if bind]; [|exact I].
  pose proof (Nat.div_mod (length s) cols C0) as Ds.
  cbv zeta. remember (Nat.min (rows - i) (length s / cols)) as m eqn:Em. destruct (Nat.eqb_spec m 0) as [H0|H0]; [exact I|].
  assert (Hmc : m * cols <= length s) by nia.
  set (ch := map (fun t => xorb (nth t (oChoice r) false) (fbit f f' (i * cols + t))) (seq 0 (length s))).
  assert (Lc : length ch = length s) by (unfold ch; rewrite map_length, seq_length; reflexivity).
  eapply orel_bind with (R := Forall2 (fun x y => y = x)).
  { apply orel_mapM. intros t Hm. apply in_seq in Hm. eapply orel_bind; [apply vec_bit_orel; exact HL|]. intros b b' [-> ->].
    rewrite (get_ok false) by lia. rewrite (get_ok false) by lia. cbn. unfold ch. rewrite nth_map_seq' by lia. cbn [Nat.add]. unfold fbit.
    destruct (sbit f (i * cols + t)), (sbit f' (i * cols + t)), (nth t (oChoice r) false); reflexivity. }
  intros x x' Hx. apply Forall2_maps with (f := fun x => x) (g := fun x => x) in Hx. rewrite !map_id in Hx. subst x'.
  eapply orel_bind with (R := Forall2 (fun _ _ => True)).
  { apply orel_mapM. intros j _. eapply orel_bind; [apply readN_orel; rewrite map_length, seq_length; exact L1|]. intros; exact I. }
  intros sh sh' Hsh.
  assert (E : orel (fun x x' => fst x' = fst x /\ length (snd x') = length (snd x)) (hs_send1 rows cols f rs' (i + m)) (hs_send1 rows cols f' (rflips (fbit f f') (i * cols + length s) ss rs') (i + m))).
  { destruct (Nat.eq_dec m (length s / cols)) as [Ed|Hm].
    - replace (i * cols + length s) with ((i + m) * cols) by nia. apply IH; exact H'.
    - assert (i + m = rows) by lia. destruct ss as [|s2 ss], rs' as [|r2 rs']; cbn [rflips hs_send1]; replace (rows <=? i + m) with true by lia; cbn; auto. }
  eapply orel_bind; [exact E|]. intros y y' [E1 E2]. cbn. rewrite E1. split; [reflexivity|]. rewrite !app_length, E2, (Forall2_length' Hsh). reflexivity.
Qed.

Definition vsum (f s : list N) (k : nat) : Z := ((1 - 2 * Z.b2z (sbit f k)) * Z.of_N (nth k s 0%N))%Z.
Lemma hs_recv_flip rows cols f f' s0 s0' D : length f' = length f -> length s0' = length s0 -> forall ss rs diffs i, Forall2 ot_rel ss rs ->
  (forall t, D (i * cols + t) = nth t (concat diffs) false) ->
  orel (fun y y' => fst y' = fst y /\ length (snd y') = length (snd y)) (hs_recv rows cols s0 f ss diffs i)
    (hs_recv rows cols s0' f' (sflips (chgZ (vsum f s0) (vsum f' s0') D) (i * cols) rs ss) diffs i).
Proof.
  intros HL HS. induction ss as [|s ss IH]; intros rs diffs i H HD; inversion H as [|? r ? rs' HR H']; subst; cbn [sflips hs_recv];
    (destruct (Nat.leb_spec rows i) as [Ht|Ht]; [cbn; auto|]); [exact I|].
  destruct diffs as [|diff diffs]; [exact I|]. destruct (Nat.eqb_spec cols 0) as [C0|C0]; [exact I|]. rewrite sflip_len.
  destruct (Nat.eqb_spec (length s mod cols) 0) as [Em0|Em0]; cbn [negb throw_if bind]; [|exact I].
  pose proof (Nat.div_mod (length s) cols C0) as Ds.
  cbv zeta. remember (Nat.min (rows - i) (length s / cols)) as m eqn:Em. destruct (Nat.eqb_spec m 0) as [H0|H0]; [exact I|].
  assert (Hmc : m * cols <= length s) by nia.
  destruct (Nat.eqb_spec (length diff) (m * cols)) as [Ld|Ld]; cbn [negb throw_if bind]; [|exact I].
  eapply orel_bind with (R := Forall2 (fun o o' => fst o' = fst o)).
  { apply orel_mapM. intros t Hj. apply in_seq in Hj. assert (Hjs : t < length s) by lia.
    eapply orel_bind; [apply vec_bit_orel; exact HL|]. intros y y' [-> ->].
    eapply orel_bind; [apply (orel_get (i * cols + t) 0%N 0%N HS)|]. intros sk sk' (-> & -> & _).
    rewrite !(get_ok false) by lia. cbn [bind]. rewrite (get_ok (0, 0)%N) by exact Hjs. rewrite (get_ok (0, 0)%N) by (rewrite sflip_len; exact Hjs). cbn [bind].
    cbn [orel fst snd]. unfold sub32 at 1 3. apply w32_same. rewrite !add32_eqm, !sub32_eqm, !mul32_eqm. rewrite sflip_nth by exact Hjs.
    specialize (HD t). cbn [concat] in HD. rewrite app_nth1 in HD by lia.
    pose proof (@sel_bump (nth t diff false) (nth t (oChoice r) false) (vsum f s0 (i * cols + t)) (vsum f' s0' (i * cols + t)) (nth t s (0, 0)%N)) as SB. cbv zeta in SB.
    rewrite <- HD in *. fold (chgZ (vsum f s0) (vsum f' s0') D (i * cols + t) (nth t (oChoice r) false)) in SB.
    set (q := bump _ _ _) in *. clearbody q.
    assert (B1 : forall b : bool, Z.of_N (N.b2n (negb b)) = (1 - Z.b2z b)%Z) by (intros []; reflexivity).
    assert (B2 : forall b : bool, Z.of_N (N.b2n b) = Z.b2z b) by (intros []; reflexivity).
    rewrite !B1, !B2. etransitivity; [|etransitivity; [exact SB|]]; apply eqm_refl'; unfold vsum; ring. }
  intros tr tr' Htr.
  eapply orel_bind with (R := Forall2 (fun _ _ => True)).
  { apply orel_mapM. intros j _. eapply orel_bind; [apply readN_orel; rewrite !map_length; apply (Forall2_length' Htr)|]. intros; exact I. }
  intros sh sh' Hsh.
  assert (E : orel (fun y y' => fst y' = fst y /\ length (snd y') = length (snd y)) (hs_recv rows cols s0 f ss diffs (i + m))
    (hs_recv rows cols s0' f' (sflips (chgZ (vsum f s0) (vsum f' s0') D) (i * cols + length s) rs' ss) diffs (i + m))).
  { destruct (Nat.eq_dec m (length s / cols)) as [Ed|Hm].
    - replace (i * cols + length s) with ((i + m) * cols) by nia. apply IH; [exact H'|]. intros t. specialize (HD (length diff + t)). cbn [concat] in HD.
      rewrite app_nth2 in HD by lia. replace (length diff + t - length diff) with t in HD by lia. rewrite <- HD, Ld. f_equal. lia.
    - assert (i + m = rows) by lia. destruct ss as [|s2 ss], rs' as [|r2 rs']; cbn [sflips hs_recv]; replace (rows <=? i + m) with true by lia; cbn; auto. }
  eapply orel_bind; [exact E|]. intros y y' [E1 E2]. cbn. rewrite E1. split; [f_equal; apply (Forall2_maps Htr)|].
  rewrite !app_length, E2, (Forall2_length' Hsh). reflexivity.
Qed.

Lemma hs_send2_len rows cols f f' : length f' = length f -> forall tts sh sh' i, length sh' = length sh ->
  orel (fun x x' => length x' = length x) (hs_send2 rows cols f tts sh i) (hs_send2 rows cols f' tts sh' i).
Proof.
  intros HL. induction tts as [|tm tts IH]; intros sh sh' i H; cbn [hs_send2]; destruct (rows <=? i); try exact H; [exact I|].
  destruct (cols =? 0); [exact I|]. cbv zeta. destruct (_ =? 0); [apply IH; exact H|].
  eapply orel_bind with (R := fun x x' => length x' = length x); [|intros x x' Hx; apply IH; exact Hx].
  apply forN_orel; [|exact H]. intros j x x' Hx. eapply orel_bind; [apply (orel_get (i + j) 0%N 0%N Hx)|]. intros a a' _.
  eapply orel_bind with (R := Forall2 (fun _ _ => True)).
  { apply orel_mapM. intros t _. eapply orel_bind; [apply vec_bit_orel; exact HL|]. intros b b' _. destruct (get tm (j * cols + t)); cbn; auto. }
  intros u u' _. apply set_orel. exact Hx.
Qed.
