(* Proofs that the messages of the conversion to mod 3 and of the mod 2 protocols hide the inputs. *)
From Coq Require Import Btauto.
From Verif Require Import Base Words Mod3Model ConvModel ConvSpec ConvProofs PrivSpec.

(* ---------- a function on the positions of segments ---------- *)
Fixpoint imap {A B} (h : nat -> A -> B) (k : nat) (l : list A) : list B :=
  match l with [] => [] | a :: r => h k a :: imap h (S k) r end.
Fixpoint segmap {A B} (h : nat -> A -> B) (k : nat) (ss : list (list A)) : list (list B) :=
  match ss with [] => [] | t :: r => imap h k t :: segmap h (k + length t) r end.

Lemma imap_length A B (h : nat -> A -> B) l : forall k, length (imap h k l) = length l.
Proof. induction l as [|a l IH]; intros k; [reflexivity|]. cbn. rewrite IH. reflexivity. Qed.
Lemma segmap_total A B (h : nat -> A -> B) ss : forall k, total (segmap h k ss) = total ss.
Proof. induction ss as [|t ss IH]; intros k; [reflexivity|]. cbn [segmap]. rewrite !total_cons, imap_length, IH. reflexivity. Qed.
Lemma imap_firstn A B (h : nat -> A -> B) m : forall l k, firstn m (imap h k l) = imap h k (firstn m l).
Proof. induction m as [|m IH]; intros [|a l] k; try reflexivity. cbn. rewrite IH. reflexivity. Qed.

Lemma imap_rel A B (R : A -> B -> Prop) (P : A -> Prop) (h : nat -> A -> A) (bs : nat -> B) t u :
  Forall2 R t u -> Forall P t -> forall k, (forall i b, nth_error u i = Some b -> bs (k + i) = b) ->
  (forall i a, R a (bs i) -> P a -> R (h i a) (bs i) /\ P (h i a)) ->
  Forall2 R (imap h k t) u /\ Forall P (imap h k t).
Proof.
  intros H HP k Hb Hh. revert k Hb HP. induction H as [|a b t u Hab H IH]; intros k Hb HP; [split; constructor|].
  apply Forall_cons_iff in HP as [Pa HP]. cbn [imap].
  assert (E : bs k = b). { rewrite <- (Nat.add_0_r k). apply (Hb 0). reflexivity. }
  destruct (IH (S k)) as [I1 I2]; [|exact HP|].
  - intros i b' Hi. replace (S k + i) with (k + S i) by lia. apply Hb. exact Hi.
  - rewrite <- E in Hab. destruct (Hh k a Hab Pa) as [Q1 Q2]. rewrite E in Q1. split; constructor; assumption.
Qed.

Lemma segmap_rel A B (R : A -> B -> Prop) (P : A -> Prop) (h : nat -> A -> A) (bs : nat -> B) ss rs :
  segs_rel R ss rs -> Forall (Forall P) ss -> forall k, (forall i b, nth_error (concat rs) i = Some b -> bs (k + i) = b) ->
  (forall i a, R a (bs i) -> P a -> R (h i a) (bs i) /\ P (h i a)) ->
  segs_rel R (segmap h k ss) rs /\ Forall (Forall P) (segmap h k ss).
Proof.
  intros H HP k Hb Hh. revert k Hb HP. induction H as [|t u ss rs Htu H IH]; intros k Hb HP; [split; constructor|].
  apply Forall_cons_iff in HP as [Pt HP]. cbn [segmap]. pose proof (Forall2_len Htu) as L.
  destruct (imap_rel Htu Pt (k := k) (h := h) (bs := bs)) as [I1 I2]; [|exact Hh|].
  - intros i b Hi. apply Hb. cbn [concat]. rewrite nth_error_app1; [exact Hi|]. apply nth_error_Some. congruence.
  - destruct (IH (k + length t)) as [J1 J2]; [|exact HP|].
    + intros i b Hi. replace (k + length t + i) with (k + (length t + i)) by lia. apply Hb. cbn [concat].
      rewrite nth_error_app2 by lia. rewrite L, Nat.add_comm, Nat.add_sub. exact Hi.
    + split; constructor; assumption.
Qed.

Lemma imap_inv A B (R : A -> B -> Prop) (P : A -> Prop) (h g : nat -> A -> A) (bs : nat -> B) t u :
  Forall2 R t u -> Forall P t -> forall k, (forall i b, nth_error u i = Some b -> bs (k + i) = b) ->
  (forall i a, R a (bs i) -> P a -> g i (h i a) = a) -> imap g k (imap h k t) = t.
Proof.
  intros H HP k Hb Hh. revert k Hb HP. induction H as [|a b t u Hab H IH]; intros k Hb HP; [reflexivity|].
  apply Forall_cons_iff in HP as [Pa HP]. cbn [imap].
  assert (E : bs k = b). { rewrite <- (Nat.add_0_r k). apply (Hb 0). reflexivity. }
  rewrite IH; [|intros i b' Hi; replace (S k + i) with (k + S i) by lia; apply Hb; exact Hi|exact HP].
  rewrite Hh; [reflexivity|rewrite E; exact Hab|exact Pa].
Qed.

Lemma segmap_inv A B (R : A -> B -> Prop) (P : A -> Prop) (h g : nat -> A -> A) (bs : nat -> B) ss rs :
  segs_rel R ss rs -> Forall (Forall P) ss -> forall k, (forall i b, nth_error (concat rs) i = Some b -> bs (k + i) = b) ->
  (forall i a, R a (bs i) -> P a -> g i (h i a) = a) -> segmap g k (segmap h k ss) = ss.
Proof.
  intros H HP k Hb Hh. revert k Hb HP. induction H as [|t u ss rs Htu H IH]; intros k Hb HP; [reflexivity|].
  apply Forall_cons_iff in HP as [Pt HP]. cbn [segmap]. pose proof (Forall2_len Htu) as L. rewrite imap_length.
  rewrite (imap_inv Htu Pt (bs := bs)); [|intros i b Hi; apply Hb; cbn [concat]; rewrite nth_error_app1; [exact Hi|apply nth_error_Some; congruence]|exact Hh].
  rewrite IH; [reflexivity| |exact HP]. intros i b Hi. replace (k + length t + i) with (k + (length t + i)) by lia. apply Hb. cbn [concat].
  rewrite nth_error_app2 by lia. rewrite L, Nat.add_comm, Nat.add_sub. exact Hi.
Qed.

Lemma nth_error_d A (d : A) l i b : nth_error l i = Some b -> nth (0 + i) l d = b.
Proof. cbn [Nat.add]. revert i. induction l as [|a l IH]; intros [|i]; cbn; intros H; try congruence. apply IH. exact H. Qed.

(* a bijection position by position gives hides *)
Lemma hides_segs A B X V (d : B) (R : A -> B -> Prop) (P : A -> Prop) (h g : nat -> A -> A) rs (view : X -> list (list A) -> V) x x' :
  (forall i a, R a (nth i (concat rs) d) -> P a -> R (h i a) (nth i (concat rs) d) /\ P (h i a)) ->
  (forall i a, R a (nth i (concat rs) d) -> P a -> R (g i a) (nth i (concat rs) d) /\ P (g i a)) ->
  (forall i a, R a (nth i (concat rs) d) -> P a -> g i (h i a) = a) ->
  (forall i a, R a (nth i (concat rs) d) -> P a -> h i (g i a) = a) ->
  (forall ss, fits R P rs ss -> view x' (segmap h 0 ss) = view x ss) ->
  hides (fits R P rs) view x x'.
Proof.
  intros H1 H2 H3 H4 H5. exists (segmap h 0), (segmap g 0). split.
  - intros ss Hs. pose proof Hs as [S1 S2]. split; [|split].
    + apply (segmap_rel S1 S2 (bs := fun i => nth i (concat rs) d)); [intros; apply nth_error_d; assumption|exact H1].
    + apply (segmap_inv S1 S2 (bs := fun i => nth i (concat rs) d)); [intros; apply nth_error_d; assumption|exact H3].
    + apply H5. exact Hs.
  - intros ss [S1 S2]. split.
    + apply (segmap_rel S1 S2 (bs := fun i => nth i (concat rs) d)); [intros; apply nth_error_d; assumption|exact H2].
    + apply (segmap_inv S1 S2 (bs := fun i => nth i (concat rs) d)); [intros; apply nth_error_d; assumption|exact H4].
Qed.

Ltac beq := apply N.bits_inj; intros ?i.
Lemma blk_lxor a b : blk a -> blk b -> blk (N.lxor a b).
Proof. intros Ha Hb i Hi. rewrite N.lxor_spec, Ha, Hb by assumption. reflexivity. Qed.
Lemma blk_land a b : blk a -> blk (N.land a b).
Proof. intros Ha i Hi. rewrite N.land_spec, Ha by assumption. reflexivity. Qed.
Lemma blk_land2 a b : blk b -> blk (N.land a b).
Proof. intros Ha i Hi. rewrite N.land_spec, Ha by assumption. apply andb_false_r. Qed.
Lemma blk_ldiff a b : blk a -> blk (N.ldiff a b).
Proof. intros Ha i Hi. rewrite N.ldiff_spec, Ha by assumption. reflexivity. Qed.

(* ---------- conversion: the receiver's messages ---------- *)
Definition tr0 := TritR 0 0 0.
Definition ts0 := TritS 0 0 0 0.
Definition wsel (c a b : N) : N := N.lxor b (N.land c (N.lxor a b)).
Definition conv_rflip (s : trit_s) (x x' : N) (r : trit_r) : trit_r :=
  let c := N.lxor (trC r) (N.lxor x x') in TritR c (wsel c (tsL1 s) (tsL0 s)) (wsel c (tsM1 s) (tsM0 s)).

Lemma nth_concat_P A (P : A -> Prop) (d : A) ss i : P d -> Forall (Forall P) ss -> P (nth i (concat ss) d).
Proof.
  intros Hd H. destruct (Nat.lt_ge_cases i (length (concat ss))) as [Hi|Hi].
  - assert (F : Forall P (concat ss)). { clear Hi. induction H as [|t ss Ht H IH]; [constructor|]. cbn. apply Forall_app. split; assumption. }
    rewrite Forall_forall in F. apply F. apply nth_In. exact Hi.
  - rewrite nth_overflow by exact Hi. exact Hd.
Qed.
Lemma blk0 : blk 0. Proof. intros i _. apply N.bits_0. Qed.

Ltac lane i := apply N.bits_inj; intros i; bits_rw.
Ltac lanes2 := repeat match goal with H : context [N.testbit _ _] |- _ => revert H end;
  repeat match goal with |- context [N.testbit ?x ?i] => destruct (N.testbit x i) end; cbn; try reflexivity; intuition congruence.

Lemma wsel_bit c a b i : N.testbit (wsel c a b) i = if N.testbit c i then N.testbit a i else N.testbit b i.
Proof. unfold wsel. bits_rw. destruct (N.testbit c i), (N.testbit a i), (N.testbit b i); reflexivity. Qed.
Lemma blk_wsel c a b : blk a -> blk b -> blk (wsel c a b).
Proof. intros Ha Hb i Hi. rewrite wsel_bit, Ha, Hb by assumption. destruct (N.testbit c i); reflexivity. Qed.

Lemma conv_rflip_ok s x x' r : blk_ts s -> blk x -> blk x' -> trit_ot s r -> blk_tr r ->
  trit_ot s (conv_rflip s x x' r) /\ blk_tr (conv_rflip s x x' r) /\ conv_rflip s x' x (conv_rflip s x x' r) = r /\
  conv_cor (conv_rflip s x x' r) x' = conv_cor r x.
Proof.
  intros (B1 & B2 & B3 & B4) Bx Bx' H (C1 & C2 & C3). split; [|split; [|split]].
  - intros i. destruct (H i) as (V0 & V1 & _). split; [exact V0|]. split; [exact V1|]. cbn [conv_rflip trM trL trC]. rewrite !wsel_bit. split; reflexivity.
  - unfold blk_tr. cbn [conv_rflip trM trL trC]. split; [apply blk_lxor; [assumption|apply blk_lxor; assumption]|]. split; apply blk_wsel; assumption.
  - destruct r as [c l m]. unfold conv_rflip. cbn [trM trL trC] in *.
    assert (E : N.lxor (N.lxor c (N.lxor x x')) (N.lxor x' x) = c).
    { lane i. destruct (N.testbit c i), (N.testbit x i), (N.testbit x' i); reflexivity. }
    rewrite E. f_equal; apply N.bits_inj; intros i; rewrite wsel_bit; destruct (H i) as (_ & _ & Hm & Hl); cbn [trM trL trC] in *; [rewrite Hl|rewrite Hm]; reflexivity.
  - unfold conv_cor, conv_rflip. cbn [trC]. lane i. destruct (N.testbit (trC r) i), (N.testbit x i), (N.testbit x' i); reflexivity.
Qed.

Definition at_ (l : list N) i := nth i l 0%N.
Lemma skipn_nth A (d : A) m : forall l i, nth i (skipn m l) d = nth (m + i) l d.
Proof. induction m as [|m IH]; intros [|a l] i; try reflexivity; [destruct i; reflexivity|]. cbn [skipn Nat.add nth]. apply IH. Qed.

Lemma conv_cor_map h : forall t x x' k, length x = length x' -> (forall i, i < length x -> i < length t -> conv_cor (h (k + i) (nth i t tr0)) (nth i x' 0%N) = conv_cor (nth i t tr0) (nth i x 0%N)) ->
  map2 conv_cor (imap h k t) x' = map2 conv_cor t x.
Proof.
  induction t as [|r t IH]; intros [|a x] [|b x'] k L H; try discriminate L; try reflexivity. cbn [imap map2]. f_equal.
  - specialize (H 0). cbn in H. rewrite Nat.add_0_r in H. apply H; lia.
  - apply IH; [cbn in L; lia|]. intros i Hx Ht. specialize (H (S i)). cbn in H. rewrite Nat.add_succ_r in H. apply H; lia.
Qed.

Lemma firstn_nth A (d : A) m : forall l i, i < m -> nth i (firstn m l) d = nth i l d.
Proof. induction m as [|m IH]; intros [|a l] i H; try lia; try reflexivity. destruct i; [reflexivity|]. cbn. apply IH. lia. Qed.

Lemma conv_cor_view h : forall ss x x' k, length x = length x' ->
  (forall i, i < length x -> i < total ss -> conv_cor (h (k + i) (nth i (concat ss) tr0)) (nth i x' 0%N) = conv_cor (nth i (concat ss) tr0) (nth i x 0%N)) ->
  conv_recv_cor (segmap h k ss) x' = conv_recv_cor ss x.
Proof.
  induction ss as [|t ss IH]; intros [|a x] [|b x'] k L H; try discriminate L; try reflexivity.
  set (X := a :: x) in *. set (X' := b :: x') in *. cbn [segmap conv_recv_cor]. rewrite imap_length.
  replace (length X') with (length X). set (m := Nat.min (length X) (length t)).
  assert (Hm : m <= length X /\ m <= length t) by lia. 
  rewrite (IH (skipn m X) (skipn m X') (k + length t)).
  - rewrite imap_firstn. rewrite (@conv_cor_map h (firstn m t) (firstn m X) (firstn m X') k); [reflexivity|rewrite !firstn_length; lia|].
    intros i Hx Ht. rewrite firstn_length in Hx, Ht. rewrite !firstn_nth by lia. specialize (H i). cbn [concat] in H. rewrite app_nth1 in H by lia. apply H; [lia|]. rewrite total_cons. lia.
  - rewrite !skipn_length. lia.
  - intros i Hx Ht. rewrite skipn_length in Hx. assert (m = length t) by lia. rewrite !skipn_nth. specialize (H (m + i)). cbn [concat] in H. rewrite app_nth2 in H by lia.
    replace (m + i - length t) with i in H by lia. replace (k + length t + i) with (k + (m + i)) by lia. apply H; [lia|]. rewrite total_cons. lia.
Qed.

Lemma nth_blk l i : Forall blk l -> blk (nth i l 0%N).
Proof. intros H. destruct (Nat.lt_ge_cases i (length l)) as [Hi|Hi]; [rewrite Forall_forall in H; apply H, nth_In, Hi|rewrite nth_overflow by exact Hi; apply blk0]. Qed.

Lemma fits_nth A B (R : A -> B -> Prop) P rs ss i da db : fits R P rs ss -> i < total ss -> R (nth i (concat ss) da) (nth i (concat rs) db) /\ P (nth i (concat ss) da).
Proof.
  intros [H HP] Hi. split.
  - clear HP. assert (F : Forall2 R (concat ss) (concat rs)). { clear Hi. induction H; [constructor|]. cbn. apply Forall2_app; assumption. }
    unfold total in Hi. revert i Hi. induction F as [|a b l l' Hab F IH]; intros [|i] Hi; cbn in *; try lia; [exact Hab|]. apply IH. lia.
  - assert (F : Forall P (concat ss)). { clear Hi H. induction HP; [constructor|]. cbn. apply Forall_app. split; assumption. }
    rewrite Forall_forall in F. apply F, nth_In, Hi.
Qed.

Lemma conv_recv_hides ss x x' : Forall (Forall blk_ts) ss -> Forall blk x -> Forall blk x' -> length x = length x' ->
  hides (fits (fun r s => trit_ot s r) blk_tr ss) (fun x rs => conv_recv_cor rs x) x x'.
Proof.
  intros Bs Bx Bx' L.
  assert (D : blk_ts ts0) by exact (conj blk0 (conj blk0 (conj blk0 blk0))).
  apply hides_segs with (d := ts0) (h := fun i => conv_rflip (nth i (concat ss) ts0) (nth i x 0%N) (nth i x' 0%N)) (g := fun i => conv_rflip (nth i (concat ss) ts0) (nth i x' 0%N) (nth i x 0%N)).
  - intros i a Ha Pa. destruct (conv_rflip_ok (nth_concat_P i D Bs) (nth_blk i Bx) (nth_blk i Bx') Ha Pa) as (Q1 & Q2 & _). split; assumption.
  - intros i a Ha Pa. destruct (conv_rflip_ok (nth_concat_P i D Bs) (nth_blk i Bx') (nth_blk i Bx) Ha Pa) as (Q1 & Q2 & _). split; assumption.
  - intros i a Ha Pa. apply (conv_rflip_ok (nth_concat_P i D Bs) (nth_blk i Bx) (nth_blk i Bx') Ha Pa).
  - intros i a Ha Pa. apply (conv_rflip_ok (nth_concat_P i D Bs) (nth_blk i Bx') (nth_blk i Bx) Ha Pa).
  - intros rs Hf. apply conv_cor_view; [exact L|]. intros i _ Hi. destruct (fits_nth tr0 ts0 Hf Hi) as [Ha Pa].
    apply (conv_rflip_ok (nth_concat_P i D Bs) (nth_blk i Bx) (nth_blk i Bx') Ha Pa).
Qed.

(* ---------- conversion: the sender's messages ---------- *)
Definition conv_sflip (r : trit_r) (cr x x' : N) (s : trit_s) : trit_s :=
  let el := wsel (N.lxor cr (trC r)) (N.ldiff x x') (N.ldiff x' x) in
  let em := wsel (N.lxor cr (trC r)) (N.ldiff x' x) (N.ldiff x x') in
  let p0 := mod3Add (tsM0 s) (tsL0 s) (N.land em (trC r)) (N.land el (trC r)) in
  let p1 := mod3Add (tsM1 s) (tsL1 s) (N.ldiff em (trC r)) (N.ldiff el (trC r)) in
  TritS (snd p0) (fst p0) (snd p1) (fst p1).

Lemma blk_mod3Add x1 x0 y1 y0 : blk x1 -> blk x0 -> blk y1 -> blk y0 -> blk (fst (mod3Add x1 x0 y1 y0)) /\ blk (snd (mod3Add x1 x0 y1 y0)).
Proof. intros. unfold mod3Add, andnot. cbn [fst snd]. split; apply blk_ldiff; repeat (apply blk_lxor; [|assumption]); assumption. Qed.

Ltac bitsw := unfold mod3Sub, mod3Add, mod3Add1, andnot; cbn [fst snd tsM0 tsL0 tsM1 tsL1]; repeat first [rewrite wsel_bit | rewrite N.lxor_spec | rewrite N.land_spec | rewrite N.lor_spec | rewrite N.ldiff_spec].

Lemma conv_sflip_ok r cr x x' s : blk_tr r -> blk x -> blk x' -> trit_ot s r -> blk_ts s ->
  trit_ot (conv_sflip r cr x x' s) r /\ blk_ts (conv_sflip r cr x x' s) /\ conv_sflip r cr x' x (conv_sflip r cr x x' s) = s /\
  fst (conv_send1 (conv_sflip r cr x x' s) x' cr) = fst (conv_send1 s x cr).
Proof.
  intros (C1 & C2 & C3) Bx Bx' H (B1 & B2 & B3 & B4). destruct s as [l0 m0 l1 m1], r as [c l m]. cbn [tsL0 tsM0 tsL1 tsM1 trC trL trM] in *.
  assert (V0 : forall i, N.testbit m0 i && N.testbit l0 i = false) by (intros i; apply (H i)).
  assert (V1 : forall i, N.testbit m1 i && N.testbit l1 i = false) by (intros i; apply (H i)).
  assert (HM : forall i, N.testbit m i = (if N.testbit c i then N.testbit m1 i else N.testbit m0 i)) by (intros i; apply (H i)).
  assert (HL : forall i, N.testbit l i = (if N.testbit c i then N.testbit l1 i else N.testbit l0 i)) by (intros i; apply (H i)).
  split; [|split; [|split]].
  - intros i. unfold conv_sflip, tvalid. cbn [tsL0 tsM0 tsL1 tsM1 trC trL trM]. rewrite HM, HL. specialize (V0 i). specialize (V1 i). bitsw. clear - V0 V1.
    destruct (N.testbit c i), (N.testbit cr i), (N.testbit x i), (N.testbit x' i), (N.testbit m0 i), (N.testbit l0 i); try discriminate V0;
    destruct (N.testbit m1 i), (N.testbit l1 i); try discriminate V1; cbn; (split; [|split; [|split]]); reflexivity.
  - unfold blk_ts, conv_sflip. cbn [tsL0 tsM0 tsL1 tsM1 trC].
    assert (Be : blk (wsel (N.lxor cr c) (N.ldiff x x') (N.ldiff x' x)) /\ blk (wsel (N.lxor cr c) (N.ldiff x' x) (N.ldiff x x'))) by (split; apply blk_wsel; apply blk_ldiff; assumption).
    destruct Be as [Be1 Be2].
    destruct (@blk_mod3Add m0 l0 (N.land (wsel (N.lxor cr c) (N.ldiff x' x) (N.ldiff x x')) c) (N.land (wsel (N.lxor cr c) (N.ldiff x x') (N.ldiff x' x)) c)) as [P1 P2]; [assumption|assumption|apply blk_land; assumption|apply blk_land; assumption|].
    destruct (@blk_mod3Add m1 l1 (N.ldiff (wsel (N.lxor cr c) (N.ldiff x' x) (N.ldiff x x')) c) (N.ldiff (wsel (N.lxor cr c) (N.ldiff x x') (N.ldiff x' x)) c)) as [P3 P4]; [assumption|assumption|apply blk_ldiff; assumption|apply blk_ldiff; assumption|].
    exact (conj P2 (conj P1 (conj P4 P3))).
  - unfold conv_sflip. cbn [tsL0 tsM0 tsL1 tsM1 trC]. f_equal; apply N.bits_inj; intros i; specialize (V0 i); specialize (V1 i); bitsw; clear - V0 V1;
    destruct (N.testbit c i), (N.testbit cr i), (N.testbit x i), (N.testbit x' i), (N.testbit m0 i), (N.testbit l0 i); try discriminate V0;
    destruct (N.testbit m1 i), (N.testbit l1 i); try discriminate V1; reflexivity.
  - unfold conv_send1, conv_sflip. cbn [tsL0 tsM0 tsL1 tsM1 trC]. cbn zeta. cbn [fst]. unfold wnot.
    apply injective_projections; apply N.bits_inj; intros i; specialize (V0 i); specialize (V1 i).
    + bitsw. destruct (N.ltb_spec i 128) as [Hi|Hi].
      * rewrite !N.ones_spec_low by exact Hi. clear - V0 V1.
        destruct (N.testbit c i), (N.testbit cr i), (N.testbit x i), (N.testbit x' i), (N.testbit m0 i), (N.testbit l0 i); try discriminate V0;
        destruct (N.testbit m1 i), (N.testbit l1 i); try discriminate V1; reflexivity.
      * rewrite !N.ones_spec_high by exact Hi. rewrite (Bx i Hi), (Bx' i Hi), (B1 i Hi), (B2 i Hi), (B3 i Hi), (B4 i Hi). destruct (N.testbit c i), (N.testbit cr i); reflexivity.
    + bitsw. destruct (N.ltb_spec i 128) as [Hi|Hi].
      * rewrite !N.ones_spec_low by exact Hi. clear - V0 V1.
        destruct (N.testbit c i), (N.testbit cr i), (N.testbit x i), (N.testbit x' i), (N.testbit m0 i), (N.testbit l0 i); try discriminate V0;
        destruct (N.testbit m1 i), (N.testbit l1 i); try discriminate V1; reflexivity.
      * rewrite !N.ones_spec_high by exact Hi. rewrite (Bx i Hi), (Bx' i Hi), (B1 i Hi), (B2 i Hi), (B3 i Hi), (B4 i Hi). destruct (N.testbit c i), (N.testbit cr i); reflexivity.
Qed.

(* a loop body on a chunk: the parts of its results that are sent do not change *)
Lemma chunk_view A X D O M (b : A -> X -> D -> M * O) (da : A) (dx : X) (dd : D) h : forall t x x' d k, length x = length x' ->
  (forall i, i < length x -> i < length t -> i < length d -> fst (b (h (k + i) (nth i t da)) (nth i x' dx) (nth i d dd)) = fst (b (nth i t da) (nth i x dx) (nth i d dd))) ->
  map fst (map2 (fun tx c => b (fst tx) (snd tx) c) (combine (imap h k t) x') d) = map fst (map2 (fun tx c => b (fst tx) (snd tx) c) (combine t x) d).
Proof.
  induction t as [|r t IH]; intros [|a x] [|a' x'] [|c d] k L H; try discriminate L; try reflexivity. cbn [imap combine map2 map]. f_equal.
  - specialize (H 0). cbn in H. rewrite Nat.add_0_r in H. apply H; lia.
  - apply IH; [cbn in L; lia|]. intros i H1 H2 H3. specialize (H (S i)). cbn in H. rewrite Nat.add_succ_r in H. apply H; lia.
Qed.

Lemma recv_n_inv M n (msgs : list (list M)) m r : recv_n n msgs = Ok (m, r) -> msgs = m :: r /\ length m = n.
Proof. destruct msgs as [|m0 ms]; cbn; [discriminate|]. destruct (length m0 =? n) eqn:E; [|discriminate]. intros H. injection H as <- <-. apply Nat.eqb_eq in E. split; [reflexivity|exact E]. Qed.

Lemma conv_send_view h : forall ss x x' msgs k, length x = length x' ->
  (forall i, i < length x -> i < total ss -> fst (conv_send1 (h (k + i) (nth i (concat ss) ts0)) (nth i x' 0%N) (nth i (concat msgs) 0%N)) = fst (conv_send1 (nth i (concat ss) ts0) (nth i x 0%N) (nth i (concat msgs) 0%N))) ->
  sent (conv_send (segmap h k ss) x' msgs) = sent (conv_send ss x msgs).
Proof.
  induction ss as [|t ss IH]; intros [|a x] [|b x'] msgs k L H; try discriminate L; try reflexivity.
  set (X := a :: x) in *. set (X' := b :: x') in *. cbn [segmap conv_send]. rewrite imap_length.
  replace (length X') with (length X). set (m := Nat.min (length X) (length t)).
  destruct (recv_n m msgs) as [[c ms]| | |] eqn:ER; try reflexivity. apply recv_n_inv in ER as [-> Lc]. cbn [bind fst snd].
  assert (EI : sent (conv_send (segmap h (k + length t) ss) (skipn m X') ms) = sent (conv_send ss (skipn m X) ms)).
  { apply IH; [rewrite !skipn_length; lia|]. intros i Hx Ht. rewrite skipn_length in Hx. assert (m = length t) by lia. rewrite !skipn_nth. specialize (H (m + i)). cbn [concat] in H.
    rewrite !(app_nth2 t), !(app_nth2 c) in H by lia. replace (m + i - length t) with i in H by lia. replace (m + i - length c) with i in H by lia.
    replace (k + length t + i) with (k + (m + i)) by lia. apply H; [lia|]. rewrite total_cons. lia. }
  assert (EC : map fst (map2 (fun tx c => conv_send1 (fst tx) (snd tx) c) (combine (firstn m (imap h k t)) (firstn m X')) c) = map fst (map2 (fun tx c => conv_send1 (fst tx) (snd tx) c) (combine (firstn m t) (firstn m X)) c)).
  { rewrite imap_firstn. apply (@chunk_view _ _ _ _ _ (fun s x c => conv_send1 s x c) ts0 0%N 0%N); [rewrite !firstn_length; lia|].
    intros i Hx Ht Hc. rewrite firstn_length in Hx, Ht. rewrite !firstn_nth by lia. specialize (H i). cbn [concat] in H. rewrite !(app_nth1 t), !(app_nth1 c) in H by lia. apply H; [lia|]. rewrite total_cons. lia. }
  destruct (conv_send (segmap h (k + length t) ss) (skipn m X') ms) as [[u1 u2]| | |], (conv_send ss (skipn m X) ms) as [[w1 w2]| | |]; cbn in EI; try discriminate EI; try reflexivity.
  injection EI as ->. unfold sent. cbn [bind fst snd]. rewrite <- (map_map fst snd), <- (map_map fst fst), EC, !map_map. reflexivity.
Qed.

Lemma conv_send_hides rs x x' msgs : Forall (Forall blk_tr) rs -> Forall blk x -> Forall blk x' -> length x = length x' ->
  hides (fits trit_ot blk_ts rs) (fun x ss => sent (conv_send ss x msgs)) x x'.
Proof.
  intros Bs Bx Bx' L.
  assert (D : blk_tr tr0) by exact (conj blk0 (conj blk0 blk0)).
  apply hides_segs with (d := tr0) (h := fun i => conv_sflip (nth i (concat rs) tr0) (nth i (concat msgs) 0%N) (nth i x 0%N) (nth i x' 0%N)) (g := fun i => conv_sflip (nth i (concat rs) tr0) (nth i (concat msgs) 0%N) (nth i x' 0%N) (nth i x 0%N)).
  - intros i a Ha Pa. destruct (conv_sflip_ok (nth i (concat msgs) 0%N) (nth_concat_P i D Bs) (nth_blk i Bx) (nth_blk i Bx') Ha Pa) as (Q1 & Q2 & _). split; assumption.
  - intros i a Ha Pa. destruct (conv_sflip_ok (nth i (concat msgs) 0%N) (nth_concat_P i D Bs) (nth_blk i Bx') (nth_blk i Bx) Ha Pa) as (Q1 & Q2 & _). split; assumption.
  - intros i a Ha Pa. apply (conv_sflip_ok (nth i (concat msgs) 0%N) (nth_concat_P i D Bs) (nth_blk i Bx) (nth_blk i Bx') Ha Pa).
  - intros i a Ha Pa. apply (conv_sflip_ok (nth i (concat msgs) 0%N) (nth_concat_P i D Bs) (nth_blk i Bx') (nth_blk i Bx) Ha Pa).
  - intros ss Hf. apply conv_send_view; [exact L|]. intros i _ Hi. destruct (fits_nth ts0 tr0 Hf Hi) as [Ha Pa].
    apply (conv_sflip_ok (nth i (concat msgs) 0%N) (nth_concat_P i D Bs) (nth_blk i Bx) (nth_blk i Bx') Ha Pa).
Qed.

(* ---------- mod 2 with F4 OTs: the receiver's messages ---------- *)
Definition fr0 := F4R 0 0 0.
Definition fz0 := F4S 0 0 0 0.
Definition f4_rflip (s : f4_s) (u u' : N * N) (r : f4_r) : f4_r :=
  let l := N.lxor (frL r) (N.lxor (fst u) (fst u')) in
  let m := N.lxor (frM r) (N.lxor (snd u) (snd u')) in
  F4R l m (wsel m (wsel l (fs3 s) (fs2 s)) (wsel l (fs1 s) (fs0 s))).

Lemma f4_rflip_ok s u u' r : blk_fs s -> blk2 u -> blk2 u' -> f4_ot s r -> blk_fr r ->
  f4_ot s (f4_rflip s u u' r) /\ blk_fr (f4_rflip s u u' r) /\ f4_rflip s u' u (f4_rflip s u u' r) = r /\
  f4_derand (f4_rflip s u u' r) (fst u') (snd u') = f4_derand r (fst u) (snd u).
Proof.
  intros (B1 & B2 & B3 & B4) [Bu1 Bu2] [Bv1 Bv2] H (C1 & C2 & C3). destruct r as [l m o], u as [u0 u1], u' as [v0 v1]. cbn [frL frM frO fst snd] in *. split; [|split; [|split]].
  - intros i. cbn [f4_rflip frL frM frO fst snd]. rewrite !wsel_bit. generalize (N.testbit (N.lxor m (N.lxor u1 v1)) i), (N.testbit (N.lxor l (N.lxor u0 v0)) i). intros [] []; reflexivity.
  - unfold blk_fr. cbn [f4_rflip frL frM frO fst snd]. split; [apply blk_lxor; [|apply blk_lxor]; assumption|]. split; [apply blk_lxor; [|apply blk_lxor]; assumption|]. apply blk_wsel; apply blk_wsel; assumption.
  - unfold f4_rflip. cbn [frL frM frO fst snd].
    assert (E : forall c a b, N.lxor (N.lxor c (N.lxor a b)) (N.lxor b a) = c).
    { intros c a b. lane i. destruct (N.testbit c i), (N.testbit a i), (N.testbit b i); reflexivity. }
    rewrite !E. f_equal. apply N.bits_inj. intros i. rewrite !wsel_bit. specialize (H i). cbn [frL frM frO] in H. rewrite H. destruct (N.testbit m i), (N.testbit l i); reflexivity.
  - unfold f4_derand, f4_rflip. cbn [frL frM frO fst snd]. f_equal; lane i; [destruct (N.testbit l i), (N.testbit u0 i), (N.testbit v0 i)|destruct (N.testbit m i), (N.testbit u1 i), (N.testbit v1 i)]; reflexivity.
Qed.

Definition z2 : N * N := (0%N, 0%N).
Lemma f4_derand_map h : forall t x x' k, length x = length x' ->
  (forall i, i < length x -> i < length t -> f4_derand (h (k + i) (nth i t fr0)) (fst (nth i x' z2)) (snd (nth i x' z2)) = f4_derand (nth i t fr0) (fst (nth i x z2)) (snd (nth i x z2))) ->
  map2 (fun o u => f4_derand o (fst u) (snd u)) (imap h k t) x' = map2 (fun o u => f4_derand o (fst u) (snd u)) t x.
Proof.
  induction t as [|r t IH]; intros [|a x] [|b x'] k L H; try discriminate L; try reflexivity. cbn [imap map2]. f_equal.
  - specialize (H 0). cbn [nth length] in H. rewrite Nat.add_0_r in H. apply H; lia.
  - apply IH; [cbn in L; lia|]. intros i Hx Ht. specialize (H (S i)). cbn [nth length] in H. rewrite Nat.add_succ_r in H. apply H; lia.
Qed.

Lemma f4_derand_view h : forall ss x x' k, length x = length x' ->
  (forall i, i < length x -> i < total ss -> f4_derand (h (k + i) (nth i (concat ss) fr0)) (fst (nth i x' z2)) (snd (nth i x' z2)) = f4_derand (nth i (concat ss) fr0) (fst (nth i x z2)) (snd (nth i x z2))) ->
  f4_recv_derand (segmap h k ss) x' = f4_recv_derand ss x.
Proof.
  induction ss as [|t ss IH]; intros [|a x] [|b x'] k L H; try discriminate L; try reflexivity.
  set (X := a :: x) in *. set (X' := b :: x') in *. cbn [segmap f4_recv_derand]. rewrite imap_length.
  replace (length X') with (length X). set (m := Nat.min (length t) (length X)).
  assert (EI : f4_recv_derand (segmap h (k + length t) ss) (skipn m X') = f4_recv_derand ss (skipn m X)).
  { apply IH; [rewrite !skipn_length; lia|]. intros i Hx Ht. rewrite skipn_length in Hx. assert (m = length t) by lia. rewrite !skipn_nth. specialize (H (m + i)). cbn [concat] in H. rewrite !(app_nth2 t) in H by lia.
    replace (m + i - length t) with i in H by lia. replace (k + length t + i) with (k + (m + i)) by lia. apply H; [lia|]. rewrite total_cons. lia. }
  destruct (m =? 0) eqn:Em.
  - apply Nat.eqb_eq in Em. rewrite Em in EI. exact EI.
  - rewrite EI, imap_firstn. rewrite (@f4_derand_map h (firstn m t) (firstn m X) (firstn m X') k); [reflexivity|rewrite !firstn_length; lia|].
    intros i Hx Ht. rewrite firstn_length in Hx, Ht. rewrite !firstn_nth by lia. specialize (H i). cbn [concat] in H. rewrite app_nth1 in H by lia. apply H; [lia|]. rewrite total_cons. lia.
Qed.

Lemma nth_blk2 l i : Forall blk2 l -> blk2 (nth i l z2).
Proof. intros H. destruct (Nat.lt_ge_cases i (length l)) as [Hi|Hi]; [rewrite Forall_forall in H; apply H, nth_In, Hi|rewrite nth_overflow by exact Hi; exact (conj blk0 blk0)]. Qed.

Lemma f4_recv_hides ss u u' : Forall (Forall blk_fs) ss -> Forall blk2 u -> Forall blk2 u' -> length u = length u' ->
  hides (fits (fun r s => f4_ot s r) blk_fr ss) (fun u rs => f4_recv_derand rs u) u u'.
Proof.
  intros Bs Bx Bx' L.
  assert (D : blk_fs fz0) by exact (conj blk0 (conj blk0 (conj blk0 blk0))).
  apply hides_segs with (d := fz0) (h := fun i => f4_rflip (nth i (concat ss) fz0) (nth i u z2) (nth i u' z2)) (g := fun i => f4_rflip (nth i (concat ss) fz0) (nth i u' z2) (nth i u z2)).
  - intros i a Ha Pa. destruct (f4_rflip_ok (nth_concat_P i D Bs) (nth_blk2 i Bx) (nth_blk2 i Bx') Ha Pa) as (Q1 & Q2 & _). split; assumption.
  - intros i a Ha Pa. destruct (f4_rflip_ok (nth_concat_P i D Bs) (nth_blk2 i Bx') (nth_blk2 i Bx) Ha Pa) as (Q1 & Q2 & _). split; assumption.
  - intros i a Ha Pa. apply (f4_rflip_ok (nth_concat_P i D Bs) (nth_blk2 i Bx) (nth_blk2 i Bx') Ha Pa).
  - intros i a Ha Pa. apply (f4_rflip_ok (nth_concat_P i D Bs) (nth_blk2 i Bx') (nth_blk2 i Bx) Ha Pa).
  - intros rs Hf. apply f4_derand_view; [exact L|]. intros i _ Hi. destruct (fits_nth fr0 fz0 Hf Hi) as [Ha Pa].
    apply (f4_rflip_ok (nth_concat_P i D Bs) (nth_blk2 i Bx) (nth_blk2 i Bx') Ha Pa).
Qed.

(* ---------- mod 2 with F4 OTs: the sender's messages ---------- *)
(* the changes of the four bits after the swaps, see f4_send1: (a, b) is the receiver's choice
   relative to its message *)
Definition f4_sflip (r : f4_r) (d v v' : N * N) (s : f4_s) : f4_s :=
  let a := N.ldiff (N.lxor (frL r) (fst d)) (N.lxor (frM r) (snd d)) in
  let b := N.ldiff (N.lxor (frM r) (snd d)) (N.lxor (frL r) (fst d)) in
  let d1 := N.lxor (snd v) (snd v') in
  let d2 := N.lxor (N.lxor (fst v) (snd v)) (N.lxor (fst v') (snd v')) in
  let e0 := N.lxor (N.land a d1) (N.land b d2) in
  let e1 := N.lxor (N.ldiff d1 a) (N.land b d2) in
  let e2 := N.lxor (N.ldiff d2 b) (N.land a d1) in
  F4S (N.lxor (fs0 s) (wsel (snd d) (wsel (fst d) 0 e2) (wsel (fst d) e1 e0)))
      (N.lxor (fs1 s) (wsel (snd d) (wsel (fst d) e2 0) (wsel (fst d) e0 e1)))
      (N.lxor (fs2 s) (wsel (snd d) (wsel (fst d) e1 e0) (wsel (fst d) 0 e2)))
      (N.lxor (fs3 s) (wsel (snd d) (wsel (fst d) e0 e1) (wsel (fst d) e2 0))).

Lemma f4_sflip_ok r d v v' s : blk_fr r -> blk2 v -> blk2 v' -> f4_ot s r -> blk_fs s ->
  f4_ot (f4_sflip r d v v' s) r /\ blk_fs (f4_sflip r d v v' s) /\ f4_sflip r d v' v (f4_sflip r d v v' s) = s /\
  fst (f4_send1 (f4_sflip r d v v' s) (fst v') (snd v') (fst d) (snd d)) = fst (f4_send1 s (fst v) (snd v) (fst d) (snd d)).
Proof.
  intros (C1 & C2 & C3) [Bu1 Bu2] [Bv1 Bv2] H (B1 & B2 & B3 & B4). destruct s as [s0 s1 s2 s3], r as [l m o], v as [v0 v1], v' as [w0 w1], d as [d0 d1]. cbn [frL frM frO fst snd fs0 fs1 fs2 fs3] in *. split; [|split; [|split]].
  - intros i. specialize (H i). unfold f4_sflip. cbn [frL frM frO fst snd fs0 fs1 fs2 fs3] in *. rewrite H. clear. repeat first [rewrite wsel_bit | rewrite N.lxor_spec | rewrite N.land_spec | rewrite N.ldiff_spec | rewrite N.bits_0].
    generalize (N.testbit s0 i) (N.testbit s1 i) (N.testbit s2 i) (N.testbit s3 i) (N.testbit v0 i) (N.testbit v1 i) (N.testbit w0 i) (N.testbit w1 i). intros p0 p1 p2 p3 q0 q1 q2 q3.
    destruct (N.testbit m i), (N.testbit l i), (N.testbit d0 i), (N.testbit d1 i); cbn; destruct q0, q1, q2, q3; cbn; rewrite ?xorb_false_r; reflexivity.
  - unfold blk_fs, f4_sflip. cbn [frL frM frO fst snd fs0 fs1 fs2 fs3].
    set (a := N.ldiff (N.lxor l d0) (N.lxor m d1)). set (b := N.ldiff (N.lxor m d1) (N.lxor l d0)).
    assert (D1 : blk (N.lxor v1 w1)) by (apply blk_lxor; assumption).
    assert (D2 : blk (N.lxor (N.lxor v0 v1) (N.lxor w0 w1))) by (apply blk_lxor; apply blk_lxor; assumption).
    assert (E0 : blk (N.lxor (N.land a (N.lxor v1 w1)) (N.land b (N.lxor (N.lxor v0 v1) (N.lxor w0 w1))))) by (apply blk_lxor; apply blk_land2; assumption).
    assert (E1 : blk (N.lxor (N.ldiff (N.lxor v1 w1) a) (N.land b (N.lxor (N.lxor v0 v1) (N.lxor w0 w1))))) by (apply blk_lxor; [apply blk_ldiff|apply blk_land2]; assumption).
    assert (E2 : blk (N.lxor (N.ldiff (N.lxor (N.lxor v0 v1) (N.lxor w0 w1)) b) (N.land a (N.lxor v1 w1)))) by (apply blk_lxor; [apply blk_ldiff|apply blk_land2]; assumption).
    pose proof blk0 as Z. 
    split; [|split; [|split]]; (apply blk_lxor; [assumption|]; apply blk_wsel; apply blk_wsel; assumption).
  - unfold f4_sflip. cbn [frL frM frO fst snd fs0 fs1 fs2 fs3]. f_equal; apply N.bits_inj; intros i; repeat first [rewrite wsel_bit | rewrite N.lxor_spec | rewrite N.land_spec | rewrite N.ldiff_spec | rewrite N.bits_0]; btauto.
  - unfold f4_send1, f4_swap, f4_sflip. cbn [frL frM frO fst snd fs0 fs1 fs2 fs3]. unfold wnot. f_equal; apply N.bits_inj; intros i; repeat first [rewrite wsel_bit | rewrite N.lxor_spec | rewrite N.land_spec | rewrite N.ldiff_spec | rewrite N.bits_0]; btauto.
Qed.
