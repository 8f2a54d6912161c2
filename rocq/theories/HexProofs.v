(* hex and fromHex. *)
From Verif Require Import Base Words KeyMultModel BitInjProofs ShuffleModel ShuffleSpec TableModel TableSpec TrimProofs TableIOModel TableIOSpec.

Lemma digit_chars v : v < 16 -> hex_digit (N.of_nat v) = nth v lower_digits 0%N.
Proof. intro H. do 16 (destruct v as [|v]; [reflexivity|]). lia. Qed.
Lemma hex_val_digit a v : digit_is a v -> hex_val a = Ok (N.of_nat v).
Proof. intros [H [-> | ->]]; do 16 (destruct v as [|v]; [reflexivity|]); lia. Qed.
Lemma hex_val_inv a x : hex_val a = Ok x -> exists v, digit_is a v /\ x = N.of_nat v.
Proof.
  unfold hex_val. intro H.
  destruct ((48 <=? a) && (a <=? 57))%N eqn:E1.
  { apply andb_true_iff in E1. rewrite !N.leb_le in E1. injection H as <-. exists (N.to_nat (a - 48)). split; [|lia]. split; [lia|]. left.
    assert (E : a = (48 + N.of_nat (N.to_nat (a - 48)))%N) by lia. set (v := N.to_nat (a - 48)) in *. assert (v < 10) by lia. rewrite E. clearbody v. clear -H.
    do 10 (destruct v as [|v]; [reflexivity|]). lia. }
  destruct ((97 <=? a) && (a <=? 102))%N eqn:E2.
  { apply andb_true_iff in E2. rewrite !N.leb_le in E2. injection H as <-. exists (N.to_nat (a - 97 + 10)). split; [|lia]. split; [lia|]. left.
    assert (E : a = (97 + N.of_nat (N.to_nat (a - 97)))%N) by lia. set (v := N.to_nat (a - 97)) in *. assert (v < 6) by lia.
    replace (N.to_nat (a - 97 + 10)) with (10 + v) by lia. rewrite E. clearbody v. clear -H.
    do 6 (destruct v as [|v]; [reflexivity|]). lia. }
  destruct ((65 <=? a) && (a <=? 70))%N eqn:E3; [|discriminate].
  apply andb_true_iff in E3. rewrite !N.leb_le in E3. injection H as <-. exists (N.to_nat (a - 65 + 10)). split; [|lia]. split; [lia|]. right.
  assert (E : a = (65 + N.of_nat (N.to_nat (a - 65)))%N) by lia. set (v := N.to_nat (a - 65)) in *. assert (v < 6) by lia.
  replace (N.to_nat (a - 65 + 10)) with (10 + v) by lia. rewrite E. clearbody v. clear -H.
  do 6 (destruct v as [|v]; [reflexivity|]). lia.
Qed.
Lemma hex_val_outcome a : (exists x, hex_val a = Ok x) \/ hex_val a = Throw.
Proof. unfold hex_val. repeat match goal with |- context[if ?b then _ else _] => destruct b end; eauto. Qed.

Lemma lor_shift h l : h < 16 -> l < 16 -> N.lor (N.shiftl (N.of_nat h) 4) (N.of_nat l) = N.of_nat (16 * h + l).
Proof. intros H L. do 16 (destruct h as [|h]; [do 16 (destruct l as [|l]; [reflexivity|]); lia|]). lia. Qed.

Lemma from_hex2_ok a b h l : digit_is a h -> digit_is b l -> from_hex2 a b = Ok (N.of_nat (16 * h + l)).
Proof. intros A B. unfold from_hex2. rewrite (hex_val_digit A), (hex_val_digit B). cbn [bind]. rewrite lor_shift; [easy|apply A|apply B]. Qed.
Lemma from_hex2_inv a b x : from_hex2 a b = Ok x -> exists h l, digit_is a h /\ digit_is b l /\ x = N.of_nat (16 * h + l).
Proof.
  unfold from_hex2. intro H. destruct (hex_val a) as [u| | |] eqn:EA; cbn [bind] in H; try discriminate. destruct (hex_val b) as [w| | |] eqn:EB; cbn [bind] in H; try discriminate.
  destruct (hex_val_inv EA) as [h [A ->]], (hex_val_inv EB) as [l [B ->]]. injection H as <-. exists h, l. split; [easy|]. split; [easy|]. apply lor_shift; [apply A|apply B].
Qed.
Lemma from_hex2_outcome a b : (exists x, from_hex2 a b = Ok x) \/ from_hex2 a b = Throw.
Proof. unfold from_hex2. destruct (hex_val_outcome a) as [[x ->] | ->]; cbn [bind]; [|now right]. destruct (hex_val_outcome b) as [[y ->] | ->]; cbn [bind]; eauto. Qed.

(* the loop as a recursion over the text *)
Fixpoint unhex (s : list N) : outcome (list N) :=
  match s with
  | a :: b :: s => do x <- from_hex2 a b; do r <- unhex s; Ok (x :: r)
  | _ => Ok []
  end.
Lemma mapM_map A B C (f : B -> outcome C) (g : A -> B) l : mapM f (map g l) = mapM (fun a => f (g a)) l.
Proof. induction l as [|a l IH]; [easy|]. cbn [map mapM]. destruct (f (g a)); cbn [bind]; try easy. now rewrite IH. Qed.
Lemma mapM_ext A B (f g : A -> outcome B) l : (forall a, In a l -> f a = g a) -> mapM f l = mapM g l.
Proof.
  induction l as [|a l IH]; intro H; [easy|]. cbn [mapM]. rewrite (H a) by now left. destruct (g a); cbn [bind]; try easy.
  rewrite IH; [easy|]. intros; apply H; now right.
Qed.
Lemma from_hex_unhex s k : length s = k * 2 -> from_hex s k = unhex s.
Proof.
  revert s. induction k as [|k IH]; intros s H.
  - destruct s; [reflexivity|cbn in H; lia].
  - destruct s as [|a [|b s]]; cbn [length] in H; try lia. unfold from_hex. cbn [length]. rewrite H, Nat.eqb_refl. cbn [negb throw_if bind seq mapM].
    change (get (a :: b :: s) (0 * 2)) with (Ok a). change (get (a :: b :: s) (0 * 2 + 1)) with (Ok b). cbn [bind unhex].
    destruct (from_hex2 a b); cbn [bind]; try easy.
    rewrite <- (IH s) by lia. unfold from_hex. replace (length s =? k * 2) with true by (symmetry; apply Nat.eqb_eq; lia). cbn [negb throw_if bind].
    rewrite <- seq_shift, mapM_map. rewrite (@mapM_ext _ _ _ (fun i => do a0 <- get s (i * 2); do b0 <- get s (i * 2 + 1); from_hex2 a0 b0)); [easy|].
    intros i _. replace (S i * 2) with (S (S (i * 2))) by lia. reflexivity.
Qed.

Lemma spells_length s : forall d, spells s d -> length s = length d * 2.
Proof.
  induction s as [s IH] using (well_founded_induction (well_founded_ltof _ (@length N))). intros d H.
  destruct s as [|a [|b s]], d as [|x d]; cbn [spells] in H; try contradiction; [easy|]. cbn [length]. rewrite (IH s ltac:(unfold ltof; cbn; lia) d (proj2 H)). lia.
Qed.
Lemma unhex_ok s : forall d, spells s d -> unhex s = Ok d.
Proof.
  induction s as [s IH] using (well_founded_induction (well_founded_ltof _ (@length N))). intros d H.
  destruct s as [|a [|b s]], d as [|x d]; cbn [spells] in H; try contradiction; [easy|]. destruct H as [[h [l [A [B ->]]]] H].
  cbn [unhex]. rewrite (from_hex2_ok A B). cbn [bind]. now rewrite (IH s ltac:(unfold ltof; cbn; lia) d H).
Qed.
Lemma unhex_inv s k : forall d, length s = k * 2 -> unhex s = Ok d -> spells s d.
Proof.
  revert s. induction k as [|k IH]; intros s d L H.
  - destruct s; [|cbn in L; lia]. injection H as <-. easy.
  - destruct s as [|a [|b s]]; cbn [length] in L; try lia. cbn [unhex] in H. destruct (from_hex2 a b) as [x| | |] eqn:E; cbn [bind] in H; try discriminate.
    destruct (unhex s) as [r| | |] eqn:E2; cbn [bind] in H; try discriminate. injection H as <-. split; [exact (from_hex2_inv E)|]. apply IH; [lia|easy].
Qed.
Lemma unhex_outcome s k : length s = k * 2 -> (exists d, unhex s = Ok d) \/ unhex s = Throw.
Proof.
  revert s. induction k as [|k IH]; intros s L.
  - destruct s; [|cbn in L; lia]. left. now exists [].
  - destruct s as [|a [|b s]]; cbn [length] in L; try lia. cbn [unhex]. destruct (from_hex2_outcome a b) as [[x ->] | ->]; cbn [bind]; [|now right].
    destruct (IH s ltac:(lia)) as [[d ->] | ->]; cbn [bind]; eauto.
Qed.

Lemma hex_spells d : bytes d -> spells (hex d) d.
Proof.
  induction d as [|x d IH]; intro H; [easy|]. apply Forall_cons_iff in H. destruct H as [X H]. unfold hex. cbn [map concat app spells].
  split; [|now apply IH]. exists (N.to_nat (x / 16)), (N.to_nat (x mod 16)).
  pose proof (N.div_mod x 16 ltac:(lia)) as E. pose proof (N.mod_lt x 16 ltac:(lia)) as M. assert (x / 16 < 16)%N by (apply N.div_lt_upper_bound; lia).
  split; [|split].
  - split; [lia|]. left. rewrite <- digit_chars by lia. now rewrite N2Nat.id.
  - split; [lia|]. left. rewrite <- digit_chars by lia. now rewrite N2Nat.id.
  - lia.
Qed.
Lemma spells_bytes s : forall d, spells s d -> bytes d.
Proof.
  induction s as [s IH] using (well_founded_induction (well_founded_ltof _ (@length N))). intros d H.
  destruct s as [|a [|b s]], d as [|x d]; cbn [spells] in H; try contradiction; [constructor|]. destruct H as [[h [l [A [B ->]]]] H].
  constructor; [destruct A as [A _], B as [B _]; lia|]. apply (IH s); [unfold ltof; cbn; lia|easy].
Qed.
Lemma hex_length d : length (hex d) = length d * 2.
Proof. unfold hex. induction d as [|x d IH]; [easy|]. cbn [map concat app length]. rewrite IH. lia. Qed.
Lemma hex_chars d : bytes d -> Forall (fun c => In c lower_digits) (hex d).
Proof.
  induction d as [|x d IH]; intro H; [constructor|]. apply Forall_cons_iff in H. destruct H as [X H]. unfold hex. cbn [map concat app].
  assert (x / 16 < 16)%N by (apply N.div_lt_upper_bound; lia). pose proof (N.mod_lt x 16 ltac:(lia)).
  constructor; [|constructor; [|now apply IH]].
  - rewrite <- (N2Nat.id (x / 16)), digit_chars by lia. apply nth_In. cbn; lia.
  - rewrite <- (N2Nat.id (x mod 16)), digit_chars by lia. apply nth_In. cbn; lia.
Qed.
Lemma from_hex_ok s d : spells s d -> from_hex s (length d) = Ok d.
Proof. intro H. rewrite from_hex_unhex; [now apply unhex_ok|]. now apply spells_length. Qed.
Lemma from_hex_hex d : bytes d -> from_hex (hex d) (length d) = Ok d.
Proof. intro H. apply from_hex_ok. now apply hex_spells. Qed.
Lemma from_hex_inv s k d : from_hex s k = Ok d -> length d = k /\ spells s d.
Proof.
  intro H. destruct (Nat.eq_dec (length s) (k * 2)) as [L|L].
  - rewrite from_hex_unhex in H by easy. pose proof (@unhex_inv s k d L H) as HS. pose proof (@spells_length _ _ HS). split; [lia|easy].
  - unfold from_hex in H. apply Nat.eqb_neq in L. rewrite L in H. discriminate.
Qed.
Lemma from_hex_throw s k : ~ (exists d, length d = k /\ spells s d) -> from_hex s k = Throw.
Proof.
  intro H. destruct (Nat.eq_dec (length s) (k * 2)) as [L|L].
  - rewrite from_hex_unhex by easy. destruct (@unhex_outcome s k L) as [[d E]|E]; [|easy]. exfalso. apply H. exists d.
    pose proof (@unhex_inv s k d L E) as HS. pose proof (@spells_length _ _ HS). split; [lia|easy].
  - unfold from_hex. apply Nat.eqb_neq in L. now rewrite L.
Qed.
