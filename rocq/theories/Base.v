(* Shared infrastructure: outcomes, bounds-checked memory, counted loops and the
   list lemmas used everywhere.  Nothing in this file models a particular
   function of /repo; it fixes the vocabulary of the models:
   - [outcome]: normal result, C++ exception, undefined behaviour, or
     non-termination (fuel exhausted) as distinct results;
   - [get]/[set]: vector/pointer element access, [UB] outside of the bounds;
   - [readN]/[writeN]: reading/writing a range (std::copy / memcpy);
   - [forN]: the C++ loop  for (i = lo; i < lo+n; ++i). *)
From Coq Require Export List Arith NArith ZArith Lia Bool Permutation.
From Coq Require Export ZifyBool ZifyNat ZifyN.
Export ListNotations.
Global Set Implicit Arguments.
Global Unset Strict Implicit.
Ltac Zify.zify_post_hook ::= Z.div_mod_to_equations.

Inductive outcome (A : Type) : Type :=
| Ok (a : A)     (* the C++ code returns normally *)
| Throw          (* the C++ code throws an exception *)
| UB             (* undefined behaviour, e.g. an out-of-bounds access *)
| Hang.          (* the loop makes no progress / fuel exhausted *)
Arguments Ok {A} a.
Arguments Throw {A}.
Arguments UB {A}.
Arguments Hang {A}.

Definition bind {A B} (x : outcome A) (f : A -> outcome B) : outcome B :=
  match x with Ok a => f a | Throw => Throw | UB => UB | Hang => Hang end.
Notation "'do' x <- e ; f" := (bind e (fun x => f))
  (at level 200, x pattern, e at level 100, f at level 200, right associativity).

Lemma bind_ok A B (x : outcome A) (f : A -> outcome B) b :
  bind x f = Ok b <-> exists a, x = Ok a /\ f a = Ok b.
Proof.
  split.
  - destruct x as [a| | |]; simpl; intros H; try discriminate. exists a; auto.
  - intros [a [-> H]]. exact H.
Qed.

(* if (c) throw; *)
Definition throw_if (c : bool) : outcome unit := if c then Throw else Ok tt.

Definition get {A} (l : list A) (i : nat) : outcome A :=
  match nth_error l i with Some a => Ok a | None => UB end.

Fixpoint upd {A} (l : list A) (i : nat) (x : A) : list A :=
  match l, i with
  | [], _ => []
  | _ :: t, 0 => x :: t
  | h :: t, S i' => h :: upd t i' x
  end.

Definition set {A} (l : list A) (i : nat) (x : A) : outcome (list A) :=
  if i <? length l then Ok (upd l i x) else UB.

Definition slice {A} (l : list A) (o n : nat) : list A := firstn n (skipn o l).

Definition readN {A} (l : list A) (o n : nat) : outcome (list A) :=
  if o + n <=? length l then Ok (slice l o n) else UB.

Definition overwrite {A} (l : list A) (o : nat) (x : list A) : list A :=
  firstn o l ++ x ++ skipn (o + length x) l.

Definition writeN {A} (l : list A) (o : nat) (x : list A) : outcome (list A) :=
  if o + length x <=? length l then Ok (overwrite l o x) else UB.

Fixpoint forN {S} (i n : nat) (f : nat -> S -> outcome S) (s : S) : outcome S :=
  match n with
  | 0 => Ok s
  | S n' => do s' <- f i s; forN (i + 1) n' f s'
  end.

Lemma forN_S S (i n : nat) (f : nat -> S -> outcome S) (s : S) :
  forN i (Datatypes.S n) f s = (do s' <- f i s; forN (i + 1) n f s').
Proof. reflexivity. Qed.

Lemma forN_inv S (P : nat -> S -> Prop) f : forall n i s,
  P i s ->
  (forall k s, i <= k < i + n -> P k s -> exists s', f k s = Ok s' /\ P (k + 1) s') ->
  exists s', forN i n f s = Ok s' /\ P (i + n) s'.
Proof.
  induction n as [|n IH]; intros i s H0 Hs; cbn [forN].
  - exists s. rewrite Nat.add_0_r. auto.
  - destruct (Hs i s) as [s1 [E1 H1]]; [lia|exact H0|].
    rewrite E1. cbn [bind].
    destruct (IH (i + 1) s1 H1) as [s2 [E2 H2]].
    + intros k s' Hk HP. apply Hs; [lia|exact HP].
    + exists s2. split; [exact E2|]. replace (i + Datatypes.S n) with (i + 1 + n) by lia. exact H2.
Qed.

Lemma forN_app S (f : nat -> S -> outcome S) : forall n m i s,
  forN i (n + m) f s = bind (forN i n f s) (forN (i + n) m f).
Proof.
  induction n as [|n IH]; intros m i s; cbn [forN Nat.add].
  - cbn [bind]. rewrite Nat.add_0_r. reflexivity.
  - destruct (f i s) as [s'| | |]; cbn [bind]; try reflexivity.
    rewrite IH. replace (i + 1 + n) with (i + Datatypes.S n) by lia. reflexivity.
Qed.

Lemma forN_ext S (f g : nat -> S -> outcome S) : forall n i s,
  (forall k s, i <= k < i + n -> f k s = g k s) -> forN i n f s = forN i n g s.
Proof.
  induction n as [|n IH]; intros i s H; cbn [forN]; [reflexivity|].
  rewrite H by lia. destruct (g i s); cbn [bind]; try reflexivity.
  apply IH. intros; apply H; lia.
Qed.

(* ---------- lists ---------- *)
Lemma nth_error_ext A : forall l l' : list A,
  (forall i, nth_error l i = nth_error l' i) -> l = l'.
Proof.
  induction l as [|a l IH]; intros [|b l'] H; auto.
  - specialize (H 0); discriminate.
  - specialize (H 0); discriminate.
  - f_equal.
    + specialize (H 0). simpl in H. congruence.
    + apply IH. intros i. exact (H (S i)).
Qed.

Lemma nth_error_ext_len A (l l' : list A) :
  length l = length l' ->
  (forall i, i < length l -> nth_error l i = nth_error l' i) -> l = l'.
Proof.
  intros HL H. apply nth_error_ext. intros i.
  destruct (Nat.lt_ge_cases i (length l)) as [Hi|Hi].
  - apply H, Hi.
  - rewrite (proj2 (nth_error_None l i)) by lia.
    rewrite (proj2 (nth_error_None l' i)) by lia. reflexivity.
Qed.

Lemma nth_error_lt A (l : list A) i a : nth_error l i = Some a -> i < length l.
Proof. intros H. apply nth_error_Some. congruence. Qed.

Lemma nth_error_ex A (l : list A) i : i < length l -> exists a, nth_error l i = Some a.
Proof.
  intros H. destruct (nth_error l i) as [a|] eqn:E; [eauto|].
  apply nth_error_None in E. lia.
Qed.

Lemma nth_error_nth_lt A (l : list A) i d : i < length l -> nth_error l i = Some (nth i l d).
Proof.
  intros H. destruct (nth_error_ex H) as [a Ha]. rewrite Ha. f_equal.
  symmetry. apply nth_error_nth. exact Ha.
Qed.

Lemma get_Ok A (l : list A) i a : get l i = Ok a <-> nth_error l i = Some a.
Proof. unfold get. destruct (nth_error l i); split; intros H; congruence. Qed.

Lemma get_lt A (l : list A) i : i < length l -> exists a, get l i = Ok a /\ nth_error l i = Some a.
Proof. intros H. destruct (nth_error_ex H) as [a Ha]. exists a. unfold get. rewrite Ha. auto. Qed.

Lemma upd_length A : forall (l : list A) i x, length (upd l i x) = length l.
Proof. induction l as [|a l IH]; intros [|i] x; simpl; auto. Qed.

Lemma nth_error_upd A : forall (l : list A) i x j,
  nth_error (upd l i x) j = if (i =? j) && (i <? length l) then Some x else nth_error l j.
Proof.
  induction l as [|a l IH]; intros i x j; simpl.
  - destruct i; simpl; rewrite ?andb_false_r; reflexivity.
  - destruct i as [|i], j as [|j]; simpl; auto.
    rewrite IH. reflexivity.
Qed.

Lemma nth_error_upd_eq A (l : list A) i x : i < length l -> nth_error (upd l i x) i = Some x.
Proof.
  intros H. rewrite nth_error_upd, Nat.eqb_refl. destruct (Nat.ltb_spec i (length l)); simpl; auto; lia.
Qed.

Lemma nth_error_upd_ne A (l : list A) i j x : i <> j -> nth_error (upd l i x) j = nth_error l j.
Proof. intros H. rewrite nth_error_upd. destruct (Nat.eqb_spec i j); simpl; auto; lia. Qed.

Lemma set_lt A (l : list A) i x : i < length l -> set l i x = Ok (upd l i x).
Proof. intros H. unfold set. destruct (Nat.ltb_spec i (length l)); auto; lia. Qed.

Lemma nth_error_firstn A : forall n (l : list A) i,
  nth_error (firstn n l) i = if i <? n then nth_error l i else None.
Proof.
  induction n as [|n IH]; intros [|a l] [|i]; simpl; auto.
  - destruct (S i <? S n); reflexivity.
  - rewrite IH. reflexivity.
Qed.

Lemma nth_error_skipn A : forall n (l : list A) i,
  nth_error (skipn n l) i = nth_error l (n + i).
Proof.
  induction n as [|n IH]; intros [|a l] i; simpl; auto.
  destruct i; reflexivity.
Qed.

Lemma nth_error_slice A (l : list A) o n i :
  nth_error (slice l o n) i = if i <? n then nth_error l (o + i) else None.
Proof. unfold slice. rewrite nth_error_firstn, nth_error_skipn. reflexivity. Qed.

Lemma slice_length A (l : list A) o n : o + n <= length l -> length (slice l o n) = n.
Proof. intros H. unfold slice. rewrite firstn_length, skipn_length. lia. Qed.

Lemma nth_error_app A (l m : list A) i :
  nth_error (l ++ m) i = if i <? length l then nth_error l i else nth_error m (i - length l).
Proof.
  destruct (Nat.ltb_spec i (length l)).
  - apply nth_error_app1; lia.
  - apply nth_error_app2; lia.
Qed.

Lemma overwrite_length A (l : list A) o x :
  o + length x <= length l -> length (overwrite l o x) = length l.
Proof.
  intros H. unfold overwrite. rewrite !app_length, firstn_length, skipn_length. lia.
Qed.

Lemma nth_error_overwrite A (l : list A) o x i :
  o + length x <= length l ->
  nth_error (overwrite l o x) i =
  if (o <=? i) && (i <? o + length x) then nth_error x (i - o) else nth_error l i.
Proof.
  intros H. unfold overwrite.
  rewrite !nth_error_app, nth_error_firstn, nth_error_skipn, firstn_length, Nat.min_l by lia.
  destruct (Nat.leb_spec o i); destruct (Nat.ltb_spec i o); try lia; simpl.
  - destruct (Nat.ltb_spec i (o + length x)); destruct (Nat.ltb_spec (i - o) (length x)); try lia; auto.
    f_equal. lia.
  - reflexivity.
Qed.

Lemma writeN_ok A (l : list A) o x :
  o + length x <= length l -> writeN l o x = Ok (overwrite l o x).
Proof. intros H. unfold writeN. destruct (Nat.leb_spec (o + length x) (length l)); auto; lia. Qed.

Lemma readN_ok A (l : list A) o n : o + n <= length l -> readN l o n = Ok (slice l o n).
Proof. intros H. unfold readN. destruct (Nat.leb_spec (o + n) (length l)); auto; lia. Qed.

Lemma nth_error_map A B (f : A -> B) : forall l i,
  nth_error (map f l) i = option_map f (nth_error l i).
Proof. induction l as [|a l IH]; intros [|i]; simpl; auto. Qed.

Lemma nth_error_seq : forall n s i, nth_error (seq s n) i = if i <? n then Some (s + i) else None.
Proof.
  induction n as [|n IH]; intros s [|i]; cbn [seq nth_error]; auto.
  - replace (s + 0) with s by lia. reflexivity.
  - rewrite IH. change (S i <? S n) with (i <? n). destruct (i <? n); auto. f_equal. lia.
Qed.

Lemma nth_error_repeat A (x : A) : forall n i,
  nth_error (repeat x n) i = if i <? n then Some x else None.
Proof.
  induction n as [|n IH]; intros [|i]; cbn [repeat nth_error]; auto.
  rewrite IH. reflexivity.
Qed.

(* pointwise combination; stops at the shorter list like the loops it models *)
Fixpoint map2 {A B C} (f : A -> B -> C) (l : list A) (m : list B) : list C :=
  match l, m with a :: l', b :: m' => f a b :: map2 f l' m' | _, _ => [] end.

Lemma map2_length A B C (f : A -> B -> C) : forall l m,
  length (map2 f l m) = Nat.min (length l) (length m).
Proof. induction l as [|a l IH]; intros [|b m]; simpl; auto. Qed.

Lemma nth_error_map2 A B C (f : A -> B -> C) : forall l m i,
  nth_error (map2 f l m) i =
  match nth_error l i, nth_error m i with Some a, Some b => Some (f a b) | _, _ => None end.
Proof.
  induction l as [|a l IH]; intros [|b m] [|i]; simpl; auto.
  destruct (nth_error l i); reflexivity.
Qed.

Lemma map2_app A B C (f : A -> B -> C) : forall l1 m1 l2 m2, length l1 = length m1 ->
  map2 f (l1 ++ l2) (m1 ++ m2) = map2 f l1 m1 ++ map2 f l2 m2.
Proof.
  induction l1 as [|a l1 IH]; intros [|b m1] l2 m2 H; simpl in *; try discriminate; auto.
  f_equal. apply IH. lia.
Qed.

Lemma NoDup_nth_error_inj A (l : list A) i j a :
  NoDup l -> nth_error l i = Some a -> nth_error l j = Some a -> i = j.
Proof.
  intros H Hi Hj. apply (proj1 (NoDup_nth_error l) H); [eapply nth_error_lt; eauto | congruence].
Qed.

(* two loops in lockstep *)
Lemma forN_sim S T (R : nat -> S -> T -> Prop) (f : nat -> S -> outcome S) (g : nat -> T -> outcome T) :
  forall n i s t, R i s t ->
  (forall k s t, i <= k < i + n -> R k s t ->
     exists s' t', f k s = Ok s' /\ g k t = Ok t' /\ R (k + 1) s' t') ->
  exists s' t', forN i n f s = Ok s' /\ forN i n g t = Ok t' /\ R (i + n) s' t'.
Proof.
  induction n as [|n IH]; intros i s t HR H.
  - exists s, t. cbn [forN]. rewrite Nat.add_0_r. auto.
  - destruct (H i s t) as (s1 & t1 & E1 & E2 & R1); [lia|auto|].
    destruct (IH (i + 1) s1 t1 R1) as (s2 & t2 & E3 & E4 & R2).
    { intros k x y Hk. apply H. lia. }
    exists s2, t2. cbn [forN]. rewrite E1, E2. cbn [bind]. split; auto. split; auto.
    replace (i + Datatypes.S n) with (i + 1 + n) by lia. exact R2.
Qed.

Lemma Some_inj A (a b : A) : Some a = Some b -> a = b.
Proof. congruence. Qed.
