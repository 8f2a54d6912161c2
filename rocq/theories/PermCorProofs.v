From Verif Require Import Base PermModel PermSpec PermProofs PermCorModel PermCorSpec.

(* ---------- cells and loops over them ---------- *)
Lemma getn A (d : A) (l : list A) i : i < length l -> get l i = Ok (nth i l d).
Proof. intros H. unfold get. rewrite (nth_error_nth_lt d H). reflexivity. Qed.

Lemma idx_lt n c i j : i < n -> j < c -> i * c + j < n * c.
Proof. intros. nia. Qed.

Lemma idx_lex c i j i' j' : j < c -> j' < c -> i' * c + j' < i * c + j -> i' < i \/ (i' = i /\ j' < j).
Proof. intros. destruct (Nat.lt_trichotomy i' i) as [|[->|]]; [left; lia|right; lia|exfalso; nia]. Qed.

Lemma idx_inj c i j i' j' : j < c -> j' < c -> i * c + j = i' * c + j' -> i = i' /\ j = j'.
Proof. intros. assert (i = i') by (destruct (Nat.lt_trichotomy i i') as [|[->|]]; [exfalso; nia|lia|exfalso; nia]). subst. lia. Qed.

Lemma nth_upd (l : list N) i x k : i < length l -> nth k (upd l i x) 0%N = if i =? k then x else nth k l 0%N.
Proof.
  intros H. destruct (Nat.eqb_spec i k) as [->|Hne].
  - apply nth_error_nth. apply nth_error_upd_eq. exact H.
  - destruct (Nat.lt_ge_cases k (length l)) as [Hk|Hk].
    + apply nth_error_nth. rewrite nth_error_upd_ne by exact Hne. apply nth_error_nth_lt. exact Hk.
    + rewrite !nth_overflow by (rewrite ?upd_length; lia). reflexivity.
Qed.

Lemma cells_ext n c (m m' : list N) : length m = n * c -> length m' = n * c ->
  (forall i j, i < n -> j < c -> cel c m i j = cel c m' i j) -> m = m'.
Proof.
  intros H H' E. apply (nth_ext _ _ 0%N 0%N); [lia|]. intros k Hk.
  destruct (Nat.eq_dec c 0) as [->|Hc]; [lia|].
  assert (Hq : k / c < n) by (apply Nat.div_lt_upper_bound; lia).
  assert (Hr : k mod c < c) by (apply Nat.mod_upper_bound; exact Hc).
  specialize (E _ _ Hq Hr). unfold cel in E.
  replace (k / c * c + k mod c) with k in E by (rewrite (Nat.div_mod k c Hc) at 1; lia). exact E.
Qed.

(* a double loop writing cell (i,j) of s; the value may depend on the old contents of the
   cells not yet written *)
Lemma grid_loop n c (g : nat -> nat -> list N -> outcome N) (f : nat -> nat -> N) s0 :
  length s0 = n * c ->
  (forall i j s, i < n -> j < c -> length s = n * c ->
     (forall i' j', i' < n -> j' < c -> i * c + j <= i' * c + j' -> cel c s i' j' = cel c s0 i' j') -> g i j s = Ok (f i j)) ->
  exists s, forN 0 n (fun i s => forN 0 c (fun j s => do v <- g i j s; set s (i * c + j) v) s) s0 = Ok s /\
    length s = n * c /\ forall i j, i < n -> j < c -> cel c s i j = f i j.
Proof.
  intros L0 Hg.
  set (P := fun m (s : list N) => length s = n * c /\ forall i j, i < n -> j < c ->
    cel c s i j = if i * c + j <? m then f i j else cel c s0 i j).
  match goal with |- context [forN 0 n ?B s0] =>
    destruct (forN_inv (P := fun i s => P (i * c) s) (f := B) (n := n) (i := 0) (s := s0)) as (s & E & HP) end.
  - split; [exact L0|]. intros. reflexivity.
  - intros i s Hi HP.
    match goal with |- context [forN 0 c ?B s] =>
      destruct (forN_inv (P := fun j s => P (i * c + j) s) (f := B) (n := c) (i := 0) (s := s)) as (s' & E' & HP') end.
    + rewrite Nat.add_0_r. exact HP.
    + intros j t Hj [Lt Ht].
      rewrite (Hg i j t); try lia.
      2:{ intros i' j' Hi' Hj' Hge. rewrite Ht by lia. destruct (Nat.ltb_spec (i' * c + j') (i * c + j)); [lia|reflexivity]. }
      cbn [bind]. assert (Hlt : i * c + j < length t) by (rewrite Lt; apply idx_lt; lia).
      rewrite set_lt by exact Hlt. eexists. split; [reflexivity|]. split; [rewrite upd_length; exact Lt|].
      intros i' j' Hi' Hj'. unfold cel. rewrite nth_upd by exact Hlt.
      destruct (Nat.eqb_spec (i * c + j) (i' * c + j')) as [E1|E1].
      * destruct (idx_inj (c := c) (i := i) (j := j) (i' := i') (j' := j')) as [<- <-]; [lia|lia|exact E1|].
        destruct (Nat.ltb_spec (i * c + j) (i * c + (j + 1))); [reflexivity|lia].
      * fold (cel c t i' j'). rewrite Ht by lia.
        destruct (Nat.ltb_spec (i' * c + j') (i * c + j)), (Nat.ltb_spec (i' * c + j') (i * c + (j + 1))); try reflexivity; lia.
    + exists s'. split; [exact E'|]. replace ((i + 1) * c) with (i * c + (0 + c)) by lia. exact HP'.
  - exists s. split; [exact E|]. destruct HP as [L HP]. split; [exact L|]. intros i j Hi Hj. rewrite HP by lia.
    assert (i * c + j < n * c) by (apply idx_lt; lia).
    destruct (Nat.ltb_spec (i * c + j) ((0 + n) * c)); [reflexivity|lia].
Qed.

Lemma xorShare_ok v1 vc off v2 n c s : length v1 = n * vc -> off + c <= vc -> length v2 = n * c -> length s = n * c ->
  exists d, xorShare v1 vc off v2 n c s = Ok d /\ length d = n * c /\
    forall i j, i < n -> j < c -> cel c d i j = N.lxor (cel vc v1 i (off + j)) (cel c v2 i j).
Proof.
  intros H1 Ho H2 Hs.
  destruct (grid_loop (c := c) (g := fun i j _ => do a <- get v1 (i * vc + off + j); do b <- get v2 (i * c + j); Ok (N.lxor a b))
    (f := fun i j => N.lxor (cel vc v1 i (off + j)) (cel c v2 i j)) Hs) as (d & E & L & H).
  - intros i j t Hi Hj _ _. rewrite (getn 0%N (l := v1)) by (rewrite H1, <- Nat.add_assoc; apply idx_lt; lia).
    rewrite (getn 0%N (l := v2)) by (rewrite H2; apply idx_lt; lia). cbn [bind]. unfold cel. rewrite Nat.add_assoc. reflexivity.
  - exists d. split; [|split; assumption]. rewrite <- E. unfold xorShare. apply forN_ext. intros i t _. apply forN_ext.
    intros j u _. destruct (get v1 _); cbn [bind]; try reflexivity. destruct (get v2 _); reflexivity.
Qed.

Lemma xorShareIn_ok v1 vc off n c s : length v1 = n * vc -> off + c <= vc -> length s = n * c ->
  exists d, xorShareIn v1 vc off n c s = Ok d /\ length d = n * c /\
    forall i j, i < n -> j < c -> cel c d i j = N.lxor (cel vc v1 i (off + j)) (cel c s i j).
Proof.
  intros H1 Ho Hs.
  destruct (grid_loop (c := c) (g := fun i j t => do a <- get v1 (i * vc + off + j); do b <- get t (i * c + j); Ok (N.lxor a b))
    (f := fun i j => N.lxor (cel vc v1 i (off + j)) (cel c s i j)) Hs) as (d & E & L & H).
  - intros i j t Hi Hj Lt Ht. rewrite (getn 0%N (l := v1)) by (rewrite H1, <- Nat.add_assoc; apply idx_lt; lia).
    rewrite (getn 0%N (l := t)) by (rewrite Lt; apply idx_lt; lia). cbn [bind]. fold (cel c t i j). rewrite Ht by lia.
    unfold cel. rewrite Nat.add_assoc. reflexivity.
  - exists d. split; [|split; assumption]. rewrite <- E. unfold xorShareIn. apply forN_ext. intros i t _. apply forN_ext.
    intros j u _. destruct (get v1 _); cbn [bind]; try reflexivity. destruct (get u _); reflexivity.
Qed.

Lemma xorAdd_ok a s n c : rows a = n -> cols a = c -> rows s = n -> cols s = c -> length (dat a) = n * c -> length (dat s) = n * c ->
  exists d, xorAdd a s = Ok (Mat n c d) /\ length d = n * c /\
    forall i j, i < n -> j < c -> cel c d i j = N.lxor (cel c (dat a) i j) (cel c (dat s) i j).
Proof.
  intros R1 C1 R2 C2 L1 L2. unfold xorAdd. rewrite R1, C1, R2, C2, !Nat.eqb_refl. cbn [negb throw_if bind].
  match goal with |- context [forN 0 ?m ?B ?s0] =>
    destruct (forN_inv (P := fun k d => length d = n * c /\ forall i, i < n * c ->
      nth i d 0%N = if i <? k then N.lxor (nth i (dat a) 0%N) (nth i (dat s) 0%N) else nth i (dat s) 0%N)
      (f := B) (n := m) (i := 0) (s := s0)) as (d & E & L & H) end.
  - split; [exact L2|]. intros. reflexivity.
  - intros k d Hk [L H]. rewrite (getn 0%N) by lia. cbn [bind]. rewrite (getn 0%N) by lia. cbn [bind].
    rewrite set_lt by lia. eexists. split; [reflexivity|]. split; [rewrite upd_length; exact L|].
    intros i Hi. rewrite nth_upd by lia. rewrite (H k) by lia. rewrite Nat.ltb_irrefl.
    destruct (Nat.eqb_spec k i) as [->|]; [destruct (Nat.ltb_spec i (i + 1)); [reflexivity|lia]|].
    rewrite H by lia. destruct (Nat.ltb_spec i k), (Nat.ltb_spec i (k + 1)); try reflexivity; lia.
  - rewrite E. cbn [bind]. exists d. split; [reflexivity|]. split; [exact L|]. intros i j Hi Hj. unfold cel.
    assert (i * c + j < n * c) by (apply idx_lt; lia). rewrite H by lia.
    destruct (Nat.ltb_spec (i * c + j) (0 + n * c)); [reflexivity|lia].
Qed.

Lemma copy_window_ok m off n sout c : length (dat m) = n * cols m -> off + c <= cols m -> cols sout = c -> length (dat sout) = n * c ->
  exists d, copy_window m off n sout = Ok d /\ length d = n * c /\
    forall i j, i < n -> j < c -> cel c d i j = cel (cols m) (dat m) i (off + j).
Proof.
  intros H1 Ho Hc Hs. unfold copy_window. rewrite Hc.
  match goal with |- context [forN 0 n ?B ?s0] =>
    destruct (forN_inv (P := fun k d => length d = n * c /\ forall i j, i < k -> j < c ->
      cel c d i j = cel (cols m) (dat m) i (off + j)) (f := B) (n := n) (i := 0) (s := s0)) as (d & E & L & H) end.
  - split; [exact Hs|]. intros. lia.
  - intros i d Hi [L H].
    assert (Hb : i * cols m + off + c <= length (dat m)) by (rewrite H1; nia).
    rewrite readN_ok by exact Hb. cbn [bind].
    pose proof (slice_length Hb) as Ls.
    assert (Hb2 : i * c + length (slice (dat m) (i * cols m + off) c) <= length d) by (rewrite Ls, L; nia).
    rewrite writeN_ok by exact Hb2. eexists. split; [reflexivity|]. split; [rewrite overwrite_length; assumption|].
    intros i' j' Hi' Hj'. unfold cel. apply nth_error_nth. rewrite nth_error_overwrite by exact Hb2. rewrite Ls.
    destruct (Nat.eq_dec i i') as [<-|Hne].
    + destruct (Nat.leb_spec (i * c) (i * c + j')); [|lia]. destruct (Nat.ltb_spec (i * c + j') (i * c + c)); [|lia]. cbn [andb].
      rewrite nth_error_slice. replace (i * c + j' - i * c) with j' by lia. destruct (Nat.ltb_spec j' c); [|lia].
      rewrite Nat.add_assoc. apply nth_error_nth_lt. lia.
    + assert (Hlt : i' * c + j' < i * c) by (assert (i' < i) by lia; nia).
      destruct (Nat.leb_spec (i * c) (i' * c + j')); [lia|]. cbn [andb].
      rewrite (nth_error_nth_lt 0%N) by (rewrite L; nia). f_equal. apply H; lia.
  - exists d. split; [exact E|]. split; [exact L|]. intros. apply H; lia.
Qed.

(* ---------- permuting, in cells ---------- *)
Lemma nthp n pi i : is_perm n pi -> i < n -> nth_error pi i = Some (nth i pi 0) /\ nth i pi 0 < n.
Proof.
  intros H Hi. assert (E : nth_error pi i = Some (nth i pi 0)) by (apply nth_error_nth_lt; rewrite (is_perm_length H); exact Hi).
  split; [exact E|]. apply (is_perm_lt H E).
Qed.

Lemma cel_row c (m : list N) i j n : length m = n * c -> i < n -> j < c -> nth j (row c m i) 0%N = cel c m i j.
Proof.
  intros L Hi Hj. apply nth_error_nth. rewrite nth_error_row. destruct (Nat.ltb_spec j c); [|lia].
  apply nth_error_nth_lt. rewrite L. apply idx_lt; lia.
Qed.

Lemma row_cels c n (x y : list N) i k : length x = n * c -> length y = n * c -> i < n -> k < n ->
  (row c y i = row c x k <-> forall j, j < c -> cel c y i j = cel c x k j).
Proof.
  intros Lx Ly Hi Hk. split.
  - intros E j Hj. rewrite <- (cel_row (n := n)) by assumption. rewrite E. apply cel_row with (n := n); assumption.
  - intros E. apply (nth_ext _ _ 0%N 0%N).
    + rewrite (row_length Ly Hi), (row_length Lx Hk). reflexivity.
    + rewrite (row_length Ly Hi). intros j Hj. rewrite !(cel_row (n := n)) by assumption. apply E. exact Hj.
Qed.

Lemma gathered_cel n c pi (x y : list N) : is_perm n pi -> length x = n * c ->
  (gathered c pi x y <-> length y = n * c /\ forall i j, i < n -> j < c -> cel c y i j = cel c x (nth i pi 0) j).
Proof.
  intros Hp Lx. pose proof (is_perm_length Hp) as Lp. unfold gathered. rewrite Lp. split; intros [Ly H]; (split; [exact Ly|]).
  - intros i j Hi. destruct (nthp Hp Hi) as [E Hl]. revert j. apply (row_cels (n := n)); auto.
  - intros i p E. assert (Hi : i < n) by (rewrite <- Lp; eapply nth_error_lt; eauto).
    destruct (nthp Hp Hi) as [E' Hl]. assert (p = nth i pi 0) by congruence. subst p. apply (row_cels (n := n)); auto.
Qed.

Lemma scattered_cel n c pi (x y : list N) : is_perm n pi -> length x = n * c ->
  (scattered c pi x y <-> length y = n * c /\ forall i j, i < n -> j < c -> cel c y (nth i pi 0) j = cel c x i j).
Proof.
  intros Hp Lx. pose proof (is_perm_length Hp) as Lp. unfold scattered. rewrite Lp. split; intros [Ly H]; (split; [exact Ly|]).
  - intros i j Hi. destruct (nthp Hp Hi) as [E Hl]. revert j. apply (row_cels (n := n)); auto.
  - intros i p E. assert (Hi : i < n) by (rewrite <- Lp; eapply nth_error_lt; eauto).
    destruct (nthp Hp Hi) as [E' Hl]. assert (p = nth i pi 0) by congruence. subst p. apply (row_cels (n := n)); auto.
Qed.

Lemma papply_ok n c pi op (x s : mat N) : is_perm n pi -> rows x = n -> cols x = c -> rows s = n -> cols s = c ->
  length (dat x) = n * c -> length (dat s) = n * c ->
  exists d, perm_apply true pi x s op = Ok (Mat n c d) /\ length d = n * c /\ permuted op c pi (dat x) d.
Proof.
  intros Hp R1 C1 R2 C2 L1 L2. pose proof (is_perm_length Hp) as Lp.
  assert (W1 : wf_mat x) by (unfold wf_mat; congruence). assert (W2 : wf_mat s) by (unfold wf_mat; congruence).
  destruct op.
  - destruct (perm_apply_regular_spec true (pi := pi) W1 W2) as (d & E & G); try congruence; [apply (perm_range Hp)|].
    rewrite R2, C2 in E. rewrite C1 in G. exists d. split; [exact E|]. split; [destruct G as [G _]; congruence|exact G].
  - destruct (perm_apply_inverse_spec true (pi := pi) W1 W2) as (d & E & G); try congruence.
    rewrite R2, C2 in E. rewrite C1 in G. exists d. split; [exact E|]. split; [destruct G as [G _]; congruence|exact G].
Qed.

Lemma zmat_len r c : length (dat (zmat r c)) = r * c.
Proof. apply repeat_length. Qed.

(* ---------- xor of lists, in cells ---------- *)
Lemma xors_len n a b : length a = n -> length b = n -> length (xors a b) = n.
Proof. intros. unfold xors. rewrite map2_length. lia. Qed.
Lemma nth_xors n a b k : length a = n -> length b = n -> nth k (xors a b) 0%N = N.lxor (nth k a 0%N) (nth k b 0%N).
Proof.
  intros La Lb. destruct (Nat.lt_ge_cases k n) as [H|H].
  - apply nth_error_nth. unfold xors. rewrite nth_error_map2, !(nth_error_nth_lt 0%N) by lia. reflexivity.
  - rewrite !nth_overflow by (rewrite ?(xors_len (n := n)); lia). reflexivity.
Qed.
Lemma cel_xors n c a b i j : length a = n -> length b = n -> cel c (xors a b) i j = N.lxor (cel c a i j) (cel c b i j).
Proof. intros. apply nth_xors with (n := n); assumption. Qed.
Lemma cel_zero k c i j : cel c (repeat 0%N k) i j = 0%N.
Proof. unfold cel. destruct (Nat.lt_ge_cases (i * c + j) k) as [H|H]; [apply nth_repeat|apply nth_overflow; rewrite repeat_length; exact H]. Qed.

Lemma cor_left_le c off w : (N.of_nat c < 2 ^ 64)%N -> off <= c -> (cor_left c off <? N.of_nat w)%N = (c <? off + w).
Proof.
  intros Hc Ho. unfold cor_left.
  replace (N.of_nat c + 2 ^ 64 - N.of_nat off)%N with (N.of_nat (c - off) + 1 * 2 ^ 64)%N by lia.
  rewrite N.mod_add by discriminate. rewrite N.mod_small by lia.
  destruct (N.ltb_spec (N.of_nat (c - off)) (N.of_nat w)), (Nat.ltb_spec c (off + w)); try reflexivity; lia.
Qed.

(* ---------- the receiver's and the sender's apply ---------- *)
Lemma eqbT a b : a = b -> (a =? b) = true.
Proof. intros ->. apply Nat.eqb_refl. Qed.
Lemma eqbF a b : a <> b -> (a =? b) = false.
Proof. apply Nat.eqb_neq. Qed.

(* masks of the receiver's message and output *)
Definition encM (op : PermOp) (R : cor_r) := match op with Regular => crA R | Inverse => crB R end.
Definition outM (op : PermOp) (R : cor_r) := match op with Regular => crB R | Inverse => crA R end.

Lemma recv_ok n c R op w x sout : 0 < n -> (N.of_nat c < 2 ^ 64)%N -> crOff R + w <= c ->
  rows (crA R) = n -> cols (crA R) = c -> length (dat (crA R)) = n * c ->
  rows (crB R) = n -> cols (crB R) = c -> length (dat (crB R)) = n * c ->
  rows x = n -> cols x = w -> length (dat x) = n * w ->
  rows sout = n -> cols sout = w -> length (dat sout) = n * w ->
  exists msg d, cor_recv_apply R op x sout = Ok (msg, (Mat n w d, CorR (crA R) (crB R) (crOff R + w))) /\
    length msg = n * w /\ length d = n * w /\
    forall i j, i < n -> j < w ->
      cel w msg i j = N.lxor (cel c (dat (encM op R)) i (crOff R + j)) (cel w (dat x) i j) /\
      cel w d i j = cel c (dat (outM op R)) i (crOff R + j).
Proof.
  intros Hn Hc Ho RA CA LA RB CB LB Rx Cx Lx Rs Cs Ls. unfold cor_recv_apply.
  rewrite RA, Rx, Rs, Cx, Cs, CA, !Nat.eqb_refl. cbn [negb orb throw_if bind].
  rewrite (eqbF (a := n) (b := 0)) by lia. cbn [throw_if bind]. rewrite cor_left_le by lia.
  destruct (Nat.ltb_spec c (crOff R + w)); [lia|]. cbn [throw_if bind].
  assert (Ce : cols (encM op R) = c) by (destruct op; assumption).
  assert (Co : cols (outM op R) = c) by (destruct op; assumption).
  assert (Le : length (dat (encM op R)) = n * c) by (destruct op; assumption).
  assert (Lo : length (dat (outM op R)) = n * cols (outM op R)) by (destruct op; simpl; congruence).
  destruct (xorShare_ok (v1 := dat (encM op R)) (vc := c) (off := crOff R) (v2 := dat x) (n := n) (c := w) (s := repeat 0%N (n * w)))
    as (msg & E1 & L1 & H1); [assumption|lia|assumption|apply repeat_length|].
  destruct (@copy_window_ok (outM op R) (crOff R) n sout w) as (d & E2 & L2 & H2); [assumption|lia|assumption|assumption|].
  exists msg, d. rewrite <- Ce in E1 at 1. unfold encM in E1. unfold outM in E2. rewrite E1. cbn [bind]. rewrite E2. cbn [bind].
  split; [reflexivity|]. split; [exact L1|]. split; [exact L2|]. intros i j Hi Hj. split; [apply H1; assumption|].
  rewrite H2 by assumption. rewrite Co. reflexivity.
Qed.

(* what the sender's part computes from a message *)
Definition send_out (op : PermOp) (n c w : nat) (S0 : cor_s) (msg d : list N) : Prop :=
  length d = n * w /\
  match op with
  | Regular => forall i j, i < n -> j < w -> cel w d i j = N.lxor (cel c (dat (csDelta S0)) i (csOff S0 + j)) (cel w msg (nth i (csPerm S0) 0) j)
  | Inverse => forall i j, i < n -> j < w -> cel w d (nth i (csPerm S0) 0) j = N.lxor (cel c (dat (csDelta S0)) i (csOff S0 + j)) (cel w msg i j)
  end.

Lemma send_ok n c S0 op w sout msg : 0 < n -> (N.of_nat c < 2 ^ 64)%N -> csOff S0 + w <= c ->
  is_perm n (csPerm S0) -> rows (csDelta S0) = n -> cols (csDelta S0) = c -> length (dat (csDelta S0)) = n * c ->
  rows sout = n -> cols sout = w -> length (dat sout) = n * w -> length msg = n * w ->
  exists d, cor_send_apply S0 op sout msg = Ok (Mat n w d, CorS (csPerm S0) (csDelta S0) (csOff S0 + w)) /\
    send_out op n c w S0 msg d.
Proof.
  intros Hn Hc Ho Hp RD CD LD Rs Cs Ls Lm. unfold cor_send_apply.
  rewrite RD, CD, Rs, Cs. rewrite (eqbF (a := n) (b := 0)) by lia. rewrite Nat.eqb_refl. cbn [negb throw_if bind].
  rewrite cor_left_le by lia. destruct (Nat.ltb_spec c (csOff S0 + w)); [lia|]. cbn [throw_if bind].
  rewrite (eqbT Lm). cbn [negb throw_if bind]. destruct op.
  - destruct (papply_ok (n := n) (c := w) (pi := csPerm S0) Regular (x := Mat n w msg) (s := zmat n w)) as (d1 & E1 & L1 & H1);
      try reflexivity; try assumption; [apply zmat_len|].
    rewrite E1. cbn [bind dat].
    destruct (xorShare_ok (v1 := dat (csDelta S0)) (vc := c) (off := csOff S0) (v2 := d1) (n := n) (c := w) (s := dat sout))
      as (d & E2 & L2 & H2); [assumption|lia|assumption|assumption|].
    rewrite E2. cbn [bind]. exists d. split; [reflexivity|]. split; [exact L2|]. intros i j Hi Hj. rewrite H2 by assumption. f_equal.
    apply (gathered_cel (n := n)) in H1; [|assumption|exact Lm]. apply H1; assumption.
  - destruct (xorShareIn_ok (v1 := dat (csDelta S0)) (vc := c) (off := csOff S0) (n := n) (c := w) (s := msg))
      as (d1 & E1 & L1 & H1); [assumption|lia|assumption|].
    rewrite E1. cbn [bind].
    destruct (papply_ok (n := n) (c := w) (pi := csPerm S0) Inverse (x := Mat n w d1) (s := sout)) as (d & E2 & L2 & H2);
      try reflexivity; try assumption.
    rewrite E2. cbn [bind]. exists d. split; [reflexivity|]. split; [exact L2|]. intros i j Hi Hj.
    apply (scattered_cel (n := n)) in H2; [|assumption|exact L1]. destruct H2 as [_ H2]. rewrite H2 by assumption. apply H1; assumption.
Qed.

Lemma send_in_ok n c S0 op w x sout msg : 0 < n -> (N.of_nat c < 2 ^ 64)%N -> csOff S0 + w <= c ->
  is_perm n (csPerm S0) -> rows (csDelta S0) = n -> cols (csDelta S0) = c -> length (dat (csDelta S0)) = n * c ->
  rows sout = n -> cols sout = w -> length (dat sout) = n * w -> length msg = n * w ->
  rows x = n -> cols x = w -> length (dat x) = n * w ->
  exists d e y, cor_send_apply_in S0 op x sout msg = Ok (Mat n w d, CorS (csPerm S0) (csDelta S0) (csOff S0 + w)) /\
    send_out op n c w S0 msg e /\ permuted op w (csPerm S0) (dat x) y /\ length y = n * w /\ length d = n * w /\
    forall i j, i < n -> j < w -> cel w d i j = N.lxor (cel w y i j) (cel w e i j).
Proof.
  intros Hn Hc Ho Hp RD CD LD Rs Cs Ls Lm Rx Cx Lx. unfold cor_send_apply_in.
  rewrite RD. rewrite (eqbF (a := n) (b := 0)) by lia. cbn [throw_if bind].
  destruct (@send_ok n c S0 op w sout msg) as (e & E & He); try assumption. rewrite E. cbn [bind].
  destruct (papply_ok (n := n) (c := w) (pi := csPerm S0) op (x := x) (s := zmat (rows x) (cols x))) as (y & E2 & L2 & H2);
    try assumption; [rewrite zmat_len; congruence|].
  rewrite E2. cbn [bind fst snd].
  destruct (@xorAdd_ok (Mat n w y) (Mat n w e) n w) as (d & E3 & L3 & H3); try reflexivity; [exact L2|apply He|].
  rewrite E3. cbn [bind]. exists d, e, y. auto 7.
Qed.

(* ---------- one step of both parties ---------- *)
Lemma permuted_len op w pi x y n : is_perm n pi -> permuted op w pi x y -> length y = n * w.
Proof. intros Hp H. rewrite <- (is_perm_length Hp). destruct op; apply H. Qed.

Lemma xor_fact n c w (op : PermOp) (S0 : cor_s) (R : cor_r) x msg e d :
  cor_rel n c S0 R -> crOff R + w <= c -> length x = n * w -> length msg = n * w -> length d = n * w ->
  (forall i j, i < n -> j < w ->
      cel w msg i j = N.lxor (cel c (dat (encM op R)) i (crOff R + j)) (cel w x i j) /\
      cel w d i j = cel c (dat (outM op R)) i (crOff R + j)) ->
  send_out op n c w S0 msg e -> permuted op w (csPerm S0) x (xors e d).
Proof.
  intros (Hp & RD & CD & LD & RA & CA & LA & RB & CB & LB & HO & HR) Ho Lx Lm Ld Hm [Le He].
  assert (Lo : length (xors e d) = n * w) by (apply xors_len; assumption).
  destruct op; simpl in *.
  - apply (gathered_cel (n := n)); [assumption|assumption|]. split; [exact Lo|]. intros i j Hi Hj.
    rewrite (cel_xors (n := n * w)) by assumption. destruct (nthp Hp Hi) as [_ Hpi].
    rewrite He by assumption. rewrite (proj1 (Hm _ _ Hpi Hj)), (proj2 (Hm _ _ Hi Hj)), HO.
    rewrite <- HR by lia. set (D := cel c (dat (csDelta S0)) i _). set (B := cel c (dat (crB R)) i _). set (X := cel w x _ j).
    apply N.bits_inj. intros k. rewrite ?N.lxor_spec. destruct (N.testbit D k), (N.testbit B k), (N.testbit X k); reflexivity.
  - apply (scattered_cel (n := n)); [assumption|assumption|]. split; [exact Lo|]. intros i j Hi Hj.
    rewrite (cel_xors (n := n * w)) by assumption. destruct (nthp Hp Hi) as [_ Hpi].
    rewrite He by assumption. rewrite (proj1 (Hm _ _ Hi Hj)), (proj2 (Hm _ _ Hpi Hj)), HO.
    rewrite <- HR by lia. set (D := cel c (dat (csDelta S0)) i _). set (B := cel c (dat (crB R)) i _). set (X := cel w x _ j).
    apply N.bits_inj. intros k. rewrite ?N.lxor_spec. destruct (N.testbit D k), (N.testbit B k), (N.testbit X k); reflexivity.
Qed.

Lemma permuted_xors n op w pi x x' y y' : is_perm n pi -> length x = n * w -> length x' = n * w ->
  permuted op w pi x y -> permuted op w pi x' y' -> permuted op w pi (xors x x') (xors y y').
Proof.
  intros Hp Lx Lx' H H'. pose proof (permuted_len Hp H) as Ly. pose proof (permuted_len Hp H') as Ly'.
  destruct op; simpl in *.
  - apply (gathered_cel (n := n)) in H; [|assumption|assumption]. apply (gathered_cel (n := n)) in H'; [|assumption|assumption].
    apply (gathered_cel (n := n)); [assumption|apply xors_len; assumption|]. split; [apply xors_len; assumption|].
    intros i j Hi Hj. rewrite !(cel_xors (n := n * w)) by assumption. destruct H as [_ H], H' as [_ H']. rewrite H, H' by assumption. reflexivity.
  - apply (scattered_cel (n := n)) in H; [|assumption|assumption]. apply (scattered_cel (n := n)) in H'; [|assumption|assumption].
    apply (scattered_cel (n := n)); [assumption|apply xors_len; assumption|]. split; [apply xors_len; assumption|].
    intros i j Hi Hj. rewrite !(cel_xors (n := n * w)) by assumption. destruct H as [_ H], H' as [_ H']. rewrite H, H' by assumption. reflexivity.
Qed.

Lemma xors_zero n x : length x = n -> xors (repeat 0%N n) x = x.
Proof.
  intros L. apply (nth_ext _ _ 0%N 0%N); [rewrite (xors_len (n := n)); [lia|apply repeat_length|exact L]|]. intros k Hk.
  rewrite (nth_xors (n := n)); [|apply repeat_length|exact L]. rewrite nth_repeat. apply N.lxor_0_l.
Qed.

Lemma cor_rel_off n c S0 R w : cor_rel n c S0 R ->
  cor_rel n c (CorS (csPerm S0) (csDelta S0) (csOff S0 + w)) (CorR (crA R) (crB R) (crOff R + w)).
Proof. intros (Hp & RD & CD & LD & RA & CA & LA & RB & CB & LB & HO & HR). repeat (split; [assumption|]). split; [simpl; congruence|exact HR]. Qed.

(* the two matching calls *)
Lemma round_ok n c S0 R op w xs xr so ro : 0 < n -> (N.of_nat c < 2 ^ 64)%N -> cor_rel n c S0 R -> csOff S0 + w <= c ->
  rows xr = n -> cols xr = w -> length (dat xr) = n * w ->
  rows ro = n -> cols ro = w -> length (dat ro) = n * w ->
  rows so = n -> cols so = w -> length (dat so) = n * w ->
  match xs with Some x => rows x = n /\ cols x = w /\ length (dat x) = n * w | None => True end ->
  exists msg yr ys, cor_recv_apply R op xr ro = Ok (msg, (Mat n w yr, CorR (crA R) (crB R) (crOff R + w))) /\
    match xs with Some x => cor_send_apply_in S0 op x so msg | None => cor_send_apply S0 op so msg end
      = Ok (Mat n w ys, CorS (csPerm S0) (csDelta S0) (csOff S0 + w)) /\
    length ys = n * w /\ length yr = n * w /\
    permuted op w (csPerm S0) (xors (in_or_zero (n * w) (option_map dat xs)) (dat xr)) (xors ys yr).
Proof.
  intros Hn Hc HR Ho Rx Cx Lx Rr Cr Lr Rs Cs Ls Hx.
  pose proof HR as (Hp & RD & CD & LD & RA & CA & LA & RB & CB & LB & HO & HI).
  destruct (@recv_ok n c R op w xr ro) as (msg & yr & E1 & Lm & Ly & Hm); try assumption; [lia|].
  exists msg, yr. destruct xs as [x|].
  - destruct Hx as (Rx' & Cx' & Lx').
    destruct (@send_in_ok n c S0 op w x so msg) as (ys & e & y & E2 & He & Hy & Ly' & Lys & Hd); try assumption.
    exists ys. split; [exact E1|]. split; [exact E2|]. split; [exact Lys|]. split; [exact Ly|]. cbn [option_map in_or_zero].
    assert (F : permuted op w (csPerm S0) (dat xr) (xors e yr)) by (apply (xor_fact HR (x := dat xr) (msg := msg)); auto; lia).
    replace (xors ys yr) with (xors y (xors e yr)).
    + apply (permuted_xors (n := n)); assumption.
    + destruct He as [Le _].
      assert (Lx2 : length (xors e yr) = n * w) by (apply xors_len; assumption).
      apply (cells_ext (n := n) (c := w)); [apply xors_len; assumption|apply xors_len; assumption|]. intros i j Hi Hj.
      rewrite !(cel_xors (n := n * w)) by assumption. rewrite Hd by assumption. symmetry. apply N.lxor_assoc.
  - destruct (@send_ok n c S0 op w so msg) as (e & E2 & He); try assumption.
    exists e. split; [exact E1|]. split; [exact E2|]. split; [apply He|]. split; [exact Ly|]. cbn [option_map in_or_zero].
    rewrite xors_zero by exact Lx. apply (xor_fact HR (msg := msg)); auto; lia.
Qed.

Lemma derand_ok n c S0 R p : cor_rel n c S0 R -> is_perm n p ->
  exists delta R', cor_send_derand S0 p = Ok (delta, CorS p (csDelta S0) (csOff S0)) /\ cor_recv_derand R delta = Ok R' /\
    cor_rel n c (CorS p (csDelta S0) (csOff S0)) R' /\ crOff R' = crOff R /\ crB R' = crB R.
Proof.
  intros (Hp & RD & CD & LD & RA & CA & LA & RB & CB & LB & HO & HI) Hq.
  unfold cor_send_derand. destruct (perm_inverse_ok Hq) as (inv & E1 & Hinv & H1). rewrite E1. cbn [bind].
  destruct (perm_compose_ok Hinv Hp) as (delta & E2 & Hd & H2). rewrite E2. cbn [bind].
  unfold cor_recv_derand.
  destruct (papply_ok (n := n) (c := c) (pi := delta) Regular (x := crA R) (s := zmat (rows (crA R)) (cols (crA R)))) as (a & E3 & L3 & H3);
    try assumption; [rewrite zmat_len; congruence|].
  exists delta, (CorR (Mat n c a) (crB R) (crOff R)). split; [reflexivity|].
  rewrite (is_perm_length Hd), RA, CA, Nat.eqb_refl. cbn [negb throw_if bind]. rewrite RA, CA in E3. rewrite E3. cbn [bind].
  split; [reflexivity|]. split; [|split; reflexivity].
  apply (gathered_cel (n := n)) in H3; [|assumption|assumption]. destruct H3 as [_ H3].
  unfold cor_rel. cbn [csPerm csDelta csOff crA crB crOff rows cols dat].
  repeat (split; [first [assumption|reflexivity]|]). intros i j Hi Hj.
  destruct (nthp Hq Hi) as [Eq Hqi]. rewrite H3 by assumption. rewrite HI by assumption. f_equal.
  apply H1 in Eq. destruct Eq as [Eq _]. destruct (nthp Hinv Hqi) as [Ei _].
  assert (Hii : nth (nth i p 0) inv 0 = i) by congruence.
  destruct (nthp Hd Hqi) as [Ed _]. pose proof (H2 _ _ Ei) as H2'. rewrite Ed, Hii in H2'. destruct (nthp Hp Hi) as [Epi _]. congruence.
Qed.

Lemma step_ok n c S0 R o : 0 < n -> (N.of_nat c < 2 ^ 64)%N -> cor_rel n c S0 R -> op_ok n o -> csOff S0 + op_width o <= c ->
  exists ys yr S1 R1, cor_step (S0, R) o = Ok ((ys, yr), (S1, R1)) /\ cor_rel n c S1 R1 /\ csOff S1 = csOff S0 + op_width o /\
    csDelta S1 = csDelta S0 /\ crB R1 = crB R /\
    match o with
    | OApply op w xs xr => csPerm S1 = csPerm S0 /\ length ys = n * w /\ length yr = n * w /\
        permuted op w (csPerm S0) (xors (in_or_zero (n * w) xs) xr) (xors ys yr)
    | ODerand p => csPerm S1 = p
    end.
Proof.
  intros Hn Hc HR Ho Hw. pose proof HR as (Hp & RD & CD & LD & RA & CA & LA & RB & CB & LB & HO & HI).
  destruct o as [op w xs xr|p]; cbn [op_width op_ok] in *.
  - destruct Ho as [Lx Lxs]. unfold cor_step. rewrite RA, RD.
    destruct (@round_ok n c S0 R op w (option_map (Mat n w) xs) (Mat n w xr) (zmat n w) (zmat n w))
      as (msg & yr & ys & E1 & E2 & L1 & L2 & H); try assumption; try reflexivity; try apply zmat_len.
    { destruct xs; simpl; auto. }
    rewrite E1. cbn [bind fst snd].
    assert (E2' : match xs with Some x => cor_send_apply_in S0 op (Mat n w x) (zmat n w) msg
                  | None => cor_send_apply S0 op (zmat n w) msg end = Ok (Mat n w ys, CorS (csPerm S0) (csDelta S0) (csOff S0 + w))) by (destruct xs; exact E2).
    rewrite E2'. cbn [bind fst snd dat].
    exists ys, yr, (CorS (csPerm S0) (csDelta S0) (csOff S0 + w)), (CorR (crA R) (crB R) (crOff R + w)).
    split; [reflexivity|]. split; [apply cor_rel_off; exact HR|]. repeat (split; [first [reflexivity|assumption]|]).
    replace (option_map dat (option_map (Mat n w) xs)) with xs in H by (destruct xs; reflexivity). exact H.
  - destruct (derand_ok HR Ho) as (delta & R' & E1 & E2 & HR' & Ho' & HB'). unfold cor_step. rewrite E1. cbn [bind fst snd]. rewrite E2. cbn [bind].
    exists [], [], (CorS p (csDelta S0) (csOff S0)), R'. split; [reflexivity|]. split; [exact HR'|]. cbn [csOff csDelta csPerm].
    split; [lia|]. auto.
Qed.

Lemma hist_ok n c : 0 < n -> (N.of_nat c < 2 ^ 64)%N -> forall h S0 R, cor_rel n c S0 R -> Forall (op_ok n) h -> csOff S0 + widths h <= c ->
  exists outs S1 R1, cor_hist (S0, R) h = Ok (outs, (S1, R1)) /\ hist_spec n (csPerm S0) h outs /\
    cor_rel n c S1 R1 /\ csOff S1 = csOff S0 + widths h /\ csPerm S1 = last_perm (csPerm S0) h.
Proof.
  intros Hn Hc. induction h as [|o h IH]; intros S0 R HR Ho Hw.
  - exists [], S0, R. cbn [cor_hist hist_spec widths fold_right last_perm fold_left]. split; [reflexivity|]. split; [exact I|]. split; [exact HR|]. split; [lia|reflexivity].
  - cbn [widths fold_right] in Hw. fold (widths h) in Hw. apply Forall_cons_iff in Ho. destruct Ho as [Ho Hos].
    destruct (@step_ok n c S0 R o) as (ys & yr & S1 & R1 & E1 & HR1 & Hoff & _ & _ & Hst); try assumption; [lia|].
    destruct (IH S1 R1) as (outs & S2 & R2 & E2 & Hs2 & HR2 & Hoff2 & Hp2); try assumption; [lia|].
    exists ((ys, yr) :: outs), S2, R2. cbn [cor_hist]. rewrite E1. cbn [bind fst snd]. rewrite E2. cbn [bind fst snd].
    split; [reflexivity|]. cbn [widths fold_right]. fold (widths h).
    destruct o as [op w xs xr|p]; cbn [hist_spec op_width last_perm fold_left] in *.
    + destruct Hst as (Ep & L1 & L2 & H). rewrite Ep in *.
      split; [auto|]. split; [exact HR2|]. split; [lia|]. exact Hp2.
    + subst p. split; [exact Hs2|]. split; [exact HR2|]. split; [lia|]. exact Hp2.
Qed.

(* ---------- which masks are used ---------- *)
Lemma recv_window n c R R' op w x ro : 0 < n -> (N.of_nat c < 2 ^ 64)%N ->
  rows (crA R) = n -> cols (crA R) = c -> length (dat (crA R)) = n * c ->
  rows (crB R) = n -> cols (crB R) = c -> length (dat (crB R)) = n * c ->
  rows (crA R') = n -> cols (crA R') = c -> length (dat (crA R')) = n * c ->
  rows (crB R') = n -> cols (crB R') = c -> length (dat (crB R')) = n * c ->
  crOff R = crOff R' -> crOff R + w <= c ->
  (forall i j, i < n -> crOff R <= j < crOff R + w ->
    cel c (dat (crA R)) i j = cel c (dat (crA R')) i j /\ cel c (dat (crB R)) i j = cel c (dat (crB R')) i j) ->
  rows x = n -> cols x = w -> length (dat x) = n * w -> rows ro = n -> cols ro = w -> length (dat ro) = n * w ->
  exists msg y q q', cor_recv_apply R op x ro = Ok (msg, (y, q)) /\ cor_recv_apply R' op x ro = Ok (msg, (y, q')).
Proof.
  intros Hn Hc A1 A2 A3 B1 B2 B3 A1' A2' A3' B1' B2' B3' HO Ho HS Rx Cx Lx Rr Cr Lr.
  destruct (@recv_ok n c R op w x ro) as (m & d & E & Lm & Ld & H); try assumption.
  destruct (@recv_ok n c R' op w x ro) as (m' & d' & E' & Lm' & Ld' & H'); try assumption; [lia|].
  assert (m = m').
  { apply (cells_ext (n := n) (c := w)); auto. intros i j Hi Hj. rewrite (proj1 (H i j Hi Hj)), (proj1 (H' i j Hi Hj)), <- HO.
    destruct (HS i (crOff R + j)) as [Ha Hb]; [assumption|lia|]. destruct op; simpl; congruence. }
  assert (d = d').
  { apply (cells_ext (n := n) (c := w)); auto. intros i j Hi Hj. rewrite (proj2 (H i j Hi Hj)), (proj2 (H' i j Hi Hj)), <- HO.
    destruct (HS i (crOff R + j)) as [Ha Hb]; [assumption|lia|]. destruct op; simpl; congruence. }
  subst. eexists _, _, _, _. split; [exact E|exact E'].
Qed.

Lemma send_out_det op n c w S0 S1 msg d d' : is_perm n (csPerm S0) -> csPerm S0 = csPerm S1 -> csOff S0 = csOff S1 ->
  (forall i j, i < n -> csOff S0 <= j < csOff S0 + w -> cel c (dat (csDelta S0)) i j = cel c (dat (csDelta S1)) i j) ->
  send_out op n c w S0 msg d -> send_out op n c w S1 msg d' -> d = d'.
Proof.
  intros Hp EP EO HS [L H] [L' H']. apply (cells_ext (n := n) (c := w)); auto. intros i j Hi Hj. destruct op.
  - rewrite H, H' by assumption. rewrite <- EP, <- EO, HS by lia. reflexivity.
  - destruct (is_perm_onto Hp Hi) as (k & Hk & Ek). destruct (nthp Hp Hk) as [Ek' _].
    assert (i = nth k (csPerm S0) 0) by congruence. subst i. rewrite H by assumption. rewrite EP, H' by assumption. rewrite <- EO, HS by lia. reflexivity.
Qed.

Lemma permuted_det op n w pi x y y' : is_perm n pi -> length x = n * w -> permuted op w pi x y -> permuted op w pi x y' -> y = y'.
Proof.
  intros Hp Lx H H'. pose proof (permuted_len Hp H) as L. pose proof (permuted_len Hp H') as L'.
  apply (cells_ext (n := n) (c := w)); auto. intros i j Hi Hj. destruct op; simpl in *.
  - apply (gathered_cel (n := n)) in H; auto. apply (gathered_cel (n := n)) in H'; auto. destruct H as [_ H], H' as [_ H'].
    rewrite H, H' by assumption. reflexivity.
  - apply (scattered_cel (n := n)) in H; auto. apply (scattered_cel (n := n)) in H'; auto. destruct H as [_ H], H' as [_ H'].
    destruct (is_perm_onto Hp Hi) as (k & Hk & Ek). destruct (nthp Hp Hk) as [Ek' _].
    assert (i = nth k pi 0) by congruence. subst i. rewrite H, H' by assumption. reflexivity.
Qed.

Lemma window_ok n c s s' r r' op w xs xr so ro : 0 < n -> (N.of_nat c < 2 ^ 64)%N -> cor_rel n c s r -> cor_rel n c s' r' ->
  csPerm s = csPerm s' -> csOff s = csOff s' -> csOff s + w <= c -> same_masks n c (csOff s) (csOff s + w) s s' r r' ->
  rows xr = n -> cols xr = w -> length (dat xr) = n * w -> rows ro = n -> cols ro = w -> length (dat ro) = n * w ->
  rows so = n -> cols so = w -> length (dat so) = n * w -> rows xs = n -> cols xs = w -> length (dat xs) = n * w ->
  exists msg yr ys r1 r1' s1 s1',
    cor_recv_apply r op xr ro = Ok (msg, (yr, r1)) /\ cor_recv_apply r' op xr ro = Ok (msg, (yr, r1')) /\
    cor_send_apply_in s op xs so msg = Ok (ys, s1) /\ cor_send_apply_in s' op xs so msg = Ok (ys, s1') /\
    csOff s1 = csOff s + w /\ crOff r1 = crOff r + w.
Proof.
  intros Hn Hc HR HR' EP EO Ho HM Rx Cx Lx Rr Cr Lr Rs Cs Ls Rxs Cxs Lxs.
  pose proof HR as (Hp & RD & CD & LD & RA & CA & LA & RB & CB & LB & HO & HI).
  pose proof HR' as (Hp' & RD' & CD' & LD' & RA' & CA' & LA' & RB' & CB' & LB' & HO' & HI').
  destruct (@round_ok n c s r op w (Some xs) xr so ro) as (msg & yr & ys & E1 & E2 & _); auto.
  assert (Lm : length msg = n * w).
  { destruct (@recv_ok n c r op w xr ro) as (m & d & E & Lm & _); auto; [lia|]. rewrite E1 in E. injection E. congruence. }
  destruct (@recv_window n c r r' op w xr ro) as (m & y & q & q' & E3 & E4); auto; try lia.
  { intros i j Hi Hj. rewrite <- HO in Hj. destruct (HM i j Hi Hj) as (_ & Ha & Hb). auto. }
  rewrite E1 in E3. injection E3 as <- <- <-.
  destruct (@send_in_ok n c s op w xs so msg) as (d & e & y & F1 & G1 & G2 & G3 & G4 & G5); auto.
  destruct (@send_in_ok n c s' op w xs so msg) as (d' & e' & y' & F1' & G1' & G2' & G3' & G4' & G5'); auto; [lia|].
  rewrite E2 in F1. injection F1 as <-.
  assert (e = e').
  { refine (send_out_det Hp EP EO _ G1 G1'). intros i j Hi Hj. apply HM; auto. }
  assert (y = y') by (rewrite <- EP in G2'; apply (permuted_det Hp Lxs G2 G2')). subst e' y'.
  assert (ys = d') by (apply (cells_ext (n := n) (c := w)); auto; intros; rewrite G5, G5' by assumption; reflexivity). subst d'.
  eexists _, _, _, _, _, _, _. split; [exact E1|]. split; [exact E4|]. split; [exact E2|]. split; [exact F1'|]. auto.
Qed.

Lemma exhausted n c s r op x so ro : 0 < n -> (N.of_nat c < 2 ^ 64)%N -> cor_rel n c s r -> csOff s <= c ->
  rows x = n -> rows ro = n -> cols x = cols ro -> c < csOff s + cols ro ->
  rows so = n -> cols so = cols ro ->
  cor_recv_apply r op x ro = Throw /\ (forall msg, cor_send_apply s op so msg = Throw) /\
  (forall xs msg, cor_send_apply_in s op xs so msg = Throw).
Proof.
  intros Hn Hc (Hp & RD & CD & LD & RA & CA & LA & RB & CB & LB & HO & HI) Ho Rx Rr Cx Hw Rs Cs.
  assert (E : forall msg, cor_send_apply s op so msg = Throw).
  { intros msg. unfold cor_send_apply. rewrite RD, CD, Rs, Cs, (eqbF (a := n) (b := 0)), Nat.eqb_refl by lia. cbn [negb throw_if bind].
    rewrite cor_left_le by assumption. destruct (Nat.ltb_spec c (csOff s + cols ro)); [reflexivity|lia]. }
  split; [|split; [exact E|]].
  - unfold cor_recv_apply. rewrite RA, CA, Rx, Rr, Cx, !Nat.eqb_refl, (eqbF (a := n) (b := 0)) by lia. cbn [negb orb throw_if bind].
    rewrite cor_left_le by lia. destruct (Nat.ltb_spec c (crOff r + cols ro)); [reflexivity|lia].
  - intros xs msg. unfold cor_send_apply_in. rewrite RD, (eqbF (a := n) (b := 0)) by lia. cbn [throw_if bind]. rewrite E. reflexivity.
Qed.

(* an operation that does not fit stops the history *)
Lemma hist_exhausted n c op w xs xr : 0 < n -> (N.of_nat c < 2 ^ 64)%N -> forall h S0 R, cor_rel n c S0 R -> Forall (op_ok n) h ->
  csOff S0 + widths h <= c -> c < csOff S0 + widths h + w -> cor_hist (S0, R) (h ++ [OApply op w xs xr]) = Throw.
Proof.
  intros Hn Hc. induction h as [|o h IH]; intros S0 R HR Ho Hw Hx.
  - cbn [widths fold_right] in *. pose proof HR as (Hp & RD & CD & LD & RA & CA & LA & RB & CB & LB & HO & HI).
    cbn [app cor_hist cor_step]. rewrite RA.
    destruct (@exhausted n c S0 R op (Mat n w xr) (zmat n w) (zmat n w)) as (E & _); try assumption; try reflexivity; [lia|simpl; lia|].
    rewrite E. reflexivity.
  - cbn [widths fold_right] in Hw, Hx. fold (widths h) in Hw, Hx. apply Forall_cons_iff in Ho. destruct Ho as [Ho Hos].
    destruct (@step_ok n c S0 R o) as (ys & yr & S1 & R1 & E1 & HR1 & Hoff & _); try assumption; [lia|].
    cbn [app cor_hist]. rewrite E1. cbn [bind snd]. rewrite (IH S1 R1); try assumption; try lia. reflexivity.
Qed.

Lemma widths_app h h' : widths (h ++ h') = widths h + widths h'.
Proof. unfold widths. induction h; simpl; lia. Qed.

(* ---------- concatenation of equally long rows ---------- *)
Lemma concat_length A (l : list (list A)) m : (forall r, In r l -> length r = m) -> length (concat l) = length l * m.
Proof.
  induction l as [|r l IH]; intros H; simpl; [reflexivity|]. rewrite app_length, IH, (H r); auto; [left; reflexivity|].
  intros r' Hr'. apply H. right. exact Hr'.
Qed.
Lemma nth_concat A (d : A) (l : list (list A)) m k r : (forall r, In r l -> length r = m) -> k < length l -> r < m ->
  nth (k * m + r) (concat l) d = nth r (nth k l []) d.
Proof.
  revert k. induction l as [|x l IH]; intros k H Hk Hr; simpl in Hk; [lia|]. assert (Lx : length x = m) by (apply H; left; reflexivity).
  destruct k as [|k]; simpl concat.
  - rewrite app_nth1 by (simpl; lia). reflexivity.
  - rewrite app_nth2 by (simpl; lia). replace (S k * m + r - length x) with (k * m + r) by (simpl; lia).
    apply IH; [|lia|assumption]. intros r' Hr'. apply H. right. exact Hr'.
Qed.
Lemma nth_map_d A B (f : A -> B) l k d d' : k < length l -> nth k (map f l) d' = f (nth k l d).
Proof. intros H. apply nth_error_nth. rewrite nth_error_map, (nth_error_nth_lt d H). reflexivity. Qed.
