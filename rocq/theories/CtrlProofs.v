(* The control bit circuit of OmJoin and GroupBy. *)
From Verif Require Import Base Words KeyMultModel GmwModel GmwSpec GmwProofs CircuitProofs BitInjProofs OmJoinModel.

(* gates with distinct outputs that none of them reads *)
Lemma eval_par gs : forall e, NoDup (map gOut gs) -> (forall g h, In g gs -> In h gs -> gOut h <> gIn0 g /\ gOut h <> gIn1 g) ->
  forall g, In g gs -> eval gs e (gOut g) = gfun (gType g) (e (gIn0 g)) (e (gIn1 g)).
Proof.
  induction gs as [|g0 gs IH]; intros e ND HR g Hg; [contradiction|].
  cbn [map] in ND. inversion ND as [|x l Hx ND' E]; subst.
  change (eval (g0 :: gs) e) with (eval gs (step e g0)).
  destruct Hg as [->|Hg].
  - rewrite eval_keep; [unfold step, put; rewrite Nat.eqb_refl; reflexivity|].
    intros h Hh E. apply Hx. rewrite <- E. apply in_map. exact Hh.
  - rewrite IH; [|exact ND'|intros a b Ha Hb; apply HR; right; assumption|exact Hg].
    destruct (HR g g0) as [H0 H1]; [right; exact Hg|left; reflexivity|].
    unfold step, put. rewrite !(proj2 (Nat.eqb_neq _ _)) by (intros E; rewrite E in *; congruence). reflexivity.
Qed.

(* all bits of e from a on, k of them, are equal to those of the other key *)
Definition eqs (bits : nat) (e : env) (a k : nat) : bool := forallb (fun t => Bool.eqb (e t) (e (bits + t))) (seq a k).

Lemma eqs_app bits e a k m : eqs bits e a (k + m) = eqs bits e a k && eqs bits e (a + k) m.
Proof. unfold eqs. rewrite seq_app, forallb_app. reflexivity. Qed.

(* one level *)
Lemma and_level_ok temp temp2 size e : 2 * size <= length temp -> length temp2 = size -> NoDup temp2 -> (forall w, In w temp -> ~ In w temp2) ->
  exists gs, mapM (fun j => do a <- get temp (2 * j); do b <- get temp (2 * j + 1); do o <- get temp2 j; Ok (Gate a b GAnd o)) (seq 0 size) = Ok gs /\
    (forall j, j < size -> eval gs e (nth j temp2 0) = e (nth (2 * j) temp 0) && e (nth (2 * j + 1) temp 0)) /\
    (forall w, ~ In w temp2 -> eval gs e w = e w).
Proof.
  intros HL L2 ND Hd.
  set (gf := fun j => Gate (nth (2 * j) temp 0) (nth (2 * j + 1) temp 0) GAnd (nth j temp2 0)).
  assert (EO : map gOut (map gf (seq 0 size)) = temp2).
  { rewrite map_map. cbn [gf gOut]. apply nth_ext with 0 0; [rewrite map_length, seq_length; lia|].
    intros j Hj. rewrite map_length, seq_length in Hj. rewrite nth_map_seq' by exact Hj. reflexivity. }
  exists (map gf (seq 0 size)). split; [|split].
  - apply mapM_ok. intros j Hj. apply in_seq in Hj. rewrite (@get_ok _ _ _ 0), (@get_ok _ _ _ 0), (@get_ok _ _ _ 0) by lia. reflexivity.
  - intros j Hj. change (nth j temp2 0) with (gOut (gf j)). rewrite eval_par.
    + reflexivity.
    + rewrite EO. exact ND.
    + intros g h Hg Hh. assert (Ho : In (gOut h) temp2) by (rewrite <- EO; apply in_map, Hh).
      apply in_map_iff in Hg. destruct Hg as (k & <- & Hk). apply in_seq in Hk.
      split; intros E; rewrite E in Ho; revert Ho; apply Hd; cbn [gf gIn0 gIn1]; apply nth_In; lia.
    + apply in_map, in_seq. lia.
  - intros w Hw. apply eval_keep. intros g Hg E. apply Hw. rewrite <- EO, <- E. apply in_map, Hg.
Qed.

(* the levels from i on *)
Lemma and_levels_ok bits out e0 : 0 < bits -> forall k i next temp e,
  length temp = bits / 2 ^ i -> NoDup temp -> (forall w, In w temp -> w < next) -> out < next ->
  (1 < bits / 2 ^ i -> ~ In out temp) ->
  (bits / 2 ^ i = 1 -> temp = [out]) -> (bits / 2 ^ i = 0 -> e out = eqs bits e0 0 (2 ^ Nat.log2 bits)) ->
  (forall j, j < bits / 2 ^ i -> e (nth j temp 0) = eqs bits e0 (j * 2 ^ i) (2 ^ i)) ->
  Nat.log2_up bits <= i + k ->
  exists gs m, and_levels k i bits out next temp = Ok (gs, m) /\ next <= m /\
    eval gs e out = eqs bits e0 0 (2 ^ Nat.log2 bits).
Proof.
  intros Hb. induction k as [|k IH]; intros i next temp e Lt ND Hlt Hon Hout H1 H0 He Hk.
  - exists [], next. split; [reflexivity|]. split; [lia|]. cbn [eval fold_left].
    assert (Hp : bits <= 2 ^ i).
    { destruct (Nat.eq_dec bits 1) as [->|Hn1]; [assert (2 ^ i <> 0) by (apply Nat.pow_nonzero; lia); lia|].
      transitivity (2 ^ Nat.log2_up bits); [apply Nat.log2_log2_up_spec; lia|apply Nat.pow_le_mono_r; lia]. }
    destruct (Nat.eq_dec bits (2 ^ i)) as [E|E].
    + assert (Ed : bits / 2 ^ i = 1) by (rewrite E; apply Nat.div_same; apply Nat.pow_nonzero; lia).
      specialize (H1 Ed). specialize (He 0 ltac:(lia)). rewrite H1 in He. cbn [nth] in He. rewrite He.
      rewrite E at 3. rewrite Nat.log2_pow2 by lia. reflexivity.
    + apply H0. apply Nat.div_small. lia.
  - cbn [and_levels].
    assert (Ediv : bits / 2 / 2 ^ i = bits / 2 ^ S i).
    { rewrite Nat.div_div by (try apply Nat.pow_nonzero; lia). reflexivity. }
    rewrite Ediv. set (size := bits / 2 ^ S i).
    assert (Hs : size = bits / 2 ^ i / 2).
    { unfold size. rewrite Nat.div_div by (try apply Nat.pow_nonzero; lia). f_equal. rewrite Nat.pow_succ_r'. lia. }
    set (temp2 := if size =? 1 then [out] else seq next size).
    assert (L2 : length temp2 = size) by (unfold temp2; destruct (Nat.eqb_spec size 1) as [E|E]; [cbn; lia|apply seq_length]).
    assert (N2 : NoDup temp2) by (unfold temp2; destruct (size =? 1); [repeat constructor; easy|apply seq_NoDup]).
    assert (D2 : forall w, In w temp -> ~ In w temp2).
    { intros w Hw. unfold temp2. destruct (Nat.eqb_spec size 1) as [E|E].
      - intros [->|[]]. revert Hw. apply Hout. lia.
      - rewrite in_seq. specialize (Hlt w Hw). lia. }
    destruct (@and_level_ok temp temp2 size e ltac:(lia) L2 N2 D2) as (gs & Eg & Hv & Hk').
    rewrite Eg. cbn [bind].
    assert (Hval : forall j, j < size -> eval gs e (nth j temp2 0) = eqs bits e0 (j * 2 ^ S i) (2 ^ S i)).
    { intros j Hj. rewrite Hv by exact Hj. rewrite !He by lia. rewrite Nat.pow_succ_r'. replace (2 * 2 ^ i) with (2 ^ i + 2 ^ i) by lia.
      rewrite eqs_app. f_equal; f_equal; lia. }
    destruct (IH (i + 1) (if size =? 1 then next else next + size) temp2 (eval gs e)) as (gs2 & m & E2 & Hm & HO).
    + rewrite L2. unfold size. rewrite Nat.add_1_r. reflexivity.
    + exact N2.
    + intros w Hw. unfold temp2 in Hw. destruct (Nat.eqb_spec size 1) as [E|E]; [destruct Hw as [<-|[]]; exact Hon|apply in_seq in Hw; lia].
    + destruct (size =? 1); lia.
    + rewrite Nat.add_1_r. fold size. intros Hgt. unfold temp2. rewrite (proj2 (Nat.eqb_neq _ _)) by lia. rewrite in_seq. lia.
    + rewrite Nat.add_1_r. fold size. intros E. unfold temp2. rewrite E. reflexivity.
    + rewrite Nat.add_1_r. fold size. intros E.
      assert (T2 : temp2 = []) by (apply length_zero_iff_nil; lia). rewrite Hk' by (rewrite T2; easy).
      destruct (Nat.eq_dec (bits / 2 ^ i) 0) as [Ez|Ez]; [apply H0, Ez|].
      assert (E1 : bits / 2 ^ i = 1) by lia. specialize (H1 E1). specialize (He 0 ltac:(lia)). rewrite H1 in He. cbn [nth] in He. rewrite He.
      assert (HL : Nat.log2 bits = i).
      { apply Nat.log2_unique; [lia|]. assert (Hp : 2 ^ i <> 0) by (apply Nat.pow_nonzero; lia).
        split; [apply Nat.div_str_pos_iff; lia|]. unfold size in E. apply Nat.div_small_iff in E; [lia|apply Nat.pow_nonzero; lia]. }
      rewrite HL. reflexivity.
    + rewrite Nat.add_1_r. fold size. exact Hval.
    + lia.
    + rewrite E2. cbn [bind fst snd]. exists (gs ++ gs2), m. split; [reflexivity|]. split; [destruct (size =? 1); lia|].
      rewrite eval_app. exact HO.
Qed.

Lemma control_circuit_ok bits : 0 < bits -> exists gs m, control_circuit bits = Ok (Circuit m [seq 0 bits; seq bits bits] [[2 * bits]] gs) /\ 2 * bits < m /\
  forall e, eval gs e (2 * bits) = eqs bits e 0 (2 ^ Nat.log2 bits).
Proof.
  intros Hb. unfold control_circuit.
  set (temp := if bits =? 1 then [2 * bits] else seq (2 * bits + 1) bits).
  set (next := if bits =? 1 then 2 * bits + 1 else 3 * bits + 1).
  assert (Lt : length temp = bits) by (unfold temp; destruct (Nat.eqb_spec bits 1); [cbn; lia|apply seq_length]).
  assert (NDt : NoDup temp) by (unfold temp; destruct (bits =? 1); [repeat constructor; easy|apply seq_NoDup]).
  assert (Tr : forall w, In w temp -> 2 * bits <= w < next).
  { intros w Hw. unfold temp, next in *. destruct (bits =? 1); [destruct Hw as [<-|[]]; lia|apply in_seq in Hw; lia]. }
  set (gf := fun i => Gate i (bits + i) GNxor (nth i temp 0)).
  rewrite (@mapM_ok _ _ _ gf) by (intros i Hi; apply in_seq in Hi; rewrite (@get_ok _ _ _ 0) by lia; reflexivity).
  cbn [bind].
  assert (EO : map gOut (map gf (seq 0 bits)) = temp).
  { rewrite map_map. apply nth_ext with 0 0; [rewrite map_length, seq_length; lia|].
    intros j Hj. rewrite map_length, seq_length in Hj. rewrite nth_map_seq' by exact Hj. reflexivity. }
  assert (HV : forall e j, j < bits -> eval (map gf (seq 0 bits)) e (nth j temp 0) = eqs bits e j 1).
  { intros e j Hj. change (nth j temp 0) with (gOut (gf j)). rewrite eval_par.
    - cbn. rewrite andb_true_r. destruct (e j), (e (bits + j)); reflexivity.
    - rewrite EO. exact NDt.
    - intros g h Hg Hh. assert (Ho : In (gOut h) temp) by (rewrite <- EO; apply in_map, Hh). apply Tr in Ho.
      apply in_map_iff in Hg. destruct Hg as (k & <- & Hk). apply in_seq in Hk. cbn [gf gIn0 gIn1]. lia.
    - apply in_map, in_seq. lia. }
  assert (Hn : 2 * bits < next) by (unfold next; destruct (bits =? 1); lia).
  assert (HA : forall e, exists gs m, and_levels (Nat.log2_up bits) 0 bits (2 * bits) next temp = Ok (gs, m) /\ next <= m /\
    eval gs (eval (map gf (seq 0 bits)) e) (2 * bits) = eqs bits e 0 (2 ^ Nat.log2 bits)).
  { intros e. apply and_levels_ok; try exact Hb.
    - rewrite Nat.pow_0_r, Nat.div_1_r. exact Lt.
    - exact NDt.
    - intros w Hw. apply Tr, Hw.
    - exact Hn.
    - rewrite Nat.pow_0_r, Nat.div_1_r. intros H. unfold temp. rewrite (proj2 (Nat.eqb_neq _ _)) by lia. rewrite in_seq. lia.
    - rewrite Nat.pow_0_r, Nat.div_1_r. intros H. unfold temp. rewrite H. reflexivity.
    - rewrite Nat.pow_0_r, Nat.div_1_r. lia.
    - rewrite Nat.pow_0_r, Nat.div_1_r. intros j Hj. rewrite HV by exact Hj. f_equal. lia.
    - lia. }
  destruct (HA (fun _ => false)) as (gs & m & E & Hm & _).
  rewrite E. cbn [bind fst snd]. exists (map gf (seq 0 bits) ++ gs), m. split; [reflexivity|]. split; [lia|].
  intros e. destruct (HA e) as (gs' & m' & E' & _ & HE). rewrite E in E'. injection E' as <- <-. rewrite eval_app. exact HE.
Qed.
