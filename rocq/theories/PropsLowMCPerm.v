(* C59: generating permutation correlations with LowMC (secure-join/Perm/LowMCPerm). *)
From Verif Require Import Base PermModel PermSpec PermCorModel PermCorSpec ShuffleModel GmwModel GmwSpec GmwProofs GmwIoModel
  LowMCModel LowMCSpec LowMCMat LowMCProofs LowMCCircuit LowMCPermModel LowMCPermSpec LowMCPermProofs.

(* The two generate functions run together: they return, the sender keeps its permutation, and
   mDelta ^ mB is mA permuted, where byte j of row i of mA is byte j mod w of the encryption of
   the point of block j / w of row i.  w is sizeof(lowBlock), the levels are any that compute the
   circuit, and the old contents of the matrices do not matter. *)
Theorem C59_generate p rng kbits lf kf w l lvs J pi n bytes so ro s0 s1 :
  lpBits p = 8 * w -> 0 < w -> 3 * lpBoxes p <= lpBits p -> lpRounds p + 1 < 256 ->
  lm_new p false 0 rng lf kf 0 = Ok l -> Forall (Forall (two_ones (lpBits p))) (lmLin l) -> leveled p l lvs ->
  let bpr := (bytes + w - 1) / w in
  let c := 16 * ((bytes + 15) / 16) in
  0 < n -> 0 < bytes -> is_perm n pi -> c <= bpr * w ->
  rect n c (ljDelta J) -> rect n c (ljA J) -> rect n c (ljB J) ->
  ole_segs s0 s1 -> even_segs s0 -> demand ((n * bpr + 127) / 128) lvs <= length (concat s0) ->
  exists s r, lowmc_gen p rng kbits lf kf lvs J pi n bytes so ro s0 s1 = Ok (s, r) /\
    csPerm s = pi /\ csOff s = so /\ crOff r = ro /\ (so = ro -> cor_rel n c s r) /\
    (forall i j t, i < n -> j < c ->
       N.testbit (cel c (dat (crA r)) i j) (N.of_nat t) = (t <? 8) && low_mask p l kbits (j / w) i (8 * (j mod w) + t)).
Proof.
  intros H1 H2 H3 H4 H5 H6 H7 bpr c Hn Hb Hp Hc HD HA HB HS He Hd.
  assert (E16 : (bytes + 15) / 16 = div_ceil bytes 16) by (unfold div_ceil; f_equal; lia).
  assert (E128 : (n * bpr + 127) / 128 = div_ceil (n * bpr) 128) by (unfold div_ceil; f_equal; lia).
  subst c. rewrite E16 in *. rewrite E128 in *.
  exact (@gen_ok p rng kbits lf kf w l lvs H1 H2 H3 H4 H5 H6 H7 J pi n bytes so ro s0 s1 Hn Hb Hp Hc HD HA HB HS He Hd).
Qed.

(* the masks fill the rows if sizeof(lowBlock) is a multiple of 16 *)
Theorem C59_width w bytes : 0 < w -> w mod 16 = 0 -> 16 * ((bytes + 15) / 16) <= (bytes + w - 1) / w * w.
Proof.
  intros Hw Hm. pose proof (Nat.div_mod w 16 ltac:(lia)) as Ew. rewrite Hm in Ew.
  pose proof (Nat.div_mod (bytes + w - 1) w ltac:(lia)) as A. pose proof (Nat.mod_upper_bound (bytes + w - 1) w ltac:(lia)) as B.
  assert (L : bytes <= (bytes + w - 1) / w * w) by lia.
  pose proof (Nat.div_mod (bytes + 15) 16 ltac:(lia)) as A'. pose proof (Nat.mod_upper_bound (bytes + 15) 16 ltac:(lia)) as B'.
  set (q := (bytes + w - 1) / w) in *. set (u := w / 16) in *. set (d := (bytes + 15) / 16) in *.
  assert (bytes <= 16 * (q * u)) by nia. assert (d <= q * u) by lia. nia.
Qed.

(* a permutation of the wrong size and an object that was not initialised are refused *)
Theorem C59_throws p rng kbits lf kf lvs J pi n bytes so ro s0 s1 : length pi <> n \/ n = 0 ->
  lowmc_gen p rng kbits lf kf lvs J pi n bytes so ro s0 s1 = Throw.
Proof.
  intros H. unfold lowmc_gen, throw_if. destruct (Nat.eqb_spec (length pi) n) as [E|E]; [|reflexivity]. cbn [negb bind].
  destruct (Nat.eqb_spec n 0) as [E0|E0]; [reflexivity|]. destruct H; contradiction.
Qed.

(* the points of two blocks coincide exactly if row and block number have the same sum modulo
   2^32 *)
Theorem C59_points p j i j' i' : 64 <= lpBits p ->
  (low_point p j i = low_point p j' i' <-> (N.of_nat (j + i) mod 2 ^ 32 = N.of_nat (j' + i') mod 2 ^ 32)%N).
Proof.
  intros H.
  assert (E : forall a b, low_point p a b = (N.of_nat (a + b) mod 2 ^ 32 * 2 ^ 32)%N).
  { intros a b. unfold low_point. rewrite N.land_ones. rewrite N.shiftl_mul_pow2. rewrite N.mul_mod_idemp_l by discriminate.
    replace (2 ^ 64)%N with (2 ^ 32 * 2 ^ 32)%N by reflexivity. rewrite N.mul_mod_distr_r by discriminate.
    apply N.mod_small. apply N.lt_le_trans with (2 ^ 64)%N; [|apply N.pow_le_mono_r; [discriminate|lia]].
    replace (2 ^ 64)%N with (2 ^ 32 * 2 ^ 32)%N by reflexivity. apply N.mul_lt_mono_pos_r; [reflexivity|]. apply N.mod_lt. discriminate. }
  rewrite !E. split; [|intros ->; reflexivity]. intros Q. apply N.mul_cancel_r in Q; [exact Q|discriminate].
Qed.
(* so rows of at most one block get different points; for wider rows the claim is false, see
   C59_mask_reuse_refuted *)
Theorem C59_points_distinct_partial p i i' : 64 <= lpBits p -> (N.of_nat i < 2 ^ 32)%N -> (N.of_nat i' < 2 ^ 32)%N ->
  low_point p 0 i = low_point p 0 i' -> i = i'.
Proof.
  intros H Hi Hi' E. apply C59_points in E; [|exact H]. cbn [Nat.add] in E. rewrite !N.mod_small in E by assumption. lia.
Qed.

(* Wider rows reuse masks: lowBlock(j + srcIdx << 32) adds before it shifts, so block 1 of a row
   and block 0 of the next row of mA are the same bytes, in every correlation the code makes. *)
Theorem C59_mask_reuse_refuted p rng kbits lf kf w l lvs J pi n bytes so ro s0 s1 :
  lpBits p = 8 * w -> 0 < w -> 3 * lpBoxes p <= lpBits p -> lpRounds p + 1 < 256 ->
  lm_new p false 0 rng lf kf 0 = Ok l -> Forall (Forall (two_ones (lpBits p))) (lmLin l) -> leveled p l lvs ->
  let bpr := (bytes + w - 1) / w in
  let c := 16 * ((bytes + 15) / 16) in
  0 < n -> 0 < bytes -> is_perm n pi -> c <= bpr * w ->
  rect n c (ljDelta J) -> rect n c (ljA J) -> rect n c (ljB J) ->
  ole_segs s0 s1 -> even_segs s0 -> demand ((n * bpr + 127) / 128) lvs <= length (concat s0) ->
  exists s r, lowmc_gen p rng kbits lf kf lvs J pi n bytes so ro s0 s1 = Ok (s, r) /\
    forall i j, i + 1 < n -> j < w -> w + j < c -> cel c (dat (crA r)) i (w + j) = cel c (dat (crA r)) (i + 1) j.
Proof.
  intros H1 H2 H3 H4 H5 H6 H7 bpr c Hn Hb Hp Hc HD HA HB HS He Hd.
  destruct (@C59_generate p rng kbits lf kf w l lvs J pi n bytes so ro s0 s1) as (s & r & E & _ & _ & _ & _ & V); try assumption.
  exists s, r. split; [exact E|]. intros i j Hi Hj Hw. fold c in V. apply N.bits_inj. intros k. replace k with (N.of_nat (N.to_nat k)) by lia.
  rewrite !V by lia. f_equal. replace ((w + j) / w) with 1 by (apply (Nat.div_unique (w + j) w 1 j); lia).
  replace ((w + j) mod w) with j by (apply (Nat.mod_unique (w + j) w 1 j); lia). rewrite Nat.div_small, Nat.mod_small by exact Hj.
  unfold low_mask, point_bits. replace (1 + i) with (0 + (i + 1)) by lia. reflexivity.
Qed.
Print Assumptions C59_generate.
Print Assumptions C59_width.
Print Assumptions C59_throws.
Print Assumptions C59_points.
Print Assumptions C59_points_distinct_partial.
Print Assumptions C59_mask_reuse_refuted.

(* ---------------- an example: blocks of 5 bytes, one box, one round, two rows of 16 bytes ---- *)
Definition ex59_p : lparams := LP 1 40 1 1.
Definition ex59_rng (i : nat) : bool := match i mod 41 with 0 | 1 | 3 => true | _ => false end.
Definition ex59_k (i : nat) : bool := true.
Definition ex59_f (r : nat) : option (list N) := None.
Definition ex59_low : lowmc := match lm_new ex59_p false 0 ex59_rng ex59_f ex59_f 0 with Ok l => l | _ => Low false [] [] [] [] [] end.
Definition ex59_lvs : list level := match enc_circuit ex59_p ex59_low with
  | Ok s => map (fun g => ([g], count_nonlinear [g])) (snd s) | _ => [] end.
Definition ex59_rows : list (list N) := repeat (repeat 7%N 16) 2.
Definition ex59_J : low_junk := LJ (fun _ _ _ => 5%N) (fun _ _ _ => 6%N) (fun _ _ => true) (fun _ _ _ => true) (fun _ _ => true) (fun _ _ => false) ex59_rows ex59_rows ex59_rows.
Definition ex59_s : list (list triple) := [repeat (0, 3)%N 6].

Fixpoint wdb (k : nat) (defined : list nat) (gs : list gate) : bool :=
  match gs with
  | [] => true
  | g :: gs => let ok i := (i <? k) || existsb (Nat.eqb i) defined in
    ok (gIn0 g) && ok (gIn1 g) && (k <=? gOut g) && wdb k (gOut g :: defined) gs
  end.
Lemma wdb_ok k : forall gs defined, wdb k defined gs = true -> forall d', (forall i, In i defined \/ i < k -> In i d') -> well_def (seq 0 k) d' gs.
Proof.
  induction gs as [|g gs IH]; intros defined H d' HD; [exact I|]. cbn [wdb well_def] in *.
  apply andb_true_iff in H. destruct H as [H H4]. apply andb_true_iff in H. destruct H as [H H3]. apply andb_true_iff in H. destruct H as [H1 H2].
  assert (Q : forall i, (i <? k) || existsb (Nat.eqb i) defined = true -> In i d').
  { intros i Hi. apply HD. apply orb_true_iff in Hi. destruct Hi as [Hi|Hi]; [right; apply Nat.ltb_lt; exact Hi|]. left.
    apply existsb_exists in Hi. destruct Hi as (x & Hx & E). apply Nat.eqb_eq in E. subst x. exact Hx. }
  split; [intros i [->|[_ ->]]; apply Q; assumption|]. split; [rewrite in_seq; apply Nat.leb_le in H3; lia|].
  apply (IH _ H4). intros i [[<-|Hi]|Hi]; [left; reflexivity|right; apply HD; auto|right; apply HD; auto].
Qed.
Example C59_ex_new : lm_new ex59_p false 0 ex59_rng ex59_f ex59_f 0 = Ok ex59_low.
Proof. unfold ex59_low. destruct (lm_new ex59_p false 0 ex59_rng ex59_f ex59_f 0) eqn:E; [reflexivity|vm_compute in E; discriminate..]. Qed.
Definition twob (n : nat) (r : N) : bool := 2 <=? length (filter (fun i => N.testbit r (N.of_nat i)) (seq 0 n)).
Lemma twob_ok n r : twob n r = true -> two_ones n r.
Proof.
  unfold twob. intros H. apply Nat.leb_le in H. set (f := fun i => N.testbit r (N.of_nat i)) in *.
  destruct (filter f (seq 0 n)) as [|i [|j t]] eqn:E; cbn [length] in H; try lia.
  assert (Q : forall x, In x (i :: j :: t) -> x < n /\ f x = true) by (intros x Hx; rewrite <- E in Hx; apply filter_In in Hx; destruct Hx as [Hx Hf]; apply in_seq in Hx; split; [lia|exact Hf]).
  assert (ND : NoDup (i :: j :: t)) by (rewrite <- E; apply NoDup_filter; apply seq_NoDup). inversion ND as [|? ? N1 _]. subst.
  destruct (Q i (or_introl eq_refl)) as [Li Bi]. destruct (Q j (or_intror (or_introl eq_refl))) as [Lj Bj].
  destruct (Nat.lt_trichotomy i j) as [L|[->|L]]; [exists i, j| |exists j, i]; try (repeat split; assumption || lia).
  exfalso. apply N1. left. reflexivity.
Qed.
Example C59_ex_two : Forall (Forall (two_ones (lpBits ex59_p))) (lmLin ex59_low).
Proof.
  assert (H : forallb (forallb (twob 40)) (lmLin ex59_low) = true) by (vm_compute; reflexivity).
  apply Forall_forall. intros m Hm. apply Forall_forall. intros r Hr. rewrite forallb_forall in H. specialize (H m Hm). rewrite forallb_forall in H. apply twob_ok. exact (H r Hr).
Qed.
Example C59_ex_levels : leveled ex59_p ex59_low ex59_lvs.
Proof.
  split; [apply level_okb_ok; vm_compute; reflexivity|]. split; [|split].
  - rewrite low_ins_all. apply wdb_ok with (defined := []); [vm_compute; reflexivity|]. intros i [[]|Hi]. apply in_seq. lia.
  - assert (H : forallb (fun v => existsb (fun g => gOut g =? v) (concat (map fst ex59_lvs))) (concat (low_outs ex59_p)) = true) by (vm_compute; reflexivity).
    intros v Hv. rewrite forallb_forall in H. specialize (H v Hv). apply existsb_exists in H. destruct H as (g & Hg & E). exists g. split; [exact Hg|]. apply Nat.eqb_eq. exact E.
  - intros s Es e v _. unfold ex59_lvs. rewrite Es. rewrite map_map. cbn [fst].
    assert (E : concat (map (fun g : gate => [g]) (snd s)) = snd s) by (induction (snd s) as [|g gs IH]; [reflexivity|cbn [map concat app]; rewrite IH; reflexivity]).
    rewrite E. reflexivity.
Qed.
Example C59_ex : exists s r, lowmc_gen ex59_p ex59_rng ex59_k ex59_f ex59_f ex59_lvs ex59_J [1; 0] 2 16 3 3 ex59_s ex59_s = Ok (s, r) /\ cor_rel 2 16 s r.
Proof.
  destruct (@C59_generate ex59_p ex59_rng ex59_k ex59_f ex59_f 5 ex59_low ex59_lvs ex59_J [1; 0] 2 16 3 3 ex59_s ex59_s) as (s & r & E & _ & _ & _ & C & _).
  - reflexivity.
  - lia.
  - cbn. lia.
  - cbn. lia.
  - exact C59_ex_new.
  - exact C59_ex_two.
  - exact C59_ex_levels.
  - lia.
  - lia.
  - apply Permutation.perm_swap.
  - vm_compute. lia.
  - split; [reflexivity|repeat constructor].
  - split; [reflexivity|repeat constructor].
  - split; [reflexivity|repeat constructor].
  - repeat constructor.
  - repeat constructor.
  - vm_compute. lia.
  - exists s, r. split; [exact E|]. apply C. reflexivity.
Qed.
(* for the block size of the code *)
Example C59_ex_points : low_point (LP 63 256 128 14) 1 4 = low_point (LP 63 256 128 14) 0 5 /\ low_point (LP 63 256 128 14) 0 5 = (5 * 2 ^ 32)%N /\
  16 * ((48 + 15) / 16) <= (48 + 32 - 1) / 32 * 32.
Proof. split; [reflexivity|]. split; [reflexivity|]. apply C59_width; [lia|reflexivity]. Qed.
Example C59_ex_throws : lowmc_gen ex59_p ex59_rng ex59_k ex59_f ex59_f ex59_lvs ex59_J [1; 0; 2] 2 16 3 3 ex59_s ex59_s = Throw.
Proof. apply C59_throws. left. discriminate. Qed.
