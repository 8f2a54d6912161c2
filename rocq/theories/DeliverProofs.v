(* Proofs about the delivery of correlations. *)
From Verif Require Import Base Words SimdModel SimdProofs Mod3Model GF4Model CompressModel CompressSpec CompressProofs ConvModel ConvSpec CorGenModel CorGenSpec CorGenProofs SessionModel SessionSpec SessionProofs F3CodeModel KeyMultModel KeyMultSpec PrfModel PrfSpec DeliverModel DeliverSpec.
From Coq Require Import Permutation.

Lemma type_fits t r o : fits t r o = true -> type_of o = t.
Proof. destruct t, r, o; cbn; congruence. Qed.

Lemma fits_type t r o : fits t r o = true -> ct_eqb t (type_of o) = true.
Proof. intros H. apply ct_eqb_eq. symmetry. exact (type_fits H). Qed.

(* the choice bits of an OT receiver may be gone *)
Definition spent (o o' : bout) : Prop :=
  match o, o' with OutOtR m _, OutOtR m' c' => m' = m /\ c' = [] | _, _ => False end.

Lemma aligned_ok dbg b s : (b mod 128 = 0)%N -> (s mod 128 = 0)%N -> aligned dbg b s = Ok tt.
Proof. intros H1 H2. unfold aligned. rewrite H1, H2. cbn. rewrite andb_false_r. reflexivity. Qed.

Lemma div_range b s n k : (b mod 128 = 0)%N -> (s mod 128 = 0)%N -> (b + s <= n)%N -> N.to_nat (n / 128) <= k ->
  N.to_nat (b / 128) + N.to_nat (s / 128) <= k.
Proof.
  intros Hb Hs Hn Hk. destruct (mod_mult128 Hb) as [b' ->]. destruct (mod_mult128 Hs) as [s' ->].
  rewrite !(N.mul_comm 128), !N.div_mul by lia.
  assert (b' + s' <= n / 128)%N by (apply N.div_le_lower_bound; lia). lia.
Qed.

Lemma slice_full A (l : list A) n : length l = n -> slice l 0 n = l.
Proof. intros <-. unfold slice. cbn [skipn]. apply firstn_all. Qed.

(* getCor on an untouched batch *)
Lemma get_cor_part dbg t r b s n o : fits t r o = true -> holds n o ->
  (b mod 128 = 0)%N -> (s mod 128 = 0)%N -> (b + s <= n)%N ->
  exists o', get_cor dbg t r b s o = Ok (part o b s, o') /\ (o' = o \/ (spent o o' /\ b = 0%N /\ s = n)).
Proof.
  intros Hf Hh Hb Hs Hn. unfold get_cor. rewrite (fits_type Hf), Hf. cbn [negb throw_if bind].
  destruct o; cbn [holds] in Hh; unfold part; rewrite ?(aligned_ok dbg Hb Hs); cbn [bind];
    rewrite ?readN_ok by (try (apply (div_range Hb Hs Hn); tauto); lia); cbn [bind]; eauto.
  destruct Hh as [H1 H2].
  destruct (Nat.eqb_spec (N.to_nat s) (length choice)) as [E|E].
  - assert (b = 0%N) by lia. assert (s = n) by lia. subst b s. eexists. split.
    + cbn [N.to_nat]. rewrite (@slice_full _ choice) by lia. reflexivity.
    + right. cbn. auto.
  - unfold throw_if. replace (length choice <? N.to_nat b + N.to_nat s) with false by (symmetry; apply Nat.ltb_ge; lia).
    cbn [bind]. eauto.
Qed.

(* ---------------- calls of get ---------------- *)

Definition seg_at (segss : list (list segment)) (i j : nat) : option segment := nth_error (nth i segss []) j.

(* position of a segment in the concatenation *)
Lemma seg_at_concat segss : forall i j s, seg_at segss i j = Some s ->
  nth_error (concat segss) (length (concat (firstn i segss)) + j) = Some s.
Proof.
  unfold seg_at. induction segss as [|l segss IH]; intros [|i] j s H; cbn in H.
  - destruct j; discriminate.
  - destruct j; discriminate.
  - cbn. rewrite nth_error_app1; [exact H|]. apply nth_error_Some. congruence.
  - cbn [firstn concat]. rewrite app_length. rewrite nth_error_app2 by lia.
    replace (length l + length (concat (firstn i segss)) + j - length l) with (length (concat (firstn i segss)) + j) by lia.
    apply IH. exact H.
Qed.

Lemma seg_at_pos segss : forall i j i' j' s s', seg_at segss i j = Some s -> seg_at segss i' j' = Some s' ->
  length (concat (firstn i segss)) + j = length (concat (firstn i' segss)) + j' -> i = i' /\ j = j'.
Proof.
  unfold seg_at. induction segss as [|l segss IH]; intros i j i' j' s s' H H' E.
  - destruct i, j; discriminate.
  - assert (L : j < length (nth i (l :: segss) [])) by (apply nth_error_Some; congruence).
    assert (L' : j' < length (nth i' (l :: segss) [])) by (apply nth_error_Some; congruence).
    destruct i as [|i], i' as [|i']; cbn [firstn concat nth] in *; rewrite ?app_length in E; cbn [length] in E.
    + lia.
    + lia.
    + lia.
    + destruct (IH i j i' j' s s' H H') as [-> ->]; [lia|]. auto.
Qed.

Lemma served_pos bs qs segss : Forall2 (served bs) qs segss -> Forall (fun s => (0 < sSize s)%N) (concat segss).
Proof.
  intros V. induction V as [|[[t r] n] segs qs' segss' H _ IH]; cbn; [constructor|].
  apply Forall_app. split; [|assumption]. destruct H as [_ H]. eapply Forall_impl; [|exact H]. intros s [? _]. assumption.
Qed.

Lemma served_at bs qs segss : Forall2 (served bs) qs segss -> forall i j s, nth_error (nth i segss []) j = Some s ->
  exists q, nth_error qs i = Some q /\ served bs q (nth i segss []).
Proof.
  intros V. induction V as [|q segs qs' segss' Hq _ IH]; intros i j s H.
  - destruct i, j; discriminate.
  - destruct i as [|i]; [exists q; split; [reflexivity|exact Hq]|]. cbn [nth nth_error] in *. exact (IH i j s H).
Qed.

Lemma make_reqs_nth bs qs segss : Forall2 (served bs) qs segss -> forall i q, nth_error qs i = Some q ->
  nth_error (make_reqs qs segss) i = Some (ReqSt (fst (fst q)) (snd (fst q)) (nth i segss []) 0).
Proof.
  intros V. unfold make_reqs. induction V as [|q segs qs' segss' _ _ IH]; intros i q1 H.
  - destruct i; discriminate.
  - destruct i as [|i]; cbn in *; [injection H as ->; reflexivity|]. exact (IH i q1 H).
Qed.

Section Gets.
Variables (dbg : bool) (qs : list (cortype * bool * N)) (segss : list (list segment)) (bs : list batch) (outs : list bout).
Hypothesis Hserved : Forall2 (served bs) qs segss.
Hypothesis Htiles : tiles (concat segss) bs.
Hypothesis Houts : forall i b, nth_error bs i = Some b -> exists o, nth_error outs i = Some o /\ fits (bType b) (bSender b) o = true /\ holds (bSize b) o.

Lemma pos_all : Forall (fun s => (0 < sSize s)%N) (concat segss).
Proof. exact (served_pos Hserved). Qed.

Lemma seg_disjoint i j i' j' s s' : seg_at segss i j = Some s -> seg_at segss i' j' = Some s' -> (i, j) <> (i', j') ->
  sBatch s = sBatch s' -> (sBegin s + sSize s <= sBegin s' \/ sBegin s' + sSize s' <= sBegin s)%N.
Proof.
  intros H H' Hn Hb.
  apply (@tiles_disjoint _ _ Htiles pos_all _ _ s s' (seg_at_concat H) (seg_at_concat H')); [|exact Hb].
  intros E. destruct (seg_at_pos H H' E) as [-> ->]. congruence.
Qed.

(* what a segment looks like *)
Lemma seg_facts i j s : seg_at segss i j = Some s -> exists q b o, nth_error qs i = Some q /\
  nth_error bs (sBatch s) = Some b /\ bType b = fst (fst q) /\ bSender b = snd (fst q) /\
  nth_error outs (sBatch s) = Some o /\ fits (bType b) (bSender b) o = true /\ holds (bSize b) o /\
  (0 < sSize s)%N /\ (sSize s mod 128 = 0)%N /\ (sBegin s mod 128 = 0)%N /\ (sBegin s + sSize s <= bSize b)%N.
Proof.
  intros H. pose proof (seg_at_concat H) as Hin. apply nth_error_In in Hin.
  assert (HI : (sBegin s + sSize s <= batch_size bs (sBatch s))%N).
  { apply (tiles_inside Htiles Hin). exact (proj1 (Forall_forall _ _) pos_all s Hin). }
  unfold seg_at in H.
  pose proof (@served_at _ _ _ Hserved i j s H) as Hi.
  destruct Hi as [[[t r] n] [Hq [_ HF]]].
  pose proof (proj1 (Forall_forall _ _) HF s (nth_error_In _ _ H)) as [H1 [H2 [H3 [b [Hb [Ht Hr]]]]]].
  destruct (Houts Hb) as [o [Ho [Hf Hh]]]. unfold batch_size in HI. rewrite Hb in HI.
  exists (t, r, n), b, o. cbn [fst snd]. repeat (split; [assumption|]). assumption.
Qed.

(* the state after some calls: request i has fetched c i segments *)
Record gstate (c : nat -> nat) (os : list bout) (rs : list reqst) : Prop := GS {
  gs_len : length os = length outs;
  gs_reqs : forall i q, nth_error qs i = Some q ->
    nth_error rs i = Some (ReqSt (fst (fst q)) (snd (fst q)) (nth i segss []) (c i));
  gs_outs : forall b o, nth_error outs b = Some o -> exists o', nth_error os b = Some o' /\
    (o' = o \/ (spent o o' /\ exists i j s x, j < c i /\ seg_at segss i j = Some s /\ sBatch s = b /\ sBegin s = 0%N /\
      nth_error bs b = Some x /\ sSize s = bSize x)) }.

Definition bump (c : nat -> nat) (i : nat) : nat -> nat := fun k => if Nat.eqb k i then S (c i) else c k.

Lemma get_one_ok c os rs i j s : gstate c os rs -> c i = j -> seg_at segss i j = Some s ->
  exists q o os' q', nth_error rs i = Some q /\ nth_error outs (sBatch s) = Some o /\
    get_one dbg os q = Ok (part o (sBegin s) (sSize s), os', q') /\ gstate (bump c i) os' (upd rs i q').
Proof.
  intros G Hc Hs. destruct (seg_facts Hs) as (q & b & o & Hq & Hb & Ht & Hr & Ho & Hf & Hh & H0 & H1 & H2 & H3).
  pose proof (gs_reqs G Hq) as Hrs. destruct (gs_outs G Ho) as (o1 & Ho1 & Hcase).
  assert (o1 = o).
  { destruct Hcase as [|[Hsp (i1 & j1 & s1 & x & Hj & Hs1 & Hbs & Hbeg & Hx & Hsz)]]; [assumption|]. exfalso.
    assert (Hne : (i1, j1) <> (i, j)) by (intros E; injection E as -> ->; lia).
    pose proof (@seg_disjoint _ _ _ _ _ _ Hs1 Hs Hne Hbs) as HD. rewrite Hx in Hb. injection Hb as ->. lia. }
  subst o1. clear Hcase.
  destruct (@get_cor_part dbg _ _ (sBegin s) (sSize s) _ _ Hf Hh H2 H1 H3) as (o' & Hg & Hcase).
  exists (ReqSt (fst (fst q)) (snd (fst q)) (nth i segss []) (c i)), o, (upd os (sBatch s) o'),
    (ReqSt (fst (fst q)) (snd (fst q)) (nth i segss []) (S (c i))).
  split; [exact Hrs|]. split; [exact Ho|]. split.
  - unfold get_one, req_get. cbn [rqSegs rqIdx rqType rqRole]. unfold throw_if. subst j.
    assert (c i < length (nth i segss [])) by (apply nth_error_Some; unfold seg_at in Hs; congruence).
    replace (length (nth i segss []) <=? c i) with false by (symmetry; apply Nat.leb_gt; lia). cbn [bind].
    unfold get. unfold seg_at in Hs. rewrite Hs. cbn [bind fst snd]. rewrite Ho1. cbn [bind].
    rewrite <- Ht, <- Hr, Hg. reflexivity.
  - constructor.
    + rewrite upd_length. apply G.
    + intros i1 q1 Hq1. unfold bump. destruct (Nat.eqb_spec i1 i) as [->|Hn].
      * rewrite Hq1 in Hq. injection Hq as ->. rewrite nth_error_upd_eq; [reflexivity|].
        apply nth_error_Some. congruence.
      * rewrite nth_error_upd_ne by congruence. apply G. exact Hq1.
    + intros b1 o1 Hb1. destruct (Nat.eq_dec b1 (sBatch s)) as [->|Hn].
      * rewrite Hb1 in Ho. injection Ho as ->. exists o'. split.
        -- apply nth_error_upd_eq. rewrite (gs_len G). apply nth_error_Some. congruence.
        -- destruct Hcase as [->|[Hsp [Hz He]]]; [left; reflexivity|]. right. split; [exact Hsp|].
           exists i, j, s, b. unfold bump. rewrite Nat.eqb_refl. repeat split; try assumption. lia.
      * rewrite nth_error_upd_ne by congruence. destruct (gs_outs G Hb1) as (o2 & Ho2 & Hc2). exists o2.
        split; [exact Ho2|]. destruct Hc2 as [->|[Hsp (i1 & j1 & s1 & x & Hj & R)]]; [left; reflexivity|].
        right. split; [exact Hsp|]. exists i1, j1, s1, x. split; [|exact R]. unfold bump.
        destruct (Nat.eqb_spec i1 i) as [->|]; lia.
Qed.

(* the segment of the k-th call when c segments were fetched before *)
Definition turn_from (c : nat -> nat) (ord : list nat) (k : nat) : option segment :=
  match nth_error ord k with
  | Some i => nth_error (nth i segss []) (c i + count_occ Nat.eq_dec (firstn k ord) i)
  | None => None
  end.

Lemma get_all_ok : forall ord c os rs, gstate c os rs ->
  (forall i, c i + count_occ Nat.eq_dec ord i <= length (nth i segss [])) ->
  exists res os' rs', get_all dbg ord os rs = Ok (res, os', rs') /\ length res = length ord /\
    forall k, k < length ord -> exists s o, turn_from c ord k = Some s /\ nth_error outs (sBatch s) = Some o /\
      nth_error res k = Some (part o (sBegin s) (sSize s)).
Proof.
  induction ord as [|i ord IH]; intros c os rs G Hw.
  - exists [], os, rs. split; [reflexivity|]. split; [reflexivity|]. intros k Hk. cbn in Hk. lia.
  - assert (Hj : c i < length (nth i segss [])).
    { pose proof (Hw i) as H. cbn [count_occ] in H. destruct (Nat.eq_dec i i); [|contradiction]. lia. }
    destruct (nth_error (nth i segss []) (c i)) as [s|] eqn:Es; [|apply nth_error_None in Es; lia].
    destruct (@get_one_ok c os rs i (c i) s G eq_refl Es) as (q & o & os1 & q1 & Hq & Ho & Hg & G1).
    destruct (IH _ _ _ G1) as (res & os2 & rs2 & Ha & Hl & Hk).
    { intros i1. pose proof (Hw i1) as H. cbn [count_occ] in H. unfold bump.
      destruct (Nat.eq_dec i i1) as [E|E]; destruct (Nat.eqb_spec i1 i); subst; try lia; try congruence.
      }
    exists (part o (sBegin s) (sSize s) :: res), os2, rs2. split; [|split].
    + cbn [get_all]. unfold get at 1. rewrite Hq. cbn [bind]. rewrite Hg. cbn [bind fst snd]. rewrite Ha. reflexivity.
    + cbn. congruence.
    + intros [|k] Hk1.
      * exists s, o. unfold turn_from. cbn. rewrite Nat.add_0_r. auto.
      * cbn [length] in Hk1. destruct (Hk k ltac:(lia)) as (s1 & o1 & Ht & Ho1 & Hr1). exists s1, o1.
        split; [|split; [exact Ho1|exact Hr1]]. unfold turn_from in *. cbn [nth_error firstn]. 
        destruct (nth_error ord k) as [i1|]; [|discriminate]. rewrite <- Ht. f_equal. cbn [count_occ]. unfold bump.
        destruct (Nat.eq_dec i i1) as [E|E]; destruct (Nat.eqb_spec i1 i); subst; try lia; congruence.
Qed.

Lemma gets_ok ord : within ord segss -> length outs = length bs ->
  exists res os' rs', get_all dbg ord outs (make_reqs qs segss) = Ok (res, os', rs') /\ length res = length ord /\
    forall k, k < length ord -> exists s o, turn segss ord k = Some s /\ nth_error outs (sBatch s) = Some o /\
      nth_error res k = Some (part o (sBegin s) (sSize s)).
Proof.
  intros Hw Hl. apply (@get_all_ok ord (fun _ => 0)).
  - constructor; [reflexivity|exact (make_reqs_nth Hserved)|]. intros b o Ho. exists o. split; [exact Ho|left; reflexivity].
  - exact Hw.
Qed.

End Gets.

(* ---------------- parts of matching outputs ---------------- *)

Lemma holds_part n o b s : holds n o -> (b mod 128 = 0)%N -> (s mod 128 = 0)%N -> (b + s <= n)%N -> holds s (part o b s).
Proof.
  intros Hh Hb Hs Hn.
  destruct o; cbn [holds part] in *; repeat split;
    rewrite ?slice_len by (try (apply (div_range Hb Hs Hn); tauto); lia); lia.
Qed.

Lemma part_nth b s n i (l : list N) : (b mod 128 = 0)%N -> (s mod 128 = 0)%N -> (b + s <= n)%N -> i < N.to_nat (s / 128) ->
  v0 (slice l (N.to_nat (b / 128)) (N.to_nat (s / 128))) i = v0 l (N.to_nat (b / 128) + i) /\
  N.to_nat (b / 128) + i < N.to_nat (n / 128).
Proof.
  intros Hb Hs Hn Hi. split; [apply slice_nth; exact Hi|].
  pose proof (@div_range b s n (N.to_nat (n / 128)) Hb Hs Hn ltac:(lia)). lia.
Qed.

Lemma ots_part (m : list (N * N)) m' c b s : ots_match m m' c -> b + s <= length c ->
  ots_match (slice m b s) (slice m' b s) (slice c b s).
Proof.
  intros [H1 [H2 H3]] Hl. split; [|split].
  - rewrite !slice_len by lia. reflexivity.
  - rewrite !slice_len by lia. reflexivity.
  - rewrite slice_len by lia. intros i d Hi. rewrite !slice_nth by lia. apply H3. lia.
Qed.

Lemma pair_part n x y b s : pair_ok n x y -> (b mod 128 = 0)%N -> (s mod 128 = 0)%N -> (b + s <= n)%N ->
  pair_ok s (part x b s) (part y b s).
Proof.
  intros [Hx [Hy H]] Hb Hs Hn. split; [exact (@holds_part n _ b s Hx Hb Hs Hn)|]. split; [exact (@holds_part n _ b s Hy Hb Hs Hn)|].
  destruct x, y; cbn [part]; try contradiction;
    try (apply ots_part; [exact H|]; cbn [holds] in Hx, Hy; lia);
    unfold f4_pair, tr_pair in *; intros i Hi;
    repeat match goal with |- context [v0 (slice ?l (N.to_nat (b / 128)) (N.to_nat (s / 128))) i] =>
      rewrite (proj1 (@part_nth b s n i l Hb Hs Hn Hi)) end;
    apply H; exact (proj2 (@part_nth b s n i [] Hb Hs Hn Hi)).
Qed.

(* ---------------- blocks from words ---------------- *)

Lemma of_words_any w l p : (0 < w)%N -> Forall (fun x => (x < 2 ^ w)%N) l ->
  N.testbit (of_words w l) p = N.testbit (nth (N.to_nat (p / w)) l 0%N) (p mod w).
Proof.
  intros Hw HF. rewrite (N.div_mod p w) at 1 by lia.
  pose proof (@of_words_bit w Hw l (N.to_nat (p / w)) (p mod w) HF ltac:(apply N.mod_lt; lia)) as H.
  rewrite N2Nat.id in H. exact H.
Qed.

Lemma land_ones_lt w x : (N.land x (N.ones w) < 2 ^ w)%N.
Proof. rewrite N.land_ones. apply N.mod_lt. apply N.pow_nonzero. lia. Qed.

Lemma as_blocks_len w k l : length (as_blocks w k l) = k.
Proof. unfold as_blocks. rewrite map_length, seq_length. reflexivity. Qed.

Lemma as_blocks_bit w c k l i b : 0 < w -> 128 = w * c -> i < k ->
  N.testbit (v0 (as_blocks w k l) i) b = if (b <? 128)%N then buf_bit w l (128 * i + N.to_nat b) else false.
Proof.
  intros Hw Hc Hi. unfold v0, as_blocks.
  rewrite (nth_indep _ 0%N (of_words (N.of_nat w) (map (fun x => N.land x (N.ones (N.of_nat w))) (slice l (0 * (128 / w)) (128 / w)))))
    by (rewrite map_length, seq_length; exact Hi).
  rewrite (map_nth (fun i => of_words (N.of_nat w) (map (fun x => N.land x (N.ones (N.of_nat w))) (slice l (i * (128 / w)) (128 / w)))) (seq 0 k) 0 i).
  rewrite seq_nth by exact Hi. cbn [Nat.add].
  assert (Ed : 128 / w = c) by (rewrite Hc, Nat.mul_comm; apply Nat.div_mul; lia). rewrite Ed.
  rewrite of_words_any; [|lia|].
  2:{ apply Forall_forall. intros x Hx. apply in_map_iff in Hx. destruct Hx as [y [<- _]]. apply land_ones_lt. }
  assert (Hm : (b mod N.of_nat w < N.of_nat w)%N) by (apply N.mod_lt; lia).
  change 0%N with (N.land 0 (N.ones (N.of_nat w))) at 1. rewrite (map_nth (fun x => N.land x (N.ones (N.of_nat w)))).
  rewrite N.land_spec, N.ones_spec_low by exact Hm. rewrite andb_true_r.
  assert (Eq : N.to_nat (b / N.of_nat w) = N.to_nat b / w).
  { rewrite <- (Nat2N.id (N.to_nat b / w)). f_equal. rewrite Nat2N.inj_div, N2Nat.id. reflexivity. }
  destruct (N.ltb_spec b 128) as [Hb|Hb].
  - assert (Hq : N.to_nat b / w < c) by (apply Nat.div_lt_upper_bound; lia).
    rewrite Eq, slice_nth by exact Hq. unfold buf_bit.
    replace (128 * i + N.to_nat b) with (N.to_nat b + (i * c) * w) by nia.
    rewrite Nat.div_add, Nat.mod_add by lia. rewrite (Nat.add_comm (i * c)). f_equal.
    rewrite Nat2N.inj_mod, N2Nat.id. reflexivity.
  - assert (Hq : c <= N.to_nat b / w) by (apply Nat.div_le_lower_bound; lia).
    rewrite Eq, nth_overflow; [apply N.bits_0|]. unfold slice. rewrite firstn_length. lia.
Qed.

(* ---------------- the tasks ---------------- *)

Lemma div128_nat n : N.to_nat n / 128 = N.to_nat (n / 128).
Proof. rewrite <- (Nat2N.id (N.to_nat n / 128)). f_equal. rewrite Nat2N.inj_div, N2Nat.id. reflexivity. Qed.

Lemma mult128_nat n : (n mod 128 = 0)%N -> N.to_nat n = N.to_nat (n / 128) * 128 /\ ((n + 127) / 128 = n / 128)%N.
Proof.
  intros H. destruct (mod_mult128 H) as [k ->]. rewrite (N.mul_comm 128 k), N.div_mul by lia.
  split; [lia|]. replace (k * 128 + 127)%N with (127 + k * 128)%N by lia. rewrite N.div_add by lia. reflexivity.
Qed.

Lemma ole_tasks H delta A B n : (n mod 128 = 0)%N -> length A = N.to_nat n -> cot delta A B ->
  exists o o', ole_task_s H delta B n = Ok o /\ ole_task_r H A n = Ok o' /\
    fits COle true o = true /\ fits COle false o' = true /\ pair_ok n o o'.
Proof.
  intros Hn HA HC. destruct (mult128_nat Hn) as [Hk Hc]. set (k := N.to_nat (n / 128)) in *.
  destruct (@ole_compress_ok H delta A B k ltac:(lia) HC) as (aR & mR & aS & mS & E1 & E2 & L1 & L2 & L3 & L4 & Hp).
  unfold ole_task_s, ole_task_r. rewrite Hc. fold k. rewrite E1, E2. cbn [bind fst snd].
  do 2 eexists. split; [reflexivity|]. split; [reflexivity|]. split; [reflexivity|]. split; [reflexivity|].
  split; [|split].
  - cbn [holds]. fold k. rewrite !as_blocks_len. lia.
  - cbn [holds]. fold k. rewrite !as_blocks_len. lia.
  - cbv zeta. fold k. intros i Hi b. cbn [fst snd].
    rewrite !(@as_blocks_bit 16 8), !(@as_blocks_bit 8 16) by (try exact Hi; lia).
    destruct (N.ltb_spec b 128); [|reflexivity]. apply Hp. lia.
Qed.

Lemma f4_tasks H delta A B n : (n mod 128 = 0)%N -> length A = N.to_nat n -> f4_vole delta A B ->
  exists o o', f4_task_s H delta B = Ok o /\ f4_task_r H A = Ok o' /\
    fits CF4 true o = true /\ fits CF4 false o' = true /\ pair_ok n o o'.
Proof.
  intros Hn HA HC. destruct (mult128_nat Hn) as [Hk _]. set (k := N.to_nat (n / 128)) in *.
  destruct (@f4_compress_ok H delta A B (8 * k) ltac:(lia) HC) as (ots & ls & ms & o0 & o1 & o2 & o3 & E1 & E2 & _ & _ & _ & _ & _ & _ & _ & Hp).
  assert (HB : length B = length A) by (symmetry; apply HC).
  unfold f4_task_s, f4_task_r. rewrite E1, E2. cbn [bind]. rewrite HB, HA.
  do 2 eexists. split; [reflexivity|]. split; [reflexivity|]. split; [reflexivity|]. split; [reflexivity|].
  split; [|split].
  - cbn [holds]. fold k. rewrite !as_blocks_len. lia.
  - cbn [holds]. fold k. rewrite !as_blocks_len. lia.
  - cbv zeta. fold k. intros i Hi b. cbn [frO frM frL fs0 fs1 fs2 fs3].
    rewrite !(@as_blocks_bit 16 8), !(@as_blocks_bit 8 16) by lia.
    destruct (N.ltb_spec b 128); [|reflexivity].
    destruct (Hp (128 * i + N.to_nat b) ltac:(lia)) as (_ & _ & Hb). rewrite Hb.
    destruct (buf_bit 8 ms _), (buf_bit 8 ls _); reflexivity.
Qed.

Lemma trit_tasks H delta A B n o : (n mod 128 = 0)%N -> length A = N.to_nat n -> cot delta A B ->
  trit_task_s H delta B = Ok o ->
  exists o', trit_task_r H A = Ok o' /\ fits CTrit true o = true /\ fits CTrit false o' = true /\ pair_ok n o o'.
Proof.
  intros Hn HA HC E. destruct (mult128_nat Hn) as [Hk _]. set (k := N.to_nat (n / 128)) in *.
  unfold trit_task_s in E. apply bind_ok in E. destruct E as [[[m0 l0] [m1 l1]] [E2 Eo]].
  destruct (@trit_compress_ok H delta A B k m0 l0 m1 l1 ltac:(lia) HC E2) as (ch & ms & ls & E1 & _ & _ & _ & _ & _ & _ & _ & Hp).
  assert (HB : length B = length A) by (symmetry; apply HC).
  assert (Hd : length B / 128 = k) by (rewrite HB, HA; apply div128_nat). rewrite Hd in Eo. injection Eo as <-.
  unfold trit_task_r. rewrite E1. cbn [bind]. rewrite <- HB, Hd.
  eexists. split; [reflexivity|]. split; [reflexivity|]. split; [reflexivity|].
  split; [|split].
  - cbn [holds]. fold k. rewrite !as_blocks_len. lia.
  - cbn [holds]. fold k. rewrite !as_blocks_len. lia.
  - cbv zeta. fold k. intros i Hi b. unfold tvalid. cbn [tsL0 tsM0 tsL1 tsM1 trC trL trM].
    rewrite !(@as_blocks_bit 8 16) by lia.
    destruct (N.ltb_spec b 128); [|auto].
    destruct (Hp (128 * i + N.to_nat b) ltac:(lia)) as (Hc & Hm & Hl & V0 & V1). cbv zeta in Hc, Hm, Hl. rewrite Hc.
    auto.
Qed.

(* ---------------- mock mode ---------------- *)

Lemma nth_map_seq A (f : nat -> A) n i d : i < n -> nth i (map f (seq 0 n)) d = f i.
Proof.
  intros H. rewrite (nth_indep _ d (f 0)) by (rewrite map_length, seq_length; exact H).
  rewrite map_nth, seq_nth by exact H. reflexivity.
Qed.

Lemma ot_mock_ok aes n : (N.of_nat n < 2 ^ 32)%N ->
  exists m m' c, ot_mock_sender aes n = Ok (OutOtS m) /\ ot_mock_recver aes n = Ok (OutOtR m' c) /\
    length c = n /\ ots_match m m' c.
Proof.
  intros H. unfold ot_mock_sender, ot_mock_recver.
  replace (2 ^ 32 <=? N.of_nat n)%N with false by (symmetry; apply N.leb_gt; exact H).
  do 3 eexists. split; [reflexivity|]. split; [reflexivity|]. rewrite !map_length, !seq_length.
  split; [reflexivity|]. split; [|split]; rewrite !map_length, !seq_length; try reflexivity.
  intros i d Hi. rewrite !nth_map_seq by exact Hi. destruct (N.testbit _ _); reflexivity.
Qed.

Lemma low_bits x k : (x < 2 ^ 128)%N -> (128 <= k)%N -> N.testbit x k = false.
Proof.
  intros Hx Hk. destruct (N.eq_dec x 0) as [->|]; [apply N.bits_0|].
  apply N.bits_above_log2. apply N.log2_lt_pow2 in Hx; lia.
Qed.

Lemma mock_ok dbg aes b : (aes < 2 ^ 128)%N -> (bSize b mod 128 = 0)%N -> (bSize b < 2 ^ 32)%N ->
  exists o o', mock_task dbg aes b = Ok o /\ mock_task dbg aes (mirror_b b) = Ok o' /\
    fits (bType b) (bSender b) o = true /\ fits (bType b) (negb (bSender b)) o' = true /\ pair_ok (bSize b) o o'.
Proof.
  intros Ha Hm Hl. destruct b as [t r n]. unfold mirror_b. cbn [bType bSender bSize] in *.
  destruct (mult128_nat Hm) as [Hk Hc].
  enough (W : exists o o', mock_task dbg aes (Batch t true n) = Ok o /\ mock_task dbg aes (Batch t false n) = Ok o' /\
    fits t true o = true /\ fits t false o' = true /\ pair_ok n o o' /\ pair_ok n o' o).
  { destruct W as (o & o' & E & E' & F & F' & P & P'). destruct r; cbn [negb]; [exists o, o'|exists o', o]; auto. }
  unfold mock_task. cbn [bType bSender bSize]. rewrite Hc.
  assert (HS : mock_size dbg n = Ok tt).
  { unfold mock_size. rewrite Hm. cbn. rewrite andb_false_r. reflexivity. }
  set (k := N.to_nat (n / 128)) in *.
  destruct t.
  - destruct (@ot_mock_ok aes (N.to_nat n) ltac:(lia)) as (m & m' & c & E & E' & Lc & Hp).
    exists (OutOtS m), (OutOtR m' c). destruct Hp as [L1 [L2 Hp]].
    repeat (split; [assumption || reflexivity|]). 
    split; (split; [cbn [holds]; lia|split; [cbn [holds]; lia|]]); (split; [|split]); assumption || lia.
  - destruct (@ole_mock_ok aes k Ha) as (aS & mS & aR & mR & E & E' & L1 & L2 & L3 & L4 & Hp).
    { assert (P3 : (2 ^ 64 = 18446744073709551616)%N) by reflexivity. rewrite P3.
      assert (P4 : (2 ^ 32 = 4294967296)%N) by reflexivity. rewrite P4 in Hl. lia. }
    rewrite E, E'. cbn [bind fst snd]. do 2 eexists. split; [reflexivity|]. split; [reflexivity|].
    split; [reflexivity|]. split; [reflexivity|].
    assert (Hb : forall i, i < k -> forall j, xorb (N.testbit (v0 aS i) j) (N.testbit (v0 aR i) j) = N.testbit (v0 mS i) j && N.testbit (v0 mR i) j).
    { intros i Hi j. rewrite <- N.lxor_spec, <- N.land_spec. f_equal. apply Hp. exact Hi. }
    split; (split; [cbn [holds]; fold k; lia|split; [cbn [holds]; fold k; lia|]]); cbv zeta; fold k; intros i Hi j; cbn [fst snd].
    + apply Hb. exact Hi.
    + rewrite xorb_comm, andb_comm. apply Hb. exact Hi.
  - rewrite HS. cbn [bind]. do 2 eexists. split; [reflexivity|]. split; [reflexivity|].
    split; [reflexivity|]. split; [reflexivity|].
    assert (Hz : forall i, v0 (repeat 0%N k) i = 0%N).
    { intros i. unfold v0. apply nth_repeat. }
    split; (split; [cbn [holds]; fold k; rewrite repeat_length; lia|split; [cbn [holds]; fold k; rewrite repeat_length; lia|]]);
      cbv zeta; fold k; intros i Hi j; cbn [frO frM frL fs0 fs1 fs2 fs3]; rewrite !Hz; rewrite !N.bits_0; reflexivity.
  - rewrite HS. cbn [bind]. destruct (trit_mock_sender k) as [[m0 l0] [m1 l1]] eqn:Es. destruct (trit_mock_recver k) as [[c ms] ls] eqn:Er.
    do 2 eexists. split; [reflexivity|]. split; [reflexivity|]. split; [reflexivity|]. split; [reflexivity|].
    assert (HT : tr_pair k l0 m0 l1 m1 c ls ms).
    { intros i Hi j. unfold tvalid. cbn [tsL0 tsM0 tsL1 tsM1 trC trL trM].
      destruct (N.lt_ge_cases j 128) as [Hj|Hj].
      - pose proof (@trit_mock_ok k i j Hi Hj) as HM. rewrite Es, Er in HM. cbv zeta in HM. unfold v0.
        destruct HM as (M1 & M2 & M3 & M4). rewrite M1, M2. auto.
      - unfold trit_mock_sender in Es. injection Es as <- <- <- <-. unfold trit_mock_recver in Er. pose proof (f_equal (fun x => fst (fst x)) Er) as Ec; pose proof (f_equal (fun x => snd (fst x)) Er) as Em; pose proof (f_equal snd Er) as El; cbn [fst snd] in Ec, Em, El; subst c ms ls; clear Er.
        unfold v0. rewrite !map_map.
        rewrite !nth_map_seq by exact Hi.
        assert (RR : forall x, nth i (repeat x k) 0%N = x).
        { intros x. rewrite (nth_indep _ 0%N x) by (rewrite repeat_length; exact Hi). apply nth_repeat. }
        rewrite !RR. rewrite !N.lxor_spec, !N.land_spec.
        assert (T1 : N.testbit tm_lsb0 j = false) by (apply low_bits; [vm_compute; reflexivity|exact Hj]).
        assert (T2 : N.testbit tm_lsb1 j = false) by (apply low_bits; [vm_compute; reflexivity|exact Hj]).
        assert (T3 : N.testbit tm_msb0 j = false) by (apply low_bits; [vm_compute; reflexivity|exact Hj]).
        assert (T4 : N.testbit tm_msb1 j = false) by (apply low_bits; [vm_compute; reflexivity|exact Hj]).
        rewrite T1, T2, T3, T4. cbn [andb xorb]. destruct (N.testbit (tm_choice i) j); auto. }
    assert (LL : length l0 = k /\ length m0 = k /\ length l1 = k /\ length m1 = k /\ length c = k /\ length ls = k /\ length ms = k).
    { unfold trit_mock_sender in Es. injection Es as <- <- <- <-. unfold trit_mock_recver in Er. pose proof (f_equal (fun x => fst (fst x)) Er) as Ec; pose proof (f_equal (fun x => snd (fst x)) Er) as Em; pose proof (f_equal snd Er) as El; cbn [fst snd] in Ec, Em, El; subst c ms ls; clear Er.
      rewrite !map_length, !repeat_length, seq_length. repeat split. }
    split; (split; [cbn [holds]; fold k; lia|split; [cbn [holds]; fold k; lia|]]); exact HT.
Qed.

(* ---------------- the correlations of the sessions ---------------- *)

Lemma got_part bs outs t r s b o : nth_error bs (sBatch s) = Some b -> nth_error outs (sBatch s) = Some o ->
  holds (bSize b) o -> fits t r o = true ->
  got bs outs t r s = if (sBegin s mod 128 =? 0)%N && (sSize s mod 128 =? 0)%N && (sBegin s + sSize s <=? bSize b)%N
    then Some (part o (sBegin s) (sSize s)) else None.
Proof.
  intros Hb Ho Hh Hf. unfold got. rewrite Hb, Ho.
  destruct (N.eqb_spec (sBegin s mod 128) 0) as [H1|]; [|reflexivity].
  destruct (N.eqb_spec (sSize s mod 128) 0) as [H2|]; [|reflexivity].
  destruct (N.leb_spec (sBegin s + sSize s) (bSize b)) as [H3|]; [|reflexivity]. cbn [andb].
  destruct (@get_cor_part false t r (sBegin s) (sSize s) _ o Hf Hh H1 H2 H3) as (o' & E & _). rewrite E. reflexivity.
Qed.

Lemma got_unfit bs outs t r s o : nth_error outs (sBatch s) = Some o -> fits t r o = false -> got bs outs t r s = None.
Proof.
  intros Ho Hf. unfold got. rewrite Ho. destruct (nth_error bs (sBatch s)) as [b|]; [|reflexivity].
  destruct (_ && _ && _); [|reflexivity]. unfold get_cor. rewrite Hf. destruct (ct_eqb t (type_of o)); reflexivity.
Qed.

Lemma got_none bs outs t r s : nth_error bs (sBatch s) = None -> got bs outs t r s = None.
Proof. intros H. unfold got. rewrite H. reflexivity. Qed.

Lemma ots_zero n : ots_match (repeat (0, 0)%N n) (repeat 0%N n) (repeat false n).
Proof.
  split; [rewrite !repeat_length; reflexivity|]. split; [rewrite !repeat_length; reflexivity|].
  rewrite repeat_length. intros i d Hi.
  rewrite (nth_indep _ d 0%N) by (rewrite repeat_length; exact Hi).
  rewrite (nth_indep _ (d, d) (0, 0)%N) by (rewrite repeat_length; exact Hi).
  rewrite !nth_repeat. reflexivity.
Qed.

Lemma forall2_seq A B (R : A -> B -> Prop) f g k : (forall i, i < k -> R (f i) (g i)) -> Forall2 R (map f (seq 0 k)) (map g (seq 0 k)).
Proof.
  intros H. assert (HH : forall i, In i (seq 0 k) -> R (f i) (g i)) by (intros i Hi; apply in_seq in Hi; apply H; lia).
  induction (seq 0 k) as [|i l IH]; cbn; [constructor|]. constructor; [apply HH; left; reflexivity|].
  apply IH. intros j Hj. apply HH. right. exact Hj.
Qed.

Lemma forall2_rep A B (R : A -> B -> Prop) x y k : R x y -> Forall2 R (repeat x k) (repeat y k).
Proof. intros H. induction k; cbn; constructor; assumption. Qed.

Lemma zero_f4 : f4_ot (F4S 0 0 0 0) (F4R 0 0 0).
Proof. intros i. cbn [frO frM frL fs0 fs1 fs2 fs3]. rewrite N.bits_0. reflexivity. Qed.
Lemma zero_tr : trit_ot (TritS 0 0 0 0) (TritR 0 0 0).
Proof. intros i. unfold tvalid. cbn [tsL0 tsM0 tsL1 tsM1 trC trL trM]. rewrite N.bits_0. auto. Qed.
Lemma zero_ole : bin_ole (0, 0)%N (0, 0)%N.
Proof. intros i. cbn [fst snd]. rewrite N.bits_0. reflexivity. Qed.

Lemma fits_pair T R t r r' o o' : fits T R o = true -> fits T (negb R) o' = true -> t = COle \/ r' = negb r ->
  fits t r o = fits t r' o'.
Proof.
  intros H H' Hr. destruct T, R, o; cbn in H; try discriminate; destruct o'; cbn in H'; try discriminate;
    destruct t, r, r'; cbn; try reflexivity; destruct Hr; discriminate.
Qed.

Lemma fits_part t r o b s : fits t r (part o b s) = fits t r o.
Proof. destruct t, r, o; reflexivity. Qed.

Lemma got_pair bs outs outs' t r r' s : store_ok bs outs outs' -> t = COle \/ r' = negb r ->
  (got bs outs t r s = None /\ got bs outs' t r' s = None) \/
  exists x y, got bs outs t r s = Some x /\ got bs outs' t r' s = Some y /\ fits t r x = true /\ fits t r' y = true /\ pair_ok (sSize s) x y.
Proof.
  intros (L1 & L2 & HS) Hr. destruct (nth_error bs (sBatch s)) as [b|] eqn:Eb; [|left; split; apply got_none; exact Eb].
  destruct (HS _ _ Eb) as (o & o' & Ho & Ho' & F & F' & P). pose proof (@fits_pair _ _ t r r' o o' F F' Hr) as HF.
  destruct (fits t r o) eqn:Ef; symmetry in HF.
  - destruct P as [Hh [Hh' P]].
    rewrite (@got_part bs outs t r s b o Eb Ho Hh Ef), (@got_part bs outs' t r' s b o' Eb Ho' Hh' HF).
    destruct (N.eqb_spec (sBegin s mod 128) 0) as [H1|]; [|left; auto].
    destruct (N.eqb_spec (sSize s mod 128) 0) as [H2|]; [|left; auto].
    destruct (N.leb_spec (sBegin s + sSize s) (bSize b)) as [H3|]; [|left; auto]. cbn [andb].
    right. do 2 eexists. split; [reflexivity|]. split; [reflexivity|]. rewrite !fits_part. split; [exact Ef|]. split; [exact HF|].
    exact (@pair_part _ _ _ _ _ (conj Hh (conj Hh' P)) H1 H2 H3).
  - left. split; [exact (@got_unfit bs outs t r s o Ho Ef)|exact (@got_unfit bs outs' t r' s o' Ho' HF)].
Qed.

Lemma cors_of_ok bs outs outs' : store_ok bs outs outs' -> cors_ok (cors_of bs outs) (cors_of bs outs').
Proof.
  intros HS s. unfold cors_of. cbn [cOtS cOtR cF4S cF4R cOle cTrS cTrR]. split; [|split; [|split]].
  - destruct (@got_pair bs outs outs' COt false true s HS (or_intror eq_refl)) as [[-> ->]|(x & y & -> & -> & Fx & Fy & P)].
    + cbn [fst snd]. split; [apply repeat_length|apply ots_zero].
    + destruct x; try discriminate Fx. destruct y; try discriminate Fy. destruct P as [[_ H] [_ P]]. split; [exact H|exact P].
  - destruct (@got_pair bs outs outs' CF4 true false s HS (or_intror eq_refl)) as [[-> ->]|(x & y & -> & -> & Fx & Fy & P)].
    + split; [apply repeat_length|apply forall2_rep, zero_f4].
    + destruct x; try discriminate Fx. destruct y; try discriminate Fy. destruct P as [_ [_ P]].
      split; [rewrite map_length, seq_length; reflexivity|]. apply forall2_seq. exact P.
  - destruct (@got_pair bs outs outs' COle false false s HS (or_introl eq_refl)) as [[-> ->]|(x & y & -> & -> & Fx & Fy & P)].
    + split; [apply repeat_length|apply forall2_rep, zero_ole].
    + destruct x; try discriminate Fx. destruct y; try discriminate Fy. destruct P as [_ [_ P]].
      split; [rewrite map_length, seq_length; reflexivity|]. apply forall2_seq. exact P.
  - destruct (@got_pair bs outs outs' CTrit true false s HS (or_intror eq_refl)) as [[-> ->]|(x & y & -> & -> & Fx & Fy & P)].
    + split; [apply repeat_length|apply forall2_rep, zero_tr].
    + destruct x; try discriminate Fx. destruct y; try discriminate Fy. destruct P as [_ [_ P]].
      split; [rewrite map_length, seq_length; reflexivity|]. apply forall2_seq. exact P.
Qed.

Lemma map_v0 A (f : A -> N) (g : nat -> A) l k : length l = k -> (forall i, f (g i) = nth i l 0%N) -> map f (map g (seq 0 k)) = l.
Proof.
  intros HL H. rewrite map_map. apply (@nth_ext _ _ _ 0%N 0%N); [rewrite map_length, seq_length; congruence|].
  rewrite map_length, seq_length. intros i Hi. rewrite nth_map_seq by exact Hi. apply H.
Qed.

(* for a real segment the correlations are the parts of the outputs *)
Lemma cors_of_part bs outs s b o t r : nth_error bs (sBatch s) = Some b -> nth_error outs (sBatch s) = Some o ->
  fits t r o = true -> holds (bSize b) o -> (sBegin s mod 128 = 0)%N -> (sSize s mod 128 = 0)%N -> (sBegin s + sSize s <= bSize b)%N ->
  cors_part (cors_of bs outs) outs s.
Proof.
  intros Hb Ho Hf Hh H1 H2 H3 o1 Ho1. rewrite Ho in Ho1. injection Ho1 as <-.
  assert (G : got bs outs t r s = Some (part o (sBegin s) (sSize s))).
  { rewrite (@got_part bs outs t r s b o Hb Ho Hh Hf). rewrite H1, H2. cbn [N.eqb andb].
    rewrite (proj2 (N.leb_le _ _) H3). reflexivity. }
  pose proof (fun k => @div_range _ _ _ k H1 H2 H3) as HR.
  assert (G' : forall t' r', fits t' r' o = true -> got bs outs t' r' s = Some (part o (sBegin s) (sSize s))).
  { intros t' r' Hf'. rewrite (@got_part bs outs t' r' s b o Hb Ho Hh Hf'). rewrite H1, H2. cbn [N.eqb andb].
    rewrite (proj2 (N.leb_le _ _) H3). reflexivity. }
  unfold cors_of. destruct o; cbn [part holds] in *; cbn [cOtS cOtR cF4S cF4R cOle cTrS cTrR].
  - rewrite (G' COt true eq_refl). reflexivity.
  - rewrite (G' COt false eq_refl). reflexivity.
  - rewrite (G' COle false eq_refl). split; apply map_v0; try (apply slice_len, HR; tauto); reflexivity.
  - rewrite (G' CF4 true eq_refl). repeat split; apply map_v0; try (apply slice_len, HR; tauto); reflexivity.
  - rewrite (G' CF4 false eq_refl). repeat split; apply map_v0; try (apply slice_len, HR; tauto); reflexivity.
  - rewrite (G' CTrit true eq_refl). repeat split; apply map_v0; try (apply slice_len, HR; tauto); reflexivity.
  - rewrite (G' CTrit false eq_refl). repeat split; apply map_v0; try (apply slice_len, HR; tauto); reflexivity.
Qed.

(* ---------------- batchCount ---------------- *)

Local Open Scope N_scope.

Definition open_ok (B : N) (t : cortype) (r : bool) (g : gen) : Prop :=
  gBatchSize g = B /\ match gOpen g t r with
  | None => True
  | Some b => exists x, nth_error (gBatches g) b = Some x /\ bSize x < B /\ bSize x mod 128 = 0
  end.

Lemma set_open_same o t r v : set_open o t r v t r = v.
Proof. unfold set_open. rewrite (proj2 (ct_eqb_eq t t) eq_refl), Bool.eqb_reflx. reflexivity. Qed.

Definition up (d x : N) : N := (x + d - 1) / d.

Lemma up_mono d x y : 0 < d -> x <= y -> up d x <= up d y.
Proof. intros. unfold up. apply N.div_le_mono; lia. Qed.

Lemma up_step d x : 0 < d -> d <= x -> up d x = up d (x - d) + 1.
Proof. intros. unfold up. replace (x + d - 1) with (x - d + d - 1 + 1 * d) by lia. rewrite N.div_add by lia. reflexivity. Qed.

Lemma up_pos d x : 0 < d -> 0 < x -> 1 <= up d x.
Proof. intros. unfold up. apply N.div_le_lower_bound; lia. Qed.

Lemma cut_count dbg fuel : forall k t r n j g segs g' segs', open_ok (128 * k) t r g -> 0 < k -> 128 * k <= 2 ^ 26 ->
  n < two64 -> n mod 128 = 0 -> j mod 128 = 0 ->
  cut dbg fuel t r n j g segs = Ok (g', segs') ->
  N.of_nat (length segs') <= N.of_nat (length segs) + up (128 * k) (n - j) + (if gOpen g t r then 1 else 0).
Proof.
  induction fuel as [|fuel IH]; intros k t r n j g segs g' segs' HO Hk HB Hn Hnm Hjm H; cbn [cut] in H;
    destruct (N.leb_spec n j) as [Hj|Hj]; try (injection H as <- <-; clear; generalize (up (128 * k) (n - j)); intros u; destruct (gOpen g t r); lia); try discriminate.
  assert (P6 : 2 ^ 26 = 67108864) by reflexivity. rewrite P6 in HB. assert (P4 : two64 = 18446744073709551616) by reflexivity. rewrite P4 in Hn.
  destruct (mod_mult128 Hnm) as [n' Hn']. destruct (mod_mult128 Hjm) as [j' Hj'].
  destruct HO as [HBs HO].
  assert (W : exists g1 b x, open_batch g t r = (g1, b) /\ nth_error (gBatches g1) b = Some x /\ gBatchSize g1 = 128 * k /\
    bSize x < 128 * k /\ bSize x mod 128 = 0 /\ gOpen g1 t r = Some b /\ (gOpen g t r = None -> bSize x = 0)).
  { unfold open_batch. destruct (gOpen g t r) as [b|] eqn:E.
    - destruct HO as (x & Hx & H1 & H2). exists g, b, x. repeat (split; [assumption || reflexivity|]). discriminate.
    - do 3 eexists. split; [reflexivity|]. cbn [gBatches gBatchSize gOpen]. split; [rewrite nth_error_app2 by lia; rewrite Nat.sub_diag; reflexivity|].
      split; [exact HBs|]. cbn [bSize]. split; [lia|]. split; [reflexivity|]. split; [apply set_open_same|reflexivity]. }
  destruct W as (g1 & b & x & Eo & Hx & HB1 & Hxs & Hxm & Hop & Hx0). rewrite Eo in H. unfold get in H. rewrite Hx in H. cbn [bind] in H.
  rewrite HB1 in H. destruct (mod_mult128 Hxm) as [a Ha].
  rewrite sub64_le in H by (rewrite ?P4; lia).
  assert (Hmin : N.min (n - j) (128 * k - bSize x) = 128 * N.min (n' - j') (k - a)) by lia.
  set (m := N.min (n' - j') (k - a)) in *.
  assert (Hm : 0 < m /\ m <= k - a /\ m <= n' - j') by lia.
  rewrite Hmin, round128_mult in H by (rewrite P4; lia).
  replace (128 * k - bSize x <? 128 * m) with false in H by (symmetry; apply N.ltb_ge; lia).
  rewrite Bool.andb_false_r in H.
  assert (Hlt : (b < length (gBatches g1))%nat) by (apply nth_error_Some; congruence).
  assert (D0 : 0 < n - j) by lia. assert (D2 : 0 < 128 * k) by lia. pose proof (up_pos D2 D0) as D1.
  destruct (N.eqb_spec (128 * k - bSize x) (128 * m)) as [Eq|Ne].
  - assert (HO2 : open_ok (128 * k) t r (Gen (128 * k) (upd (gBatches g1) b (Batch (bType x) (bSender x) ((bSize x + 128 * m) mod two64))) (set_open (gOpen g1) t r None))).
    { split; [reflexivity|]. cbn [gOpen]. rewrite set_open_same. exact I. }
    apply (IH k t r n _ _ _ _ _ HO2 Hk ltac:(rewrite P6; exact HB) ltac:(rewrite P4; exact Hn) Hnm) in H.
    2:{ rewrite Hj', <- N.mul_add_distr_l. apply mult128_mod. }
    cbn [gOpen] in H. rewrite set_open_same in H. rewrite app_length in H. cbn [length] in H.
    destruct (gOpen g t r) as [b0|] eqn:Eg.
    + assert (D3 : n - (j + 128 * m) <= n - j) by lia. pose proof (up_mono D2 D3) as D4.
      clear - H D4. revert H D4. generalize (up (128 * k) (n - j)) (up (128 * k) (n - (j + 128 * m))). intros u v. lia.
    + specialize (Hx0 eq_refl). assert (D3 : m = k) by lia. assert (D4 : 128 * k <= n - j) by lia. pose proof (up_step D2 D4) as D5.
      replace (n - (j + 128 * m)) with (n - j - 128 * k) in H by lia.
      clear - H D5. revert H D5. generalize (up (128 * k) (n - j)) (up (128 * k) (n - j - 128 * k)). intros u v. lia.
  - assert (Em : 128 * m = n - j) by lia.
    assert (HJ : n <= j + 128 * m) by lia.
    destruct fuel as [|fuel]; cbn [cut] in H; rewrite (proj2 (N.leb_le _ _) HJ) in H; injection H as <- <-; rewrite app_length; cbn [length];
      clear - D1; revert D1; generalize (up (128 * k) (n - j)); intros u D1; destruct (gOpen g t r); lia.
Qed.

Lemma request_count dbg k t r n g S0 g' segs : ginv k g S0 -> n <= 2 ^ 64 - 256 -> request dbg t r n g = Ok (g', segs) ->
  N.of_nat (length segs) <= batch_count (128 * k) (round128 n).
Proof.
  intros Hi Hn H. assert (P4 : two64 = 18446744073709551616) by reflexivity.
  assert (P5 : 2 ^ 64 - 256 = 18446744073709551360) by reflexivity. rewrite P5 in Hn.
  destruct (@round128_bounds n ltac:(rewrite P4; lia)) as [H1 [k' H2]].
  apply cut_count with (k := k) in H.
  - cbn [length] in H. unfold batch_count. rewrite N.sub_0_r in H. unfold up in H. clear - H.
    revert H. generalize ((round128 n + 128 * k - 1) / (128 * k)). intros u H. destruct (gOpen g t r); lia.
  - split; [exact (gi_bs Hi)|]. destruct (gOpen g t r) as [b|] eqn:E; [|exact I].
    destruct (gi_open Hi E) as (x & Hx & _ & _ & Hs). exists x. split; [exact Hx|]. split; [exact Hs|]. apply (gi_size Hi Hx).
  - exact (gi_k Hi).
  - exact (gi_lim Hi).
  - rewrite P4. lia.
  - rewrite H2. apply mult128_mod.
  - reflexivity.
Qed.

Lemma requests_count dbg k : forall qs g S0 g' segss, ginv k g S0 -> Forall (fun q => snd q <= 2 ^ 64 - 256) qs ->
  (forall b x, nth_error (gBatches g) b = Some x -> 0 < bSize x) -> requests dbg qs g = Ok (g', segss) ->
  Forall2 (fun q segs => N.of_nat (length segs) <= batch_count (128 * k) (round128 (snd q))) qs segss.
Proof.
  induction qs as [|[[t r] n] qs IH]; intros g S0 g' segss Hi Hq Hp H; cbn [requests] in H.
  - injection H as <- <-. constructor.
  - inversion Hq as [|? ? Hq1 Hq2]; subst. cbn [snd] in Hq1.
    destruct (@request_ok dbg k t r n g S0 Hi Hq1 Hp) as (g1 & segs & E & I1 & _ & _ & P1). rewrite E in H. cbn [bind fst snd] in H.
    apply bind_ok in H. destruct H as [[g2 s2] [H2 H]]. cbn [fst snd] in H. injection H as <- <-.
    constructor; [exact (request_count Hi Hq1 E)|]. exact (IH _ _ _ _ I1 Hq2 P1 H2).
Qed.
Local Close Scope N_scope.

(* ---------------- the checks with mDebug ---------------- *)

Lemma ot_debug_iff m m' c : length m = length m' -> length c = length m' ->
  (ot_debug (OutOtS m) (OutOtR m' c) = true <-> ots_match m m' c).
Proof.
  intros L1 L2. unfold ot_debug. rewrite forallb_forall. split.
  - intros H. split; [congruence|]. split; [congruence|]. intros i d Hi.
    specialize (H i ltac:(apply in_seq; lia)). apply N.eqb_eq in H. cbv zeta in H.
    rewrite (nth_indep m' d 0%N) by lia. rewrite (nth_indep m (d, d) (0, 0)%N) by lia. exact H.
  - intros (_ & _ & H) i Hi. apply in_seq in Hi. apply N.eqb_eq. apply H. lia.
Qed.

Lemma reqs_eqb_eq : forall a b, reqs_eqb a b = true <-> a = b.
Proof.
  induction a as [|[[t r] n] a IH]; intros [|[[t' r'] n'] b]; cbn; try (split; congruence).
  rewrite !andb_true_iff, IH, ct_eqb_eq, Bool.eqb_true_iff, N.eqb_eq. split.
  - intros [[[-> ->] ->] ->]. reflexivity.
  - intros E. injection E as -> -> -> ->. auto.
Qed.

(* one party: at the start, waiting, or behind the loop; n its own number of requests, m the other's *)
Definition dinv1 (a b : list req) (p : dparty) : Prop :=
  match dPhase p with
  | DTop 0 => dIn p = 0 /\ dSent p = 0 /\ dTheirs p = []
  | DTop i => i = S (length b) /\ a <> [] /\ 0 < dIn p /\ dSent p = dIn p /\ dTheirs p = map flip_role b
  | DWait => a <> [] /\ dSent p = S (dIn p) /\ (dIn p = 0 \/ S (length b) < length a)
  | DOut => (a = [] /\ dIn p = 0 /\ dSent p = 0 /\ dTheirs p = []) \/
            (a <> [] /\ length a <= S (length b) /\ dSent p = dIn p /\ 0 < dIn p /\ dTheirs p = map flip_role b)
  end /\ (length a <= S (length b) -> dSent p <= 1) /\ (a = [] -> dSent p = 0).

Lemma dinv1_step a b av p p' : dinv1 a b p -> dstep a b av p = Some p' -> dinv1 a b p'.
Proof.
  unfold dinv1, dstep. destruct p as [ph th i s]. cbn [dPhase dTheirs dIn dSent]. intros [H1 [H2 H3]] H.
  destruct ph as [n| |].
  - destruct (Nat.ltb_spec n (length a)) as [Hn|Hn]; injection H as <-; cbn [dPhase dTheirs dIn dSent].
    + assert (Ha : a <> []) by (intros ->; cbn in Hn; lia). destruct n as [|n].
      * destruct H1 as (-> & -> & _). split; [|split; [lia|intros; contradiction]]. auto.
      * destruct H1 as (En & _ & H4 & -> & _). split; [|split; [lia|intros; contradiction]].
        split; [exact Ha|]. split; [reflexivity|]. right. lia.
    + split; [|split; assumption]. destruct n as [|n].
      * left. destruct a; [|cbn in Hn; lia]. tauto.
      * right. destruct H1 as (En & Ha & H4 & E & T). split; [exact Ha|]. split; [lia|]. auto.
  - destruct (Nat.ltb_spec i av) as [Hi|Hi]; [|discriminate]. injection H as <-. cbn [dPhase dTheirs dIn dSent].
    destruct H1 as (Ha & -> & H4). split; [|split; assumption]. split; [reflexivity|]. split; [exact Ha|]. split; [lia|]. split; reflexivity.
  - discriminate.
Qed.

(* both: nobody receives more than was sent *)
Definition dinv (a b : list req) (x : dparty * dparty) : Prop :=
  dinv1 a b (fst x) /\ dinv1 b a (snd x) /\ dIn (fst x) <= dSent (snd x) /\ dIn (snd x) <= dSent (fst x).

Lemma dstep_mono a b av p p' : dstep a b av p = Some p' -> dIn p <= av -> dIn p' <= av /\ dSent p <= dSent p'.
Proof.
  unfold dstep. destruct p as [ph th i s]. cbn [dPhase dTheirs dIn dSent]. intros H Hi. destruct ph as [n| |].
  - destruct (n <? length a); injection H as <-; cbn; lia.
  - destruct (Nat.ltb_spec i av); [|discriminate]. injection H as <-. cbn. lia.
  - discriminate.
Qed.

Lemma dinv_steps a b x y : dsteps a b x y -> dinv a b x -> dinv a b y.
Proof.
  intros H. induction H as [x|x p q p' _ IH E|x p q q' _ IH E]; intros Hx; [exact Hx| |];
    destruct (IH Hx) as (I1 & I2 & J1 & J2); cbn [fst snd] in *.
  - destruct (dstep_mono E J1). split; [exact (dinv1_step I1 E)|]. split; [exact I2|]. cbn [fst snd]. lia.
  - destruct (dstep_mono E J2). split; [exact I1|]. split; [exact (dinv1_step I2 E)|]. cbn [fst snd]. lia.
Qed.

Lemma dinv_start a b : dinv a b (dparty0, dparty0).
Proof. unfold dinv, dinv1. cbn. repeat split; lia. Qed.

Lemma dstep_top a b av p : dstep a b av p = None -> dPhase p = DOut \/ dPhase p = DWait /\ av <= dIn p.
Proof.
  unfold dstep. destruct p as [ph th i s]. cbn [dPhase dTheirs dIn dSent]. destruct ph as [n| |]; intros H.
  - destruct (n <? length a); discriminate.
  - destruct (Nat.ltb_spec i av); [discriminate|]. right. split; [reflexivity|lia].
  - left. reflexivity.
Qed.

(* what happened when nothing more can happen *)
Lemma compare_end a b p q : dsteps a b (dparty0, dparty0) (p, q) -> stuck a b (p, q) ->
  (a <> [] -> b <> [] -> length a <= S (length b) -> dPhase p = DOut /\ dTheirs p = map flip_role b) /\
  (b <> [] -> S (length b) < length a -> dPhase p = DWait) /\
  (a <> [] -> b = [] -> dPhase p = DWait) /\
  (a = [] -> dPhase p = DOut /\ dTheirs p = []).
Proof.
  intros HS [S1 S2]. cbn [fst snd] in S1, S2. destruct (dinv_steps HS (dinv_start a b)) as ((I1 & K1 & Z1) & (I2 & K2 & Z2) & J1 & J2).
  cbn [fst snd] in *. destruct (dstep_top S1) as [P1|[P1 B1]]; destruct (dstep_top S2) as [P2|[P2 B2]]; rewrite P1 in *; rewrite P2 in *.
  - split; [|split; [|split]].
    + intros Ha Hb Hl. split; [reflexivity|]. destruct I1 as [[E _]|[_ (_ & _ & _ & E)]]; [contradiction|exact E].
    + intros Hb Hl. destruct I1 as [[-> _]|[_ (E & _)]]; cbn in *; lia.
    + intros Ha ->. specialize (Z2 eq_refl). destruct I1 as [[E _]|[_ (_ & _ & E & _)]]; [contradiction|lia].
    + intros ->. split; [reflexivity|]. destruct I1 as [(_ & _ & _ & E)|[E _]]; [exact E|contradiction].
  - split; [|split; [|split]].
    + intros Ha Hb Hl. split; [reflexivity|]. destruct I1 as [[E _]|[_ (_ & _ & _ & E)]]; [contradiction|exact E].
    + intros Hb Hl. destruct I1 as [[-> _]|[_ (E & _)]]; cbn in *; lia.
    + intros Ha ->. destruct I2 as [E _]. contradiction.
    + intros ->. split; [reflexivity|]. destruct I1 as [(_ & _ & _ & E)|[E _]]; [exact E|contradiction].
  - destruct I1 as (Ha & Es & Ec). split; [|split; [|split]].
    + intros _ Hb Hl. destruct I2 as [[E _]|(_ & _ & E2 & E3 & _)]; [contradiction|]. lia.
    + reflexivity.
    + reflexivity.
    + intros E. contradiction.
  - destruct I1 as (Ha & Es & Ec). destruct I2 as (Hb & Es2 & Ec2). lia.
Qed.

Lemma flip_mirror l : map flip_role l = map mirror_q l.
Proof. reflexivity. Qed.

Lemma mirror_twice l : map mirror_q (map mirror_q l) = l.
Proof. rewrite map_map. rewrite <- (map_id l) at 2. apply map_ext. intros [[t r] n]. cbn. rewrite Bool.negb_involutive. reflexivity. Qed.

Lemma dcheck_iff a b p : dTheirs p = map flip_role b -> (dcheck a p = Ok tt <-> reqs_match a b) /\ (dcheck a p = Throw <-> ~ reqs_match a b).
Proof.
  intros E. unfold dcheck, reqs_match. rewrite E, flip_mirror.
  assert (H : reqs_eqb a (map mirror_q b) = true <-> map mirror_q a = b).
  { rewrite reqs_eqb_eq. split; [intros ->; apply mirror_twice|intros <-; symmetry; apply mirror_twice]. }
  destruct (reqs_eqb a (map mirror_q b)); cbn [negb throw_if]; split; split; try reflexivity; try discriminate; intros X.
  - apply H. reflexivity.
  - exfalso. apply X, H. reflexivity.
  - apply H in X. discriminate.
  - intros Y. apply H in Y. discriminate.
Qed.

(* the exchange always comes to an end: every step counts a message or leaves the loop *)
Definition dcount (p : dparty) : nat := dIn p + dSent p + match dPhase p with DOut => 1 | _ => 0 end.

Lemma dstep_count a b av p p' : dstep a b av p = Some p' -> dcount p' = S (dcount p).
Proof.
  unfold dstep, dcount. destruct p as [ph th i s]. cbn [dPhase dTheirs dIn dSent]. intros H. destruct ph as [n| |].
  - destruct (n <? length a); injection H as <-; cbn; lia.
  - destruct (i <? av); [|discriminate]. injection H as <-. cbn. lia.
  - discriminate.
Qed.

Lemma dinv_bound a b x : dinv a b x -> dcount (fst x) + dcount (snd x) <= 8.
Proof.
  intros ((I1 & K1 & Z1) & (I2 & K2 & Z2) & J1 & J2).
  assert (S1 : dSent (fst x) <= S (dIn (fst x))).
  { destruct (dPhase (fst x)) as [[|n]| |]; [lia|lia|lia|destruct I1 as [I1|I1]; lia]. }
  assert (S2 : dSent (snd x) <= S (dIn (snd x))).
  { destruct (dPhase (snd x)) as [[|n]| |]; [lia|lia|lia|destruct I2 as [I2|I2]; lia]. }
  unfold dcount. destruct (le_lt_dec (length a) (S (length b))) as [H|H].
  - specialize (K1 H). destruct (dPhase (fst x)), (dPhase (snd x)); lia.
  - specialize (K2 ltac:(lia)). destruct (dPhase (fst x)), (dPhase (snd x)); lia.
Qed.

Lemma compare_ends a b : forall fuel x, 8 < fuel + dcount (fst x) + dcount (snd x) -> dinv a b x ->
  exists y, dsteps a b x y /\ stuck a b y.
Proof.
  assert (HT : forall x y z, dsteps a b y z -> dsteps a b x y -> dsteps a b x z).
  { intros x y z H. induction H; intros HX; [exact HX|eapply ds_left; eauto|eapply ds_right; eauto]. }
  induction fuel as [|fuel IH]; intros [p q] Hf Hi.
  - exfalso. pose proof (dinv_bound Hi). cbn [fst snd] in *. lia.
  - destruct (dstep a b (dSent q) p) as [p'|] eqn:E1.
    + assert (HS : dsteps a b (p, q) (p', q)) by (eapply ds_left; [apply ds_refl|exact E1]).
      pose proof (dstep_count E1). destruct (IH (p', q)) as (y & H1 & H2); [cbn [fst snd] in *; lia|exact (dinv_steps HS Hi)|]. eauto.
    + destruct (dstep b a (dSent p) q) as [q'|] eqn:E2; [|exists (p, q); split; [apply ds_refl|split; assumption]].
      assert (HS : dsteps a b (p, q) (p, q')) by (eapply ds_right; [apply ds_refl|exact E2]).
      pose proof (dstep_count E2). destruct (IH (p, q')) as (y & H1 & H2); [cbn [fst snd] in *; lia|exact (dinv_steps HS Hi)|]. eauto.
Qed.

Lemma compare_total a b x : dsteps a b (dparty0, dparty0) x -> exists y, dsteps a b x y /\ stuck a b y.
Proof. intros H. apply (@compare_ends a b 9 x); [lia|]. exact (dinv_steps H (dinv_start a b)). Qed.

Lemma dsteps_swap a b x y : dsteps a b x y -> dsteps b a (snd x, fst x) (snd y, fst y).
Proof.
  intros H. induction H as [x|x p q p' _ IH E|x p q q' _ IH E]; cbn [fst snd] in *.
  - apply ds_refl.
  - eapply ds_right; eauto.
  - eapply ds_left; eauto.
Qed.

(* ---------------- both parties together ---------------- *)

Lemma got_mirror bs outs t r s : got (map mirror_b bs) outs t r s = got bs outs t r s.
Proof. unfold got. rewrite nth_error_map. destruct (nth_error bs (sBatch s)); reflexivity. Qed.

Lemma cors_of_mirror bs outs outs' : store_ok bs outs outs' -> cors_ok (cors_of bs outs) (cors_of (map mirror_b bs) outs').
Proof.
  intros H s. generalize (cors_of_ok H s). unfold cors_of. cbn [cOtS cOtR cF4S cF4R cOle cTrS cTrR]. rewrite !got_mirror. exact (fun x => x).
Qed.

Lemma pair_sym n x y : pair_ok n x y -> pair_ok n y x.
Proof.
  intros (H1 & H2 & H3). split; [exact H2|]. split; [exact H1|]. destruct x, y; cbn in *; try contradiction; try exact H3.
  intros i Hi. specialize (H3 i Hi). unfold bin_ole in *. cbn [fst snd] in *. intros j. rewrite xorb_comm, (andb_comm _ _). exact (H3 j).
Qed.

Lemma store_mirror bs outs outs' : store_ok bs outs outs' -> store_ok (map mirror_b bs) outs' outs.
Proof.
  intros (L1 & L2 & H). split; [rewrite map_length; exact L2|]. split; [rewrite map_length; exact L1|].
  intros i b Hb. rewrite nth_error_map in Hb. destruct (nth_error bs i) as [x|] eqn:E; [|discriminate]. cbn in Hb. injection Hb as <-.
  destruct (H i x E) as (o & o' & H1 & H2 & H3 & H4 & H5). exists o', o. unfold mirror_b. cbn [bType bSender bSize].
  rewrite Bool.negb_involutive. repeat (split; [assumption|]). apply pair_sym. exact H5.
Qed.

Lemma tiles_mirror segs bs : tiles segs bs -> tiles segs (map mirror_b bs).
Proof.
  intros H b p. rewrite H. unfold batch_size. rewrite nth_error_map. destruct (nth_error bs b); reflexivity.
Qed.

Lemma served_mirror bs qs segss : Forall2 (served bs) qs segss -> Forall2 (served (map mirror_b bs)) (map mirror_q qs) segss.
Proof.
  induction 1 as [|[[t r] n] segs qs segss [H1 H2] _ IH]; cbn [map mirror_q]; constructor; [|exact IH].
  split; [exact H1|]. eapply Forall_impl; [|exact H2]. intros s (A1 & A2 & A3 & x & X1 & X2 & X3). repeat (split; [assumption|]).
  exists (mirror_b x). rewrite nth_error_map, X1. split; [reflexivity|]. cbn. split; [exact X2|congruence].
Qed.

Lemma store_left bs outs outs' : store_ok bs outs outs' ->
  forall i b, nth_error bs i = Some b -> exists o, nth_error outs i = Some o /\ fits (bType b) (bSender b) o = true /\ holds (bSize b) o.
Proof. intros (_ & _ & H) i b Hb. destruct (H i b Hb) as (o & o' & H1 & _ & H3 & _ & H5 & _). eauto. Qed.

Lemma delivery dbg c bs g0 qs g g' segss outs outs' ord ord' :
  gen_init c bs = Ok g0 -> (bs mod 128 = 0)%N -> Forall (fun q => (snd q <= 2 ^ 64 - 256)%N) qs ->
  requests dbg qs g0 = Ok (g, segss) -> requests dbg (map mirror_q qs) g0 = Ok (g', segss) ->
  store_ok (gBatches g) outs outs' -> within ord segss -> within ord' segss ->
  exists res st rs res' st' rs',
    get_all dbg ord outs (make_reqs qs segss) = Ok (res, st, rs) /\
    get_all dbg ord' outs' (make_reqs (map mirror_q qs) segss) = Ok (res', st', rs') /\
    (length res = length ord /\ forall k, k < length ord -> exists s o, turn segss ord k = Some s /\
      nth_error outs (sBatch s) = Some o /\ nth_error res k = Some (part o (sBegin s) (sSize s))) /\
    (length res' = length ord' /\ forall k, k < length ord' -> exists s o, turn segss ord' k = Some s /\
      nth_error outs' (sBatch s) = Some o /\ nth_error res' k = Some (part o (sBegin s) (sSize s))) /\
    forall k k' s, turn segss ord k = Some s -> turn segss ord' k' = Some s ->
      exists x y, nth_error res k = Some x /\ nth_error res' k' = Some y /\ pair_ok (sSize s) x y.
Proof.
  intros Hg Hm Hq E E' HS W W'.
  destruct (gen_init_inv Hg Hm) as (_ & He & Hi).
  destruct (@requests_ok dbg (bs / 128)%N qs g0 [] Hi Hq) as (g1 & s1 & E1 & I1 & _ & V & P).
  { rewrite He. intros b x Hx. destruct b; discriminate. }
  rewrite E in E1. injection E1 as <- <-.
  assert (T : tiles (concat segss) (gBatches g)) by exact (gi_tiles I1).
  assert (HB : gBatches g' = map mirror_b (gBatches g)).
  { pose proof (@requests_mirror dbg qs g0 g0) as HM. rewrite E, E' in HM. apply HM.
    destruct (gen_init_eq Hg) as [-> _]. split; [reflexivity|split; reflexivity]. }
  destruct (@gets_ok dbg qs segss (gBatches g) outs V T (store_left HS) ord W (proj1 HS)) as (res & st & rs & G1 & G2 & G3).
  pose proof (store_mirror HS) as HS'.
  destruct (@gets_ok dbg (map mirror_q qs) segss (map mirror_b (gBatches g)) outs' (served_mirror V) (tiles_mirror T) (store_left HS') ord' W' (proj1 HS'))
    as (res' & st' & rs' & G1' & G2' & G3').
  exists res, st, rs, res', st', rs'. split; [exact G1|]. split; [exact G1'|]. split; [split; assumption|]. split; [split; assumption|].
  intros k k' s T1 T2.
  assert (K1 : k < length ord) by (apply nth_error_Some; unfold turn in T1; destruct (nth_error ord k); congruence).
  assert (K2 : k' < length ord') by (apply nth_error_Some; unfold turn in T2; destruct (nth_error ord' k'); congruence).
  destruct (G3 k K1) as (u & o & U1 & U2 & U3). destruct (G3' k' K2) as (u' & o' & U1' & U2' & U3').
  assert (u = s) by congruence. assert (u' = s) by congruence. subst u u'.
  exists (part o (sBegin s) (sSize s)), (part o' (sBegin s) (sSize s)). split; [exact U3|]. split; [exact U3'|].
  assert (SA : exists i j, seg_at segss i j = Some s).
  { unfold turn in T1. destruct (nth_error ord k) as [i|]; [|discriminate]. exists i, (count_occ Nat.eq_dec (firstn k ord) i). exact T1. }
  destruct SA as (i & j & SA).
  destruct (@seg_facts qs segss (gBatches g) outs V T (store_left HS) i j s SA) as (q & b & o1 & _ & F2 & _ & _ & F3 & F).
  rewrite U2 in F3. injection F3 as <-.
  destruct HS as (_ & _ & HS). destruct (HS _ _ F2) as (o2 & o2' & Z1 & Z2 & _ & _ & Z5).
  rewrite U2 in Z1. injection Z1 as <-. rewrite U2' in Z2. injection Z2 as <-.
  apply (pair_part Z5); tauto.
Qed.

Lemma sessions_from_store G B A M p fuel dbg sd outs outs' party f4 bs c g0 gF gF' segss l qs g g' s r :
  params_ok G A -> prf_make G B A = Ok p -> f3_getMatrix 512 256 A = Ok M ->
  gens_at dbg bs qs g g' -> gen_init c bs = Ok g0 ->
  requests dbg (qs ++ flat_map (fun x => plan f4 party (args_of x)) l) g0 = Ok (gF, segss) ->
  requests dbg (map mirror_q (qs ++ flat_map (fun x => plan f4 party (args_of x)) l)) g0 = Ok (gF', segss) ->
  store_ok (gBatches gF) outs outs' ->
  Forall (fun x => args_ok (args_of x) /\ inputs_ok (args_of x) (fst (snd x)) (snd (snd x))) l ->
  keygen_last l -> rooms dbg f4 party l g ->
  rvSize r = 0%N -> sdF4 s = f4 -> rvF4 r = f4 -> Forall (fun x => no_stale (args_of x) s r) l -> (f4 = false -> ole_even bs qs) ->
  let cs := cors_of (gBatches gF) outs in let cr := cors_of (gBatches gF') outs' in
  sessions dbg fuel p sd cs cr party l ((g, g'), (s, r)) = Hang \/
  exists ys s' r', sessions dbg fuel p sd cs cr party l ((g, g'), (s, r)) = Ok (ys, ((gF, gF'), (s', r'))) /\
    all_outputs G M B dbg f4 party cs l g ys /\
    forall u, In u (concat segss) -> cors_part cs outs u /\ cors_part cr outs' u.
Proof.
  intros HP HM HA HG Hg0 EF EF' HS Hl Hk Hrm Hr Hf Hf' Hst Hole cs cr.
  assert (HB : gBatches gF' = map mirror_b (gBatches gF)).
  { pose proof (@requests_mirror dbg (qs ++ flat_map (fun x => plan f4 party (args_of x)) l) g0 g0) as H0. rewrite EF, EF' in H0. apply H0.
    destruct (gen_init_eq Hg0) as [-> _]. split; [reflexivity|split; reflexivity]. }
  assert (Hc : cors_ok cs cr) by (unfold cs, cr; rewrite HB; apply cors_of_mirror; exact HS).
  destruct (@sessions_ok G B A M p fuel dbg sd cs cr party f4 bs HP HM HA Hc l qs g g' s r HG Hl Hk Hrm Hr Hf Hf' Hst Hole)
    as [E|(ys & g1 & g1' & s' & r' & E & HO & HG1)]; [left; exact E|].
  right. destruct HG1 as (Hm & Hq & c1 & g2 & segs2 & E1 & E2 & E3).
  assert (g2 = g0) by (destruct (gen_init_eq E1) as [-> _]; destruct (gen_init_eq Hg0) as [-> _]; reflexivity). subst g2.
  rewrite EF in E2. injection E2 as <- <-. rewrite EF' in E3. injection E3 as <-.
  exists ys, s', r'. split; [exact E|]. split; [exact HO|].
  destruct (gen_init_inv Hg0 Hm) as (_ & He & Hi).
  destruct (@requests_ok dbg (bs / 128)%N _ g0 [] Hi Hq) as (g3 & s3 & E4 & I1 & _ & V & P).
  { rewrite He. intros b x Hx. destruct b; discriminate. }
  rewrite EF in E4. injection E4 as <- <-.
  assert (T : tiles (concat segss) (gBatches gF)) by exact (gi_tiles I1).
  intros u Hu. apply In_nth_error in Hu. destruct Hu as [n Hn].
  assert (SA : exists i j, seg_at segss i j = Some u).
  { clear - Hn. revert n Hn. induction segss as [|x l IH]; intros n Hn; cbn in Hn; [destruct n; discriminate|].
    destruct (le_lt_dec (length x) n) as [H|H].
    - rewrite nth_error_app2 in Hn by exact H. destruct (IH _ Hn) as (i & j & E). exists (S i), j. exact E.
    - rewrite nth_error_app1 in Hn by exact H. exists 0, n. exact Hn. }
  destruct SA as (i & j & SA).
  pose proof (store_mirror HS) as HS'.
  destruct (@seg_facts _ segss (gBatches gF) outs V T (store_left HS) i j u SA) as (q & b & o & _ & F2 & Ft & Fr & F3 & Ff & F).
  destruct (@seg_facts _ segss (map mirror_b (gBatches gF)) outs' (served_mirror V) (tiles_mirror T) (store_left HS') i j u SA) as (q' & b' & o' & _ & F2' & Ft' & Fr' & F3' & Ff' & F').
  split.
  - unfold cs. apply (@cors_of_part _ _ _ b o (bType b) (bSender b)); tauto.
  - unfold cr. rewrite HB. apply (@cors_of_part _ _ _ b' o' (bType b') (bSender b')); tauto.
Qed.

Lemma mock_store_ok dbg aes : (forall i, (aes i < 2 ^ 128)%N) -> forall bs j,
  Forall (fun b => (bSize b mod 128 = 0)%N /\ (bSize b < 2 ^ 32)%N) bs ->
  exists outs outs', mock_store dbg aes j bs = Ok outs /\ mock_store dbg aes j (map mirror_b bs) = Ok outs' /\ store_ok bs outs outs'.
Proof.
  intros Ha. induction bs as [|b bs IH]; intros j HF.
  - exists [], []. split; [reflexivity|]. split; [reflexivity|]. split; [reflexivity|]. split; [reflexivity|]. intros [|i] x Hx; discriminate.
  - inversion HF as [|? ? [H1 H2] HF']; subst. destruct (@mock_ok dbg (aes j) b (Ha j) H1 H2) as (o & o' & E & E' & F1 & F2 & F3).
    destruct (IH (S j) HF') as (os & os' & R & R' & L1 & L2 & HS). exists (o :: os), (o' :: os'). cbn [map mock_store].
    rewrite E, E', R, R'. cbn [bind]. split; [reflexivity|]. split; [reflexivity|]. split; [cbn; lia|]. split; [cbn; lia|].
    intros [|i] x Hx; cbn in Hx; [injection Hx as <-; exists o, o'; auto|]. cbn. exact (HS i x Hx).
Qed.
