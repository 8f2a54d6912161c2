(* Proofs about the correlation generator model. *)
From Verif Require Import Base CorGenModel CorGenSpec.
From Coq Require Import Permutation.
Open Scope N_scope.

(* ---------------- C37 ---------------- *)

Lemma ct_eqb_eq a b : ct_eqb a b = true <-> a = b.
Proof. destruct a, b; cbn; split; congruence. Qed.

Lemma round128_mult k : 128 * k + 127 < two64 -> round128 (128 * k) = 128 * k.
Proof.
  intros H. unfold round128. rewrite N.mod_small by assumption.
  replace (128 * k + 127) with (127 + k * 128) by lia.
  rewrite N.div_add by lia. rewrite N.div_small by lia. lia.
Qed.

Lemma round128_bounds n : n + 127 < two64 -> n <= round128 n < n + 128 /\ exists k, round128 n = 128 * k.
Proof.
  intros H. unfold round128. rewrite N.mod_small by assumption.
  pose proof (N.div_mod (n + 127) 128 ltac:(lia)).
  pose proof (N.mod_lt (n + 127) 128 ltac:(lia)).
  split; [lia|]. exists ((n + 127) / 128). lia.
Qed.

Lemma sub64_le x y : y <= x -> x < two64 -> sub64 x y = x - y.
Proof.
  intros. unfold sub64. replace (x + two64 - y) with (x - y + 1 * two64) by lia.
  rewrite N.mod_add by (unfold two64; lia). apply N.mod_small. lia.
Qed.

Lemma size_app bs x b : batch_size (bs ++ [x]) b =
  if Nat.eqb b (length bs) then bSize x else batch_size bs b.
Proof.
  unfold batch_size. destruct (Nat.eqb_spec b (length bs)) as [->|Hn].
  - rewrite nth_error_app2 by lia. rewrite Nat.sub_diag. reflexivity.
  - destruct (Nat.lt_ge_cases b (length bs)).
    + rewrite nth_error_app1 by assumption. reflexivity.
    + rewrite (proj2 (nth_error_None bs b)) by lia.
      rewrite (proj2 (nth_error_None _ b)); [reflexivity|]. rewrite app_length; cbn; lia.
Qed.

Lemma cover_app l1 l2 b p : cover_count (l1 ++ l2) b p = (cover_count l1 b p + cover_count l2 b p)%nat.
Proof. unfold cover_count. rewrite filter_app, app_length. reflexivity. Qed.

Lemma seg_total_app l1 l2 : seg_total (l1 ++ l2) = seg_total l1 + seg_total l2.
Proof. unfold seg_total. induction l1; cbn [fold_right app]; [reflexivity|]. lia. Qed.

(* the batches only grow *)
Definition extends (bs bs' : list batch) : Prop :=
  forall b x, nth_error bs b = Some x ->
    exists y, nth_error bs' b = Some y /\ bType y = bType x /\ bSender y = bSender x.

Lemma extends_refl bs : extends bs bs.
Proof. intros b x H. eauto. Qed.
Lemma extends_trans a b c : extends a b -> extends b c -> extends a c.
Proof.
  intros H1 H2 i x Hx. destruct (H1 _ _ Hx) as [y [Hy [? ?]]]. destruct (H2 _ _ Hy) as [z [Hz [? ?]]].
  exists z. repeat split; congruence.
Qed.

Record ginv (k : N) (g : gen) (S : list segment) : Prop := GInv {
  gi_bs : gBatchSize g = 128 * k;
  gi_k : 0 < k;
  gi_lim : 128 * k <= 2 ^ 26;
  gi_size : forall b x, nth_error (gBatches g) b = Some x -> bSize x <= 128 * k /\ bSize x mod 128 = 0;
  gi_open : forall t r b, gOpen g t r = Some b -> exists x, nth_error (gBatches g) b = Some x /\
     bType x = t /\ bSender x = r /\ bSize x < 128 * k;
  gi_tiles : tiles S (gBatches g);
}.

Lemma open_batch_inv k g S t r g' b :
  ginv k g S -> open_batch g t r = (g', b) ->
  ginv k g' S /\ gOpen g' t r = Some b /\ extends (gBatches g) (gBatches g') /\
  (forall i x, nth_error (gBatches g') i = Some x -> bSize x = 0 -> nth_error (gBatches g) i = None -> i = b).
Proof.
  intros Hi H. unfold open_batch in H. destruct (gOpen g t r) as [b0|] eqn:E.
  - injection H as <- <-. split; [assumption|split; [assumption|split; [apply extends_refl|]]].
    intros. congruence.
  - injection H as <- <-. destruct Hi as [H1 H2 H3 H4 H5 H6]. split; [|split; [|split]].
    + constructor; cbn [gBatchSize gBatches gOpen]; try assumption.
      * intros b x Hx. destruct (Nat.lt_ge_cases b (length (gBatches g))).
        -- rewrite nth_error_app1 in Hx by assumption. eauto.
        -- rewrite nth_error_app2 in Hx by lia.
           destruct (b - length (gBatches g))%nat as [|m]; cbn in Hx.
           ++ injection Hx as <-. cbn [bSize]. split; [lia|reflexivity].
           ++ destruct m; discriminate.
      * intros t' r' b Hb. unfold set_open in Hb.
        destruct (ct_eqb t t') eqn:Et; cbn [andb] in Hb; [destruct (Bool.eqb r r') eqn:Er|].
        -- injection Hb as <-. apply ct_eqb_eq in Et. apply Bool.eqb_prop in Er.
           exists (Batch t r 0). rewrite nth_error_app2 by lia. rewrite Nat.sub_diag. cbn [nth_error bType bSender bSize].
           split; [reflexivity|split; [assumption|split; [assumption|lia]]].
        -- destruct (H5 _ _ _ Hb) as [x [Hx Hr]]. exists x. split; [|exact Hr].
           rewrite nth_error_app1; [assumption|]. apply nth_error_Some. congruence.
        -- destruct (H5 _ _ _ Hb) as [x [Hx Hr]]. exists x. split; [|exact Hr].
           rewrite nth_error_app1; [assumption|]. apply nth_error_Some. congruence.
      * intros b p. rewrite size_app. cbn [bSize]. rewrite H6.
        destruct (Nat.eqb_spec b (length (gBatches g))) as [->|]; [|reflexivity].
        unfold batch_size. rewrite (proj2 (nth_error_None _ _)) by lia. reflexivity.
    + cbn [gOpen]. unfold set_open. rewrite (proj2 (ct_eqb_eq t t)) by reflexivity.
      rewrite Bool.eqb_reflx. reflexivity.
    + intros b x Hx. exists x. cbn [gBatches]. rewrite nth_error_app1; [auto|].
      apply nth_error_Some. congruence.
    + cbn [gBatches]. intros i x Hx _ Hn. apply nth_error_None in Hn.
      destruct (Nat.eq_dec i (length (gBatches g))); [assumption|].
      exfalso. assert (i < length (gBatches g ++ [Batch t r 0]))%nat by (apply nth_error_Some; congruence).
      rewrite app_length in H. cbn in H. lia.
Qed.

Lemma cover_one b begin size b' p : 0 < size ->
  cover_count [Seg b begin size] b' p =
  if Nat.eqb b b' && (begin <=? p) && (p <? begin + size) then 1%nat else 0%nat.
Proof. intros. unfold cover_count, covers. cbn [filter sBatch sBegin sSize]. destruct (_ && _ && _); reflexivity. Qed.

Lemma batch_size_upd bs b y b' : (b < length bs)%nat ->
  batch_size (upd bs b y) b' = if Nat.eqb b b' then bSize y else batch_size bs b'.
Proof.
  intros. unfold batch_size. destruct (Nat.eqb_spec b b') as [->|].
  - rewrite nth_error_upd_eq by assumption. reflexivity.
  - rewrite nth_error_upd_ne by congruence. reflexivity.
Qed.

Lemma mult128_mod k : (128 * k) mod 128 = 0.
Proof. rewrite N.mul_comm. apply N.mod_mul. lia. Qed.

Lemma mod_mult128 n : n mod 128 = 0 -> exists k, n = 128 * k.
Proof. intros H. exists (n / 128). pose proof (N.div_mod n 128 ltac:(lia)). lia. Qed.

(* one request *)
Lemma cut_ok dbg fuel : forall k t r n j g S0 segs,
  ginv k g (S0 ++ segs) ->
  (n - j) <= 128 * N.of_nat fuel -> n < 2 ^ 63 * 2 - 127 -> j <= n -> n mod 128 = 0 -> j mod 128 = 0 ->
  seg_total segs = j ->
  Forall (fun s => 0 < sSize s /\ sSize s mod 128 = 0 /\ sBegin s mod 128 = 0 /\
     exists x, nth_error (gBatches g) (sBatch s) = Some x /\ bType x = t /\ bSender x = r) segs ->
  (forall b x, nth_error (gBatches g) b = Some x -> 0 < bSize x) ->
  exists g' segs', cut dbg fuel t r n j g segs = Ok (g', segs') /\
    ginv k g' (S0 ++ segs') /\ extends (gBatches g) (gBatches g') /\ seg_total segs' = n /\
    Forall (fun s => 0 < sSize s /\ sSize s mod 128 = 0 /\ sBegin s mod 128 = 0 /\
     exists x, nth_error (gBatches g') (sBatch s) = Some x /\ bType x = t /\ bSender x = r) segs' /\
    (forall b x, nth_error (gBatches g') b = Some x -> 0 < bSize x).
Proof.
  induction fuel as [|fuel IH]; intros k t r n j g S0 segs Hi Hf Hn Hj Hnm Hjm Ht Hs Hpos.
  - assert (n = j) as -> by (cbn in Hf; lia).
    cbn [cut]. rewrite N.leb_refl. exists g, segs.
    split; [reflexivity|split; [assumption|split; [apply extends_refl|split; [assumption|split; assumption]]]].
  - cbn [cut]. destruct (N.leb_spec n j).
    + assert (n = j) as -> by lia. exists g, segs.
      split; [reflexivity|split; [assumption|split; [apply extends_refl|split; [assumption|split; assumption]]]].
    + destruct (open_batch g t r) as [g1 b] eqn:Eo.
      destruct (open_batch_inv Hi Eo) as [Hi1 [Hop [Hext Hnew]]].
      destruct (gi_open Hi1 Hop) as [x [Hx [Hxt [Hxr Hxs]]]].
      destruct (gi_size Hi1 Hx) as [Hxle Hxm].
      pose proof (gi_bs Hi1) as Hbs. pose proof (gi_lim Hi1) as Hlim. pose proof (gi_k Hi1) as Hk.
      assert (Hlt : (b < length (gBatches g1))%nat) by (apply nth_error_Some; congruence).
      unfold get. rewrite Hx. cbn [bind].
      assert (HT : two64 = 2 ^ 64) by reflexivity. 
      rewrite Hbs. rewrite sub64_le by lia.
      destruct (mod_mult128 Hxm) as [a Ha].
      destruct (mod_mult128 Hnm) as [n' Hn']. destruct (mod_mult128 Hjm) as [j' Hj'].
      assert (Hmin : N.min (n - j) (128 * k - bSize x) = 128 * N.min (n' - j') (k - a)) by lia.
      set (m := N.min (n' - j') (k - a)) in *.
      assert (Hm : 0 < m /\ m <= k - a /\ m <= n' - j') by lia.
      rewrite Hmin. rewrite round128_mult by lia.
      replace (128 * k - bSize x <? 128 * m) with false by (symmetry; apply N.ltb_ge; lia).
      rewrite Bool.andb_false_r.
      rewrite N.mod_small by lia.
      match goal with |- context [cut dbg fuel t r n _ ?G _] => set (g2 := G) end.
      assert (Hext2 : extends (gBatches g1) (gBatches g2)).
      { intros i z Hz. unfold g2. cbn [gBatches]. destruct (Nat.eq_dec b i) as [<-|Hne].
        - rewrite nth_error_upd_eq by assumption. eexists. split; [reflexivity|]. cbn.
          assert (z = x) by congruence. subst z. auto.
        - rewrite nth_error_upd_ne by congruence. eauto. }
      assert (Hext02 : extends (gBatches g) (gBatches g2)) by (eapply extends_trans; eassumption).
      destruct (IH k t r n (j + 128 * m) g2 S0 (segs ++ [Seg b (bSize x) (128 * m)])) as [g' [segs' [E' [I' [X' [T' [F' P']]]]]]].
      * constructor.
        -- reflexivity.
        -- exact Hk.
        -- exact Hlim.
        -- unfold g2. cbn [gBatches]. intros i z Hz. destruct (Nat.eq_dec b i) as [<-|Hne].
           ++ rewrite nth_error_upd_eq in Hz by assumption. apply Some_inj in Hz; subst z. cbn [bSize].
              split; [lia|]. replace (bSize x + 128 * m) with (128 * (a + m)) by lia. apply mult128_mod.
           ++ rewrite nth_error_upd_ne in Hz by congruence. apply (gi_size Hi1 Hz).
        -- intros t' r' i Hi'.
           assert (Hgo : gOpen g1 t' r' = Some i /\ (t' = t /\ r' = r -> 128 * k - bSize x <> 128 * m)).
           { unfold g2 in Hi'. cbn [gOpen] in Hi'. destruct (N.eqb_spec (128 * k - bSize x) (128 * m)).
             - unfold set_open in Hi'. destruct (ct_eqb t t' && Bool.eqb r r') eqn:E; [discriminate|].
               split; [assumption|]. intros [-> ->]. rewrite (proj2 (ct_eqb_eq t t)), Bool.eqb_reflx in E by reflexivity.
               discriminate.
             - auto. }
           destruct Hgo as [Hgo Hne]. destruct (gi_open Hi1 Hgo) as [z [Hz [Hzt [Hzr Hzs]]]].
           unfold g2. cbn [gBatches]. destruct (Nat.eq_dec b i) as [<-|Hbi].
           ++ rewrite nth_error_upd_eq by assumption. eexists. split; [reflexivity|]. cbn [bType bSender bSize].
              assert (z = x) by congruence. subst z.
              specialize (Hne ltac:(split; congruence)).
              split; [congruence|split; [congruence|]]. lia.
           ++ rewrite nth_error_upd_ne by congruence. eauto.
        -- rewrite app_assoc. intros b' p. rewrite cover_app. rewrite (gi_tiles Hi1 b' p).
           rewrite cover_one by lia. unfold g2. cbn [gBatches]. rewrite batch_size_upd by assumption.
           cbn [bSize]. destruct (Nat.eqb_spec b b') as [<-|]; cbn [andb].
           ++ assert (Hbz : batch_size (gBatches g1) b = bSize x) by (unfold batch_size; rewrite Hx; reflexivity).
              rewrite Hbz. destruct (N.ltb_spec p (bSize x)), (N.leb_spec (bSize x) p),
                (N.ltb_spec p (bSize x + 128 * m)); cbn [andb]; try lia; reflexivity.
           ++ rewrite Nat.add_0_r. reflexivity.
      * lia.
      * assumption.
      * lia.
      * assumption.
      * replace (j + 128 * m) with (128 * (j' + m)) by lia. apply mult128_mod.
      * rewrite seg_total_app, Ht. unfold seg_total. cbn [fold_right sSize]. lia.
      * apply Forall_app. split.
        -- eapply Forall_impl; [|exact Hs]. cbv beta. intros s [? [? [? [z [Hz [? ?]]]]]].
           split; [assumption|split; [assumption|split; [assumption|]]].
           destruct (Hext02 _ _ Hz) as [y [Hy [? ?]]]. exists y. split; [assumption|split; congruence].
        -- constructor; [|constructor]. cbn [sSize sBegin sBatch]. split; [lia|split; [apply mult128_mod|split; [assumption|]]].
           destruct (Hext2 _ _ Hx) as [y [Hy [? ?]]]. exists y. split; [assumption|split; congruence].
      * unfold g2. cbn [gBatches]. intros i z Hz. destruct (Nat.eq_dec b i) as [<-|Hne].
        -- rewrite nth_error_upd_eq in Hz by assumption. apply Some_inj in Hz; subst z. cbn [bSize]. lia.
        -- rewrite nth_error_upd_ne in Hz by congruence.
           destruct (N.eq_dec (bSize z) 0); [|lia].
           destruct (nth_error (gBatches g) i) as [w|] eqn:Ew.
           ++ (* an old batch: open_batch keeps it *)
              pose proof (Hpos _ _ Ew).
              assert (nth_error (gBatches g1) i = Some w).
              { unfold open_batch in Eo. destruct (gOpen g t r); injection Eo as <- _; [assumption|].
                cbn [gBatches]. rewrite nth_error_app1; [assumption|]. apply nth_error_Some. congruence. }
              congruence.
           ++ exfalso. apply Hne. symmetry. eapply Hnew; eassumption.
      * exists g', segs'. split; [exact E'|split; [exact I'|split; [eapply extends_trans; eassumption|
          split; [exact T'|split; assumption]]]].
Qed.

Lemma request_ok dbg k t r n g S0 :
  ginv k g S0 -> n <= 2 ^ 64 - 256 ->
  (forall b x, nth_error (gBatches g) b = Some x -> 0 < bSize x) ->
  exists g' segs, request dbg t r n g = Ok (g', segs) /\ ginv k g' (S0 ++ segs) /\
    extends (gBatches g) (gBatches g') /\ served (gBatches g') (t, r, n) segs /\
    (forall b x, nth_error (gBatches g') b = Some x -> 0 < bSize x).
Proof.
  intros Hi Hn Hpos. assert (HT : two64 = 2 ^ 64) by reflexivity.
  destruct (@round128_bounds n ltac:(lia)) as [Hb [q Hq]].
  unfold request.
  assert (Hfu : round128 n - 0 <= 128 * N.of_nat (N.to_nat (round128 n / 128))).
  { rewrite N2Nat.id. rewrite Hq. rewrite (N.mul_comm 128 q), N.div_mul by lia. lia. }
  assert (Hmod : round128 n mod 128 = 0) by (rewrite Hq; apply mult128_mod).
  destruct (@cut_ok dbg (N.to_nat (round128 n / 128)) k t r (round128 n) 0 g S0 []) as [g' [segs [E [I [X [T [F P]]]]]]];
    try assumption; try reflexivity; try lia.
  - rewrite app_nil_r. assumption.
  - constructor.
  - exists g', segs. split; [exact E|split; [exact I|split; [exact X|split; [|exact P]]]].
    cbn [served]. split; [lia|exact F].
Qed.

Lemma served_extends bs bs' q segs : extends bs bs' -> served bs q segs -> served bs' q segs.
Proof.
  intros X. destruct q as [[t r] n]. cbn [served]. intros [H1 H2]. split; [assumption|].
  eapply Forall_impl; [|exact H2]. cbv beta. intros s [? [? [? [z [Hz [? ?]]]]]].
  split; [assumption|split; [assumption|split; [assumption|]]].
  destruct (X _ _ Hz) as [y [Hy [? ?]]]. exists y. split; [assumption|split; congruence].
Qed.

Lemma requests_ok dbg k qs : forall g S0,
  ginv k g S0 -> Forall (fun q => snd q <= 2 ^ 64 - 256) qs ->
  (forall b x, nth_error (gBatches g) b = Some x -> 0 < bSize x) ->
  exists g' segss, requests dbg qs g = Ok (g', segss) /\ ginv k g' (S0 ++ concat segss) /\
    extends (gBatches g) (gBatches g') /\ Forall2 (served (gBatches g')) qs segss /\
    (forall b x, nth_error (gBatches g') b = Some x -> 0 < bSize x).
Proof.
  induction qs as [|[[t r] n] qs IH]; intros g S0 Hi Hq Hpos.
  - exists g, []. cbn [requests concat]. rewrite app_nil_r.
    split; [reflexivity|split; [assumption|split; [apply extends_refl|split; [constructor|assumption]]]].
  - inversion Hq as [|? ? Hq1 Hq2]; subst. cbn [snd] in Hq1.
    destruct (@request_ok dbg k t r n g S0 Hi Hq1 Hpos) as [g1 [segs [E [I [X [V P]]]]]].
    destruct (IH g1 (S0 ++ segs) I Hq2 P) as [g2 [segss [E2 [I2 [X2 [V2 P2]]]]]].
    exists g2, (segs :: segss). cbn [requests]. rewrite E. cbn [bind fst snd]. rewrite E2. cbn [bind fst snd concat].
    split; [reflexivity|split; [rewrite app_assoc; exact I2|split; [eapply extends_trans; eassumption|split; [|exact P2]]]].
    constructor; [|exact V2]. eapply served_extends; eassumption.
Qed.

Lemma gen_init_inv c bs g : gen_init c bs = Ok g -> bs mod 128 = 0 ->
  gBatchSize g = bs /\ gBatches g = [] /\ ginv (bs / 128) g [].
Proof.
  unfold gen_init, throw_if. intros H Hm.
  destruct (N.ltb_spec bs (2 ^ 10)); [discriminate|]. cbn [bind] in H.
  destruct (N.ltb_spec (2 ^ 26) bs); [discriminate|]. cbn [bind] in H.
  destruct (c =? 0); [discriminate|]. destruct (2 ^ 10 <? c); [discriminate|]. cbn [bind] in H.
  injection H as <-. cbn [gBatchSize gBatches]. split; [reflexivity|split; [reflexivity|]].
  destruct (mod_mult128 Hm) as [k ->]. rewrite (N.mul_comm 128 k), N.div_mul by lia.
  constructor; cbn [gBatchSize gBatches gOpen]; try lia.
  - intros b x Hx. destruct b; discriminate.
  - intros; discriminate.
  - intros b p. unfold batch_size. assert (E : nth_error (@nil batch) b = None) by (destruct b; reflexivity). rewrite E. destruct (N.ltb_spec p 0); [lia|reflexivity].
Qed.

(* tiling implies pairwise disjointness and containment *)
Lemma cover_in s segs b p : In s segs -> covers b p s = true -> (0 < cover_count segs b p)%nat.
Proof.
  intros Hin Hc. unfold cover_count. assert (In s (filter (covers b p) segs)) by (apply filter_In; auto).
  destruct (filter (covers b p) segs); [contradiction|cbn; lia].
Qed.

Lemma tiles_inside segs bs s : tiles segs bs -> In s segs -> 0 < sSize s ->
  sBegin s + sSize s <= batch_size bs (sBatch s).
Proof.
  intros Ht Hin Hs. set (p := sBegin s + sSize s - 1).
  assert (Hc : covers (sBatch s) p s = true).
  { unfold covers. rewrite Nat.eqb_refl. cbn [andb].
    apply andb_true_intro. split; [apply N.leb_le|apply N.ltb_lt]; lia. }
  pose proof (cover_in Hin Hc) as Hcc. rewrite Ht in Hcc.
  destruct (N.ltb_spec p (batch_size bs (sBatch s))); [lia|lia].
Qed.

Lemma tiles_disjoint segs bs : tiles segs bs -> Forall (fun s => 0 < sSize s) segs ->
  forall i j s u, nth_error segs i = Some s -> nth_error segs j = Some u -> i <> j ->
  sBatch s = sBatch u -> sBegin s + sSize s <= sBegin u \/ sBegin u + sSize u <= sBegin s.
Proof.
  intros Ht Hp i j s u Hi Hj Hij Hb.
  assert (Hsym : forall i j s u, (i < j)%nat -> nth_error segs i = Some s -> nth_error segs j = Some u ->
    sBatch s = sBatch u -> sBegin s + sSize s <= sBegin u \/ sBegin u + sSize u <= sBegin s).
  { clear i j s u Hi Hj Hij Hb. intros i j s u Hij Hi Hj Hb.
    destruct (N.le_gt_cases (sBegin s + sSize s) (sBegin u)) as [?|H1]; [left; assumption|].
    destruct (N.le_gt_cases (sBegin u + sSize u) (sBegin s)) as [?|H2]; [right; assumption|]. exfalso.
    rewrite Forall_forall in Hp.
    pose proof (Hp s (nth_error_In _ _ Hi)). pose proof (Hp u (nth_error_In _ _ Hj)).
    set (p := N.max (sBegin s) (sBegin u)).
    assert (Hcs : covers (sBatch s) p s = true).
    { unfold covers. rewrite Nat.eqb_refl. cbn [andb].
      apply andb_true_intro. split; [apply N.leb_le|apply N.ltb_lt]; lia. }
    assert (Hcu : covers (sBatch s) p u = true).
    { unfold covers. rewrite Hb, Nat.eqb_refl. cbn [andb].
      apply andb_true_intro. split; [apply N.leb_le|apply N.ltb_lt]; lia. }
    destruct (nth_error_split segs i Hi) as [l1 [l2 [El El1]]].
    assert (Hu2 : In u l2).
    { rewrite El in Hj. rewrite nth_error_app2 in Hj by lia.
      destruct (j - length l1)%nat eqn:Ej; [lia|]. cbn in Hj. eapply nth_error_In; eassumption. }
    specialize (Ht (sBatch s) p). rewrite El in Ht.
    replace (l1 ++ s :: l2) with (l1 ++ [s] ++ l2) in Ht by reflexivity.
    rewrite !cover_app in Ht.
    pose proof (cover_in Hu2 Hcu).
    assert (0 < cover_count [s] (sBatch s) p)%nat by (apply (@cover_in s); [left; reflexivity|assumption]).
    destruct (p <? batch_size bs (sBatch s)); lia. }
  destruct (Nat.lt_ge_cases i j).
  - eapply Hsym; eassumption.
  - destruct (Hsym j i u s) as [?|?]; try assumption; [lia|congruence|auto|auto].
Qed.

(* batch sizes that are not multiples of 128 *)
Lemma unaligned_bounds bs : bs mod 128 <> 0 -> 2 ^ 10 <= bs -> bs <= 2 ^ 26 -> bs < round128 bs <= bs + 127.
Proof.
  intros Hm H1 H2. assert (HT : two64 = 2 ^ 64) by reflexivity.
  destruct (@round128_bounds bs ltac:(lia)) as [Hb [k Hk]].
  assert (round128 bs <> bs) by (intros E; rewrite <- E, Hk in Hm; apply Hm, mult128_mod). lia.
Qed.

Lemma gen_init_eq c bs g : gen_init c bs = Ok g -> g = Gen bs [] (fun _ _ => None) /\ 2 ^ 10 <= bs <= 2 ^ 26.
Proof.
  unfold gen_init, throw_if. intros H.
  destruct (N.ltb_spec bs (2 ^ 10)); [discriminate|]. cbn [bind] in H.
  destruct (N.ltb_spec (2 ^ 26) bs); [discriminate|]. cbn [bind] in H.
  destruct (c =? 0); [discriminate|]. destruct (2 ^ 10 <? c); [discriminate|]. cbn [bind] in H.
  injection H as <-. auto.
Qed.

Lemma round128_mono a b : a <= b -> b + 127 < two64 -> round128 a <= round128 b.
Proof.
  intros. unfold round128. rewrite !N.mod_small by lia.
  apply N.mul_le_mono_r, N.div_le_mono; lia.
Qed.

Lemma unaligned_debug c bs g t r n :
  gen_init c bs = Ok g -> bs mod 128 <> 0 -> bs <= n -> n <= 2 ^ 64 - 256 ->
  request true t r n g = UB.
Proof.
  intros Hg Hm Hn1 Hn2. destruct (gen_init_eq Hg) as [-> [Hb1 Hb2]].
  assert (HT : two64 = 2 ^ 64) by reflexivity.
  destruct (unaligned_bounds Hm Hb1 Hb2) as [Hr1 Hr2].
  destruct (@round128_bounds n ltac:(lia)) as [Hb [k Hk]].
  unfold request. 
  assert (Hge : bs <= round128 n) by lia.
  assert (Hne : exists f, N.to_nat (round128 n / 128) = S f).
  { destruct (N.to_nat (round128 n / 128)) eqn:E; [|eauto]. exfalso.
    assert (round128 n / 128 = 0) by lia. rewrite Hk, N.mul_comm, N.div_mul in H by lia. lia. }
  destruct Hne as [f ->]. cbn [cut].
  replace (round128 n <=? 0) with false by (symmetry; apply N.leb_gt; lia).
  cbn [open_batch gOpen gBatches gBatchSize app length]. unfold get. cbn [nth_error bind bSize].
  rewrite sub64_le by lia. replace (bs - 0) with bs by lia. rewrite N.sub_0_r.
  rewrite N.min_r by lia. replace (bs <? round128 bs) with true by (symmetry; apply N.ltb_lt; lia).
  reflexivity.
Qed.

Lemma unaligned_release c bs g t r n :
  gen_init c bs = Ok g -> bs mod 128 <> 0 -> bs <= n -> n <= 2 ^ 63 ->
  exists g' segs x, request false t r n g = Ok (g', segs) /\
    nth_error (gBatches g') 0 = Some x /\ length (gBatches g') = 1%nat /\ n <= bSize x /\
    gOpen g' t r = Some 0%nat.
Proof.
  intros Hg Hm Hn1 Hn2. destruct (gen_init_eq Hg) as [-> [Hb1 Hb2]].
  assert (HT : two64 = 2 ^ 64) by reflexivity.
  destruct (unaligned_bounds Hm Hb1 Hb2) as [Hr1 Hr2].
  destruct (@round128_bounds n ltac:(lia)) as [Hb [k Hk]].
  destruct (@round128_bounds bs ltac:(lia)) as [Hbb [kb Hkb]].
  assert (Hmono : round128 bs <= round128 n) by (apply round128_mono; lia).
  unfold request.
  assert (Hfu : N.to_nat (round128 n / 128) = N.to_nat k).
  { rewrite Hk, (N.mul_comm 128 k), N.div_mul by lia. reflexivity. }
  rewrite Hfu. assert (Hne : exists f, N.to_nat k = S f /\ (k = 1 -> f = 0%nat) /\ (1 < k -> exists f', f = S f')).
  { destruct (N.to_nat k) as [|f] eqn:E; [exfalso; lia|]. exists f. split; [reflexivity|split; [lia|]].
    intros. destruct f; [lia|eauto]. }
  destruct Hne as [f [-> [_ Hf2]]]. cbn [cut].
  replace (round128 n <=? 0) with false by (symmetry; apply N.leb_gt; lia).
  cbn [open_batch gOpen gBatches gBatchSize app length]. unfold get. cbn [nth_error bind bSize bType bSender andb upd app].
  rewrite sub64_le by lia. rewrite !N.sub_0_r. rewrite (N.min_r (round128 n) bs) by lia.
  replace (bs =? round128 bs) with false by (symmetry; apply N.eqb_neq; lia).
  rewrite N.add_0_l. rewrite (N.mod_small (round128 bs)) by lia.
  destruct (N.eq_dec (round128 bs) (round128 n)) as [E|NE].
  - destruct f; cbn [cut]; rewrite E, N.leb_refl; do 3 eexists;
    (split; [reflexivity|]); cbn [gBatches nth_error gOpen length];
    (split; [reflexivity|split; [reflexivity|split; [cbn [bSize]; lia|]]]);
    unfold set_open; rewrite (proj2 (ct_eqb_eq t t)) by reflexivity; rewrite Bool.eqb_reflx; reflexivity.
  - destruct (Hf2 ltac:(lia)) as [f' ->]. cbn [cut].
    replace (round128 n <=? round128 bs) with false by (symmetry; apply N.leb_gt; lia).
    unfold open_batch. cbn [gOpen]. unfold set_open at 1 2.
    rewrite (proj2 (ct_eqb_eq t t)) by reflexivity. rewrite Bool.eqb_reflx. cbn [andb].
    cbn [gBatches gBatchSize]. unfold get. cbn [nth_error bind bSize bType bSender andb upd app].
    assert (Hs : sub64 bs (round128 bs) = two64 - (round128 bs - bs)).
    { unfold sub64. rewrite N.mod_small by lia. lia. }
    rewrite Hs. rewrite N.min_l by lia.
    assert (Hrr : round128 (round128 n - round128 bs) = round128 n - round128 bs).
    { rewrite Hk, Hkb. rewrite <- N.mul_sub_distr_l. apply round128_mult. lia. }
    rewrite Hrr.
    replace (two64 - (round128 bs - bs) =? round128 n - round128 bs) with false
      by (symmetry; apply N.eqb_neq; lia).
    replace (round128 bs + (round128 n - round128 bs)) with (round128 n) by lia.
    rewrite (N.mod_small (round128 n)) by lia.
    destruct f'; cbn [cut]; rewrite N.leb_refl; do 3 eexists;
    (split; [reflexivity|]); cbn [gBatches nth_error gOpen length];
    (split; [reflexivity|split; [reflexivity|split; [cbn [bSize]; lia|]]]);
    unfold set_open; rewrite (proj2 (ct_eqb_eq t t)) by reflexivity; rewrite Bool.eqb_reflx; reflexivity.
Qed.

(* ---------------- C38 ---------------- *)

Definition mirrored (g g' : gen) : Prop :=
  gBatchSize g' = gBatchSize g /\ gBatches g' = map mirror_b (gBatches g) /\
  forall t r, gOpen g' t (negb r) = gOpen g t r.

Lemma mirror_b_size b : bSize (mirror_b b) = bSize b.
Proof. reflexivity. Qed.

Lemma eqb_negb a b : Bool.eqb (negb a) (negb b) = Bool.eqb a b.
Proof. destruct a, b; reflexivity. Qed.

Lemma set_open_mirror o o' t r v : (forall t r, o' t (negb r) = o t r) ->
  forall t1 r1, set_open o' t (negb r) v t1 (negb r1) = set_open o t r v t1 r1.
Proof. intros H t1 r1. unfold set_open. rewrite eqb_negb, H. reflexivity. Qed.

Lemma map_upd {A B} (f : A -> B) l i x : map f (upd l i x) = upd (map f l) i (f x).
Proof. revert i. induction l as [|a l IH]; intros [|i]; cbn; [reflexivity..|]. f_equal. apply IH. Qed.

Lemma open_mirror g g' t r : mirrored g g' ->
  snd (open_batch g' t (negb r)) = snd (open_batch g t r) /\
  mirrored (fst (open_batch g t r)) (fst (open_batch g' t (negb r))).
Proof.
  intros [H1 [H2 H3]]. unfold open_batch. rewrite H3. destruct (gOpen g t r) as [b|].
  - split; [reflexivity|]. split; [assumption|split; assumption].
  - cbn [fst snd]. rewrite H2, map_length. split; [reflexivity|].
    split; [assumption|split]; cbn [gBatches gOpen].
    + rewrite map_app. reflexivity.
    + apply set_open_mirror. assumption.
Qed.

Definition mirror_out {A} (o o' : outcome (gen * A)) : Prop :=
  match o, o' with
  | Ok (g, a), Ok (g', a') => mirrored g g' /\ a = a'
  | Throw, Throw => True
  | UB, UB => True
  | Hang, Hang => True
  | _, _ => False
  end.

Lemma cut_mirror dbg fuel : forall t r n j g g' segs, mirrored g g' ->
  mirror_out (cut dbg fuel t r n j g segs) (cut dbg fuel t (negb r) n j g' segs).
Proof.
  induction fuel as [|fuel IH]; intros t r n j g g' segs Hm; cbn [cut]; destruct (n <=? j).
  - cbn. auto.
  - exact I.
  - cbn. auto.
  - pose proof (@open_mirror g g' t r Hm) as [Hb Hm1].
    destruct (open_batch g t r) as [g1 b]. destruct (open_batch g' t (negb r)) as [g1' b'].
    cbn [fst snd] in *. subst b'. destruct Hm1 as [M1 [M2 M3]].
    rewrite M2. unfold get at 1 2. rewrite nth_error_map.
    destruct (nth_error (gBatches g1) b) as [bt|]; cbn [option_map bind]; [|exact I].
    rewrite mirror_b_size, M1.
    destruct (dbg && _); [exact I|].
    apply IH. split; [reflexivity|split]; cbn [gBatches gOpen].
    + rewrite map_upd. reflexivity.
    + destruct (_ =? _); [apply set_open_mirror|]; assumption.
Qed.

Lemma requests_mirror dbg qs : forall g g', mirrored g g' ->
  mirror_out (requests dbg qs g) (requests dbg (map mirror_q qs) g').
Proof.
  induction qs as [|[[t r] n] qs IH]; intros g g' Hm; cbn [requests map mirror_q].
  - cbn. auto.
  - pose proof (@cut_mirror dbg (N.to_nat (round128 n / 128)) t r (round128 n) 0 g g' [] Hm) as H.
    unfold request. destruct (cut dbg _ t r _ 0 g []) as [[g1 s1]| | |]; destruct (cut dbg _ t (negb r) _ 0 g' []) as [[g1' s1']| | |];
      cbn [mirror_out] in H; try contradiction; cbn [bind]; try exact I.
    destruct H as [H ->]. cbn [fst snd]. specialize (IH g1 g1' H).
    destruct (requests dbg qs g1) as [[g2 s2]| | |]; destruct (requests dbg (map mirror_q qs) g1') as [[g2' s2']| | |];
      cbn [mirror_out] in IH; try contradiction; cbn [bind]; try exact I.
    destruct IH as [IH ->]. cbn. auto.
Qed.
Close Scope N_scope.
