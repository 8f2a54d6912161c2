(* extractActive, share, reveal of tables *)
From Verif Require Import Base Words PermModel PermSpec PermProofs KeyMultModel ShuffleModel ShuffleSpec ShuffleSpanProofs F2CodeProofs CompressProofs BitInjProofs RadixModel RadixSortProofs TableModel TableSpec TrimProofs.

(* ---------- the kept rows as a list of row numbers ---------- *)
Definition kept (fl : list N) (i : nat) : list nat := filter (fun k => (nth k fl 0 =? 1)%N) (seq 0 i).

Lemma kept_S fl i : kept fl (S i) = kept fl i ++ (if (nth i fl 0 =? 1)%N then [i] else []).
Proof. unfold kept. rewrite seq_S, filter_app. cbn [filter Nat.add]. reflexivity. Qed.
Lemma kept_le fl i : length (kept fl i) <= i.
Proof. induction i as [|i IH]; [reflexivity|]. rewrite kept_S, app_length. destruct (nth i fl 0 =? 1)%N; cbn [length]; lia. Qed.
Lemma kept_lt fl i k : k < length (kept fl i) -> nth k (kept fl i) 0 < i.
Proof.
  intros H. apply (nth_In _ 0) in H. unfold kept in H. apply filter_In in H. destruct H as [H _]. apply in_seq in H. unfold kept. lia.
Qed.
Lemma keep_kept A (d : A) fl : forall l, length fl = length l -> keep fl l = map (fun k => nth k l d) (kept fl (length l)).
Proof.
  induction fl as [|f fl IH]; intros [|x l] L; cbn [length] in L; try lia; [reflexivity|].
  unfold kept. cbn [length seq]. rewrite <- seq_shift. cbn [filter nth]. unfold keep. cbn [combine filter fst].
  assert (E : forall g : nat -> bool, filter g (map S (seq 0 (length l))) = map S (filter (fun k => g (S k)) (seq 0 (length l)))).
  { intros g. generalize (seq 0 (length l)). induction l0 as [|a l0 IHl]; [reflexivity|]. cbn [map filter]. destruct (g (S a)); cbn [map]; rewrite IHl; reflexivity. }
  rewrite E. cbn [nth]. specialize (IH l ltac:(lia)). unfold keep, kept in IH.
  destruct (f =? 1)%N; cbn [map snd nth]; rewrite map_map; cbn [nth]; rewrite IH; reflexivity.
Qed.

Lemma rows_nth n c m k : rows_ok n c m -> k < n -> length (nth k m []) = c /\ bytes (nth k m []).
Proof. intros [L H] Hk. rewrite Forall_forall in H. apply H. apply nth_In. lia. Qed.
Lemma slice_rows n c m k x : rows_ok n c m -> k < n -> slice (concat m ++ x) (k * c) c = nth k m [].
Proof.
  intros H. revert n k H. induction m as [|r m IH]; intros n k [L H] Hk; cbn [length] in L; [lia|].
  apply Forall_cons_iff in H. destruct H as [[Lr Br] H]. cbn [concat]. unfold slice. destruct k as [|k]; cbn [nth].
  - cbn [Nat.mul skipn]. rewrite <- app_assoc, firstn_app. replace (c - length r) with 0 by lia. cbn [firstn]. rewrite app_nil_r. apply firstn_all2. lia.
  - rewrite <- app_assoc, skipn_app, skipn_all2 by nia. cbn [app]. replace (S k * c - length r) with (k * c) by nia. apply (IH (n - 1)); [split; [lia|exact H]|lia].
Qed.
Lemma bm_resize_ok n k m : bm_ok m -> bm_n m = n -> k <= n -> bm_resize k (bBits m) m = BM (bBits m) (bCols m) (firstn k (bRows m)).
Proof.
  intros [H E] Hn Hk. unfold bm_resize. rewrite <- E. f_equal. rewrite Hn in H. pose proof (proj1 H) as HL. apply nth_ext with [] []; [rewrite map_length, seq_length, firstn_length_le; lia|].
  rewrite map_length, seq_length. intros i Hi. rewrite (@nth_map_seq' _ _ 0 k i []) by exact Hi. cbn [Nat.add].
  rewrite (@slice_rows n) by (assumption || lia). rewrite nth_firstn by exact Hi. reflexivity.
Qed.

(* ---------- extractActive ---------- *)
Definition xt_col (fl : list N) (i : nat) (c0 c : column) : Prop :=
  exists r, c = with_rows c0 r /\ (length r = length (bRows (cDat c0)) /\ Forall (fun x => In x (bRows (cDat c0))) r) /\
    (forall k, k < length (kept fl i) -> nth k r [] = nth (nth k (kept fl i) 0) (bRows (cDat c0)) []) /\
    (forall k, i <= k -> nth k r [] = nth k (bRows (cDat c0)) []).

Lemma Forall2_in_r A B (R : A -> B -> Prop) l l' b : Forall2 R l l' -> In b l' -> exists a, In a l /\ R a b.
Proof.
  induction 1 as [|x y l l' Hxy H IH]; intros Hb; [destruct Hb|]. destruct Hb as [->|Hb]; [exists x; split; [left; reflexivity|exact Hxy]|].
  destruct (IH Hb) as (a & Ha & Hr). exists a. split; [right; exact Ha|exact Hr].
Qed.
Lemma Forall2_mapM A B C (f : B -> outcome C) (R : A -> B -> Prop) (Q : A -> C -> Prop) l l' :
  Forall2 R l l' -> (forall a b, In a l -> R a b -> exists c, f b = Ok c /\ Q a c) -> exists k, mapM f l' = Ok k /\ Forall2 Q l k.
Proof.
  induction 1 as [|a b l l' Hab H IH]; intros HF; cbn [mapM]; [exists []; split; [reflexivity|constructor]|].
  destruct (HF a b (or_introl eq_refl) Hab) as (c & -> & Hc). cbn [bind]. destruct IH as (k & -> & Hk); [intros x y Hx; apply HF; right; exact Hx|].
  exists (c :: k). split; [reflexivity|constructor; assumption].
Qed.
Lemma Forall2_impl_in A B (R Q : A -> B -> Prop) l l' : Forall2 R l l' -> (forall a b, In a l -> R a b -> Q a b) -> Forall2 Q l l'.
Proof.
  induction 1 as [|a b l l' Hab H IH]; intros HF; constructor; [apply HF; [left; reflexivity|exact Hab]|apply IH; intros x y Hx; apply HF; right; exact Hx].
Qed.
Lemma Forall2_map_eq A B (f : A -> B) l l' : Forall2 (fun a b => b = f a) l l' -> l' = map f l.
Proof. induction 1; cbn [map]; congruence. Qed.

Lemma upd_Forall A (P : A -> Prop) l i x : Forall P l -> P x -> Forall P (upd l i x).
Proof.
  intros H Hx. revert i. induction H as [|a l Ha H IH]; intros [|i]; cbn [upd]; constructor; auto.
Qed.
Lemma with_rows_rows c r : bRows (cDat (with_rows c r)) = r.
Proof. reflexivity. Qed.
Lemma with_rows_id c : with_rows c (bRows (cDat c)) = c.
Proof. destruct c as [a b d [e f g]]. reflexivity. Qed.

Lemma extract_active_ok n t : t_ok n t -> tAct t <> [] ->
  extract_active t = Ok (Tab [] (map (fun c => with_rows c (keep (tAct t) (bRows (cDat c)))) (tCols t))).
Proof.
  intros (Hn & Hc & HA) Hne. destruct HA as [HA|HA]; [contradiction|]. unfold extract_active.
  assert ((length (tAct t) =? 0) = false) as -> by (apply Nat.eqb_neq; intros E; apply length_zero_iff_nil in E; contradiction).
  rewrite Hn. set (fl := tAct t) in *. rewrite Forall_forall in Hc.
  match goal with |- bind (forN 0 n ?f (0, tCols t)) _ = _ =>
    destruct (@forN_inv _ (fun i s => fst s = length (kept fl i) /\ Forall2 (xt_col fl i) (tCols t) (snd s)) f n 0 (0, tCols t)) as ([cur cols] & E & Hcur & HF) end.
  - cbn [fst snd]. split; [reflexivity|]. assert (forall l, Forall2 (xt_col fl 0) l l) as HH; [|apply HH].
    induction l as [|c l IH]; constructor; [|exact IH]. exists (bRows (cDat c)). rewrite with_rows_id. split; [reflexivity|]. split; [split; [reflexivity|apply Forall_forall; auto]|]. split; [cbn [kept seq filter length]; intros k Hk; lia|reflexivity].
  - intros i [cur cols] Hi [Hcur HF]. cbn [fst snd] in *. rewrite (@get_ok _ fl i 0%N) by lia. cbn [bind].
    pose proof (kept_le fl i) as Hle. pose proof (kept_S fl i) as HS. rewrite <- Nat.add_1_r in HS. destruct (nth i fl 0 =? 1)%N.
    + destruct (Nat.eqb_spec cur i) as [Ec|Ec]; cbn [negb bind].
      * eexists. split; [reflexivity|]. cbn [fst snd]. split; [rewrite HS, app_length; cbn [length]; lia|].
        apply (Forall2_impl_in HF). intros c0 c _ (r & -> & [L HI] & H1 & H2). exists r. split; [reflexivity|]. split; [split; assumption|]. split; [|intros k Hk; apply H2; lia].
        rewrite HS, app_length. cbn [length]. intros k Hk. destruct (Nat.lt_ge_cases k (length (kept fl i))) as [Hk'|Hk'].
        { rewrite app_nth1 by exact Hk'. apply H1. exact Hk'. }
        rewrite app_nth2 by exact Hk'. replace (k - length (kept fl i)) with 0 by lia. cbn [nth]. rewrite H2 by lia. f_equal. lia.
      * destruct (@Forall2_mapM _ _ _ (copy_row_col cur i) (xt_col fl i) (xt_col fl (i + 1)) (tCols t) cols HF) as (k' & -> & Hk').
        { intros c0 c Hin (r & -> & [L HI] & H1 & H2). destruct (Hc c0 Hin) as (Hbm & Hbn & _). unfold bm_n in Hbn. unfold copy_row_col. rewrite with_rows_rows.
          rewrite (@get_ok _ r i []) by lia. cbn [bind]. rewrite set_lt by lia. cbn [bind]. eexists. split; [reflexivity|]. exists (upd r cur (nth i r [])).
          split; [reflexivity|]. split; [split; [rewrite upd_length; exact L|apply upd_Forall; [exact HI|]; rewrite Forall_forall in HI; apply HI, nth_In; lia]|]. split.
          - rewrite HS, app_length. cbn [length]. intros k Hk. rewrite nth_upd. rewrite (proj2 (Nat.ltb_lt cur (length r))) by lia. rewrite andb_true_r.
            destruct (Nat.eqb_spec cur k) as [->|Hn']; [rewrite app_nth2 by lia; replace (k - length (kept fl i)) with 0 by lia; cbn [nth]; apply H2; lia|].
            rewrite app_nth1 by lia. apply H1. lia.
          - intros k Hk. rewrite nth_upd. destruct (Nat.eqb_spec cur k) as [->|Hn']; [lia|]. cbn [andb]. apply H2. lia. }
        cbn [bind]. eexists. split; [reflexivity|]. cbn [fst snd]. split; [rewrite HS, app_length; cbn [length]; lia|exact Hk'].
    + eexists. split; [reflexivity|]. cbn [fst snd]. rewrite app_nil_r in HS. split; [congruence|]. apply (Forall2_impl_in HF). intros c0 c _ (r & -> & [L HI] & H1 & H2).
      exists r. rewrite HS. split; [reflexivity|]. split; [split; assumption|]. split; [exact H1|]. intros k Hk. apply H2. lia.
  - rewrite E. cbn [bind fst snd] in *. cbn [Nat.add] in *. do 2 f_equal. symmetry.
    transitivity (map (shrink_col cur) cols); [|reflexivity]. symmetry. apply Forall2_map_eq.
    assert (forall l l', Forall2 (xt_col fl n) l l' -> (forall c, In c l -> col_ok n c) -> Forall2 (fun a b => b = with_rows a (keep fl (bRows (cDat a)))) l (map (shrink_col cur) l')) as HH; [|apply HH; [exact HF|exact Hc]].
    clear HF E. intros l l' HF. induction HF as [|c0 c l l' (r & -> & [L HI] & H1 & H2) HF IH]; intros Hok; cbn [map]; constructor; [|apply IH; intros x Hx; apply Hok; right; exact Hx].
    destruct (Hok c0 (or_introl eq_refl)) as (Hbm & Hbn & _). unfold bm_n in Hbn. pose proof (kept_le fl n) as Hle.
    assert (Hr : firstn cur r = keep fl (bRows (cDat c0))).
    { rewrite (@keep_kept _ [] fl (bRows (cDat c0))) by congruence. rewrite Hbn. apply nth_ext with [] []; [rewrite firstn_length_le, map_length; lia|].
      rewrite firstn_length_le by lia. intros k Hk. rewrite nth_firstn by exact Hk. rewrite H1 by lia.
      rewrite (@nth_indep _ (map (fun k => nth k (bRows (cDat c0)) []) (kept fl n)) k [] (nth 0 (bRows (cDat c0)) [])) by (rewrite map_length; lia). rewrite (map_nth (fun k => nth k (bRows (cDat c0)) [])). reflexivity. }
    rewrite <- Hr. unfold shrink_col, with_rows. cbn [cName cType cBits cDat bBits]. f_equal.
    set (b0 := cDat c0) in *. replace (firstn cur r) with (firstn cur (bRows (BM (bBits b0) (bCols b0) r))) by reflexivity.
    destruct Hbm as [[_ Hrows] Eb]. rewrite Forall_forall in Hrows, HI.
    apply (@bm_resize_ok n cur (BM (bBits b0) (bCols b0) r)); [|unfold bm_n; cbn [bRows]; lia|lia]. split; [|exact Eb]. split; [reflexivity|].
    apply Forall_forall. intros x Hx. apply Hrows, HI, Hx.
Qed.

(* ---------- column infos and init ---------- *)
Definition info_of (c : column) : cinfo := Info (cName c) (cType c) (cBits c).

Lemma mk_info_ok name type bits : (type = 2 -> bits mod 8 = 0) -> mk_info name type bits = Ok (Info name type bits).
Proof.
  intros H. unfold mk_info. destruct (Nat.eqb_spec type 2) as [E|E]; [rewrite H by exact E|]; reflexivity.
Qed.
Lemma t_info_ok n t : Forall (col_ok n) (tCols t) -> t_info t = Ok (map info_of (tCols t)).
Proof.
  intros H. unfold t_info. apply mapM_ok. intros c Hc. rewrite Forall_forall in H. destruct (H c Hc) as (_ & _ & E & _ & Hs).
  unfold col_info. apply mk_info_ok. rewrite E. exact Hs.
Qed.
Lemma infos_eq_refl l : infos_eq l l = true.
Proof.
  induction l as [|i l IH]; [reflexivity|]. cbn [infos_eq]. rewrite IH. unfold info_eq. rewrite (proj2 (bytes_eq_iff _ _) eq_refl), !Nat.eqb_refl. reflexivity.
Qed.
Lemma infos_eq_iff a : forall b, infos_eq a b = true <-> a = b.
Proof.
  induction a as [|x a IH]; intros [|y b]; cbn [infos_eq]; split; try discriminate; auto.
  - intros H. apply andb_prop in H. destruct H as [H1 H2]. apply IH in H2. subst. f_equal. unfold info_eq in H1. apply andb_prop in H1. destruct H1 as [H1 H3].
    apply andb_prop in H1. destruct H1 as [H1 H2]. apply bytes_eq_iff in H1. apply Nat.eqb_eq in H2, H3. destruct x as [x1 x2 x3], y as [y1 y2 y3]; cbn [iName iType iBits] in *; congruence.
  - intros H. injection H as -> ->. change (infos_eq (y :: b) (y :: b) = true). apply infos_eq_refl.
Qed.
Lemma same_infos a b : Forall2 same_info a b -> map info_of a = map info_of b.
Proof. induction 1 as [|x y a b (E1 & E2 & E3) H IH]; [reflexivity|]. cbn [map]. rewrite IH. unfold info_of at 1. rewrite E1, E2, E3. reflexivity. Qed.

Lemma existsb_bytes x l : existsb (bytes_eq x) l = true <-> In x l.
Proof.
  rewrite existsb_exists. split; [intros (y & Hy & E); apply bytes_eq_iff in E; subst; exact Hy|].
  intros H. exists x. split; [exact H|]. apply bytes_eq_iff. reflexivity.
Qed.
Definition fresh_col (n : nat) (i : cinfo) : column := Col (iName i) (iType i) (iBits i) (bm_zero n (iBits i)).
Lemma init_cols_ok n l : forall seen, NoDup (map iName l) -> (forall i, In i l -> ~ In (iName i) seen /\ (iType i = 2 -> iBits i mod 8 = 0)) ->
  init_cols n seen l = Ok (map (fresh_col n) l).
Proof.
  induction l as [|i l IH]; intros seen ND H; cbn [init_cols map]; [reflexivity|]. cbn [map] in ND. apply NoDup_cons_iff in ND. destruct ND as [N1 N2].
  destruct (H i (or_introl eq_refl)) as [Hs Ht]. destruct (existsb (bytes_eq (iName i)) seen) eqn:E; [apply existsb_bytes in E; contradiction|]. cbn [throw_if bind].
  rewrite mk_info_ok by exact Ht. cbn [bind]. rewrite IH; [reflexivity|exact N2|]. intros j Hj. destruct (H j (or_intror Hj)) as [Hs' Ht']. split; [|exact Ht'].
  intros [E'|E']; [|contradiction]. apply N1. rewrite E'. apply in_map. exact Hj.
Qed.
Lemma init_cols_dup n l : forall seen, (exists i, In i l /\ In (iName i) seen) \/ ~ NoDup (map iName l) -> init_cols n seen l = Throw.
Proof.
  induction l as [|i l IH]; intros seen H; cbn [init_cols]; [destruct H as [(i & [] & _)|H]; exfalso; apply H; constructor|].
  destruct (existsb (bytes_eq (iName i)) seen) eqn:E; [reflexivity|]. cbn [throw_if bind]. unfold mk_info. destruct ((iType i =? 2) && (0 <? iBits i mod 8)); cbn [throw_if bind]; [reflexivity|].
  assert (Hs : ~ In (iName i) seen) by (intros Hin; apply existsb_bytes in Hin; congruence).
  rewrite IH; [reflexivity|]. destruct H as [(j & [->|Hj] & Hin)|H]; [contradiction|left; exists j; split; [exact Hj|right; exact Hin]|].
  cbn [map] in H. destruct (in_dec (list_eq_dec N.eq_dec) (iName i) (map iName l)) as [Hi|Hi].
  - left. apply in_map_iff in Hi. destruct Hi as (j & Ej & Hj). exists j. split; [exact Hj|left; congruence].
  - right. intros HN. apply H. constructor; assumption.
Qed.

(* ---------- loops which set element after element ---------- *)
Lemma forN_set A (f : nat -> list A -> outcome (list A)) g l0 n : n <= length l0 ->
  (forall i l, i < n -> length l = length l0 -> f i l = set l i (g i)) ->
  forN 0 n f l0 = Ok (map g (seq 0 n) ++ skipn n l0).
Proof.
  intros Hn Hf. destruct (@forN_inv _ (fun i l => l = map g (seq 0 i) ++ skipn i l0) f n 0 l0) as (l & E & ->); [reflexivity| |exact E].
  intros k l Hk ->. assert (L : length (map g (seq 0 k) ++ skipn k l0) = length l0) by (rewrite app_length, map_length, seq_length, skipn_length; lia).
  rewrite Hf by (exact L || lia). rewrite set_lt by lia. eexists. split; [reflexivity|].
  rewrite Nat.add_1_r, seq_S, map_app. cbn [map Nat.add]. rewrite <- app_assoc. cbn [app].
  assert (forall (a b : list A) x y, upd (a ++ y :: b) (length a) x = a ++ x :: b) as HU by (induction a as [|z a IH]; intros b x y; cbn [app length upd]; [reflexivity|rewrite IH; reflexivity]).
  destruct (skipn k l0) as [|y b] eqn:Es; [apply (f_equal (@length A)) in Es; rewrite skipn_length in Es; cbn [length] in Es; lia|].
  replace k with (length (map g (seq 0 k))) at 2 by (rewrite map_length, seq_length; reflexivity). rewrite HU. do 2 f_equal.
  replace (S k) with (1 + k) by lia. assert (forall (l : list A) k y b, skipn k l = y :: b -> skipn (1 + k) l = b) as HS.
  { clear. induction l as [|z l IH]; intros [|k] y b H; cbn [skipn Nat.add] in *; try discriminate; [injection H as <- <-; reflexivity|]. apply (IH k y). exact H. }
  symmetry. apply (HS _ _ _ _ Es).
Qed.

Lemma reveal_col_ok n size a b rc : col_ok n a -> col_ok n b -> same_info a b -> n <= size -> rc = fresh_col size (info_of a) ->
  reveal_col n a b rc = Ok (with_rows a (xor_rows (bRows (cDat a)) (bRows (cDat b)) ++ repeat (repeat 0%N (bCols (cDat a))) (size - n))).
Proof.
  intros ([Ra Ea] & Na & Ba & _) ([Rb Eb] & Nb & Bb & _) (_ & _ & Hbits) Hs ->. unfold reveal_col. rewrite Na in Ra. rewrite Nb in Rb.
  assert (ECa : div_ceil (cBits a) 8 = bCols (cDat a)) by (rewrite Ba; symmetry; exact Ea). assert (ECb : bCols (cDat b) = bCols (cDat a)) by (rewrite Eb, <- Bb, <- Hbits; exact ECa).
  cbn [fresh_col info_of cDat cName cType cBits iName iType iBits bm_zero bRows bCols bBits]. rewrite ECa.
  rewrite (@forN_set _ _ (fun i => nth i (xor_rows (bRows (cDat a)) (bRows (cDat b))) [])).
  - cbn [bind]. unfold with_rows. do 2 f_equal. rewrite Ba. f_equal. f_equal.
    + pose proof (xor_rows_ok Ra (eq_rect _ (fun z => rows_ok n z _) Rb _ ECb)) as [L _]. set (X := xor_rows _ _) in *. apply nth_ext with [] []; [rewrite map_length, seq_length; congruence|].
      rewrite map_length, seq_length. intros k Hk. rewrite (@nth_map_seq' _ _ 0 n k []) by exact Hk. reflexivity.
    + assert (forall A (x : A) m k, skipn k (repeat x m) = repeat x (m - k)) as HR; [|apply HR].
      clear. intros A x m. induction m as [|m IH]; intros [|k]; cbn [repeat skipn Nat.sub]; try reflexivity. apply IH.
  - rewrite repeat_length. exact Hs.
  - intros i l Hi _. destruct (rows_nth Ra Hi) as [La Ba']. destruct (rows_nth Rb Hi) as [Lb Bb'].
    rewrite (@get_ok _ (bRows (cDat a)) i []) by (rewrite (proj1 Ra); exact Hi). rewrite (@get_ok _ (bRows (cDat b)) i []) by (rewrite (proj1 Rb); exact Hi). cbn [bind].
    unfold xor_row. rewrite La, Lb, ECb, Nat.leb_refl. cbn [andb bind]. f_equal. rewrite !firstn_all2 by lia. unfold xor_rows.
    rewrite (@map2_nth _ _ _ (map2 N.lxor) _ _ i [] []) by (rewrite ?(proj1 Ra), ?(proj1 Rb); exact Hi). reflexivity.
Qed.

Lemma keep_app A fl fl' (l l' : list A) : length fl = length l -> keep (fl ++ fl') (l ++ l') = keep fl l ++ keep fl' l'.
Proof.
  revert l. induction fl as [|f fl IH]; intros [|x l] L; cbn [length] in L; try lia; [reflexivity|]. unfold keep in *. cbn [app combine filter fst]. specialize (IH l ltac:(lia)).
  destruct (f =? 1)%N; cbn [map app]; rewrite IH; reflexivity.
Qed.
Lemma keep_zeros A m : forall l : list A, keep (repeat 0%N m) l = [].
Proof. induction m as [|m IH]; intros [|x l]; try reflexivity. unfold keep in *. cbn [repeat combine filter fst]. apply IH. Qed.
Lemma keep_ones A : forall (l : list A), keep (repeat 1%N (length l)) l = l.
Proof. induction l as [|x l IH]; [reflexivity|]. unfold keep in *. cbn [length repeat combine filter fst map snd]. change (1 =? 1)%N with true. cbn [map snd]. rewrite IH. reflexivity. Qed.

Definition flags_of (n : nat) (a : list N) : list N := match a with [] => repeat 1%N n | _ => a end.

Lemma mapM_combine3 (f : column -> column -> column -> outcome column) g cs0 cs1 (h : column -> column) :
  Forall2 (fun a b => f a b (h a) = Ok (g a b)) cs0 cs1 ->
  mapM (fun q => f (fst (fst q)) (snd (fst q)) (snd q)) (combine (combine cs0 cs1) (map h cs0)) = Ok (map2 g cs0 cs1).
Proof. induction 1 as [|a b l l' E H IH]; [reflexivity|]. cbn [map combine mapM map2 fst snd]. rewrite E. cbn [bind]. rewrite IH. reflexivity. Qed.

Lemma t_reveal_ok n t0 t1 rm : t_ok n t0 -> t_ok n t1 -> Forall2 same_info (tCols t0) (tCols t1) -> NoDup (map cName (tCols t0)) ->
  length (tAct t0) = length (tAct t1) -> (rm = true -> Forall (fun f => (f < 2)%N) (map2 N.lxor (tAct t0) (tAct t1))) ->
  let A := flags_of n (map2 N.lxor (tAct t0) (tAct t1)) in
  t_reveal t0 t1 rm = Ok (if rm then Tab [] (map2 (fun a b => with_rows a (keep A (xor_rows (bRows (cDat a)) (bRows (cDat b))))) (tCols t0) (tCols t1))
                          else Tab A (map2 (fun a b => with_rows a (xor_rows (bRows (cDat a)) (bRows (cDat b)))) (tCols t0) (tCols t1))).
Proof.
  intros (Hn0 & Hc0 & HA0) (Hn1 & Hc1 & HA1) Hinf ND LA HF2 A. unfold t_reveal.
  rewrite (t_info_ok Hc0), (t_info_ok Hc1). cbn [bind]. rewrite (same_infos Hinf), infos_eq_refl, Hn0, Hn1, Nat.eqb_refl. cbn [negb orb throw_if bind].
  set (a0 := tAct t0) in *. set (a1 := tAct t1) in *. set (flags := negb (length a0 =? 0)).
  assert (Hsize : exists size, (if flags && rm then forN 0 n (fun i size => do x <- get a0 i; do y <- get a1 i; if (N.lxor x y <? 2)%N then Ok (size + N.to_nat (N.lxor x y)) else UB) n else Ok n) = Ok size /\ n <= size /\ (n = 0 -> size = 0) /\ (rm = false -> size = n)).
  { destruct flags eqn:Ef; cbn [andb]; [|exists n; repeat split; auto]. destruct rm; [|exists n; repeat split; auto].
    assert (La : length a0 = n). { destruct HA0 as [E|E]; [unfold flags in Ef; rewrite E in Ef; discriminate|exact E]. }
    match goal with |- exists size, forN 0 n ?f n = _ /\ _ => destruct (@forN_inv _ (fun i s => n <= s) f n 0 n (le_n n)) as (size & E & Hs) end.
    - intros k s Hk Hs. rewrite (@get_ok _ a0 k 0%N), (@get_ok _ a1 k 0%N) by lia. cbn [bind].
      specialize (HF2 eq_refl). rewrite Forall_forall in HF2. specialize (HF2 (nth k (map2 N.lxor a0 a1) 0%N)).
      rewrite (@map2_nth _ _ _ N.lxor _ _ k 0%N 0%N) in HF2 by lia. rewrite (proj2 (N.ltb_lt _ _)).
      2:{ apply HF2. rewrite <- (@map2_nth _ _ _ N.lxor a0 a1 k 0%N 0%N 0%N) by lia. apply nth_In. rewrite map2_length. lia. }
      eexists. split; [reflexivity|]. lia.
    - exists size. split; [exact E|]. split; [exact Hs|]. split; [intros ->; injection E as <-; reflexivity|discriminate]. }
  destruct Hsize as (size & -> & Hs1 & Hs2 & Hs3). cbn [bind]. rewrite <- (same_infos Hinf).
  unfold t_init. rewrite init_cols_ok.
  2:{ rewrite map_map. exact ND. }
  2:{ intros i Hi. split; [intros []|]. apply in_map_iff in Hi. destruct Hi as (c & <- & Hc). rewrite Forall_forall in Hc0. destruct (Hc0 c Hc) as (_ & _ & E & _ & Hs). cbn [info_of iType iBits]. rewrite E. exact Hs. }
  cbn [bind].
  assert (LAn : length A = n).
  { unfold A, flags_of. destruct HA0 as [E|E]; [rewrite E; cbn [map2]; apply repeat_length|]. destruct (map2 N.lxor a0 a1) eqn:EM; [apply repeat_length|]. rewrite <- EM, map2_length. lia. }
  assert (HAl : forN 0 n (fun i act => do f <- (if flags then do x <- get a0 i; do y <- get a1 i; Ok (N.lxor x y) else Ok 1%N); set act i f) (repeat 0%N size) = Ok (A ++ repeat 0%N (size - n))).
  { rewrite (@forN_set _ _ (fun i => nth i A 0%N)).
    - do 2 f_equal; [|assert (forall (x : N) m k, skipn k (repeat x m) = repeat x (m - k)) as HR; [|apply HR]; clear; intros x m; induction m as [|m IH]; intros [|k]; cbn [repeat skipn Nat.sub]; try reflexivity; apply IH].
      apply nth_ext with 0%N 0%N; [rewrite map_length, seq_length; congruence|]. rewrite map_length, seq_length. intros k Hk. rewrite (@nth_map_seq' _ _ 0 n k 0%N) by exact Hk. reflexivity.
    - rewrite repeat_length. exact Hs1.
    - intros i l Hi _. unfold flags. destruct (Nat.eqb_spec (length a0) 0) as [E|E]; cbn [negb].
      + apply length_zero_iff_nil in E. cbn [bind]. f_equal. unfold A. rewrite E. cbn [map2 flags_of]. symmetry. apply (@nth_error_nth _ _ i). rewrite nth_error_repeat, (proj2 (Nat.ltb_lt _ _) Hi). reflexivity.
      + destruct HA0 as [E'|E']; [rewrite E' in E; contradiction|]. rewrite (@get_ok _ a0 i 0%N), (@get_ok _ a1 i 0%N) by lia. cbn [bind]. f_equal. unfold A, flags_of.
        destruct (map2 N.lxor a0 a1) eqn:EM; [apply (f_equal (@length N)) in EM; rewrite map2_length in EM; cbn [length] in EM; lia|]. rewrite <- EM. rewrite (@map2_nth _ _ _ N.lxor _ _ i 0%N 0%N) by lia. reflexivity. }
  rewrite HAl. cbn [bind]. rewrite map_map.
  rewrite (@mapM_combine3 (reveal_col n) (fun a b => with_rows a (xor_rows (bRows (cDat a)) (bRows (cDat b)) ++ repeat (repeat 0%N (bCols (cDat a))) (size - n))) (tCols t0) (tCols t1) (fun c => fresh_col size (info_of c))).
  2:{ assert (forall l l', Forall2 same_info l l' -> Forall (col_ok n) l -> Forall (col_ok n) l' -> Forall2 (fun a b => reveal_col n a b (fresh_col size (info_of a)) = Ok (with_rows a (xor_rows (bRows (cDat a)) (bRows (cDat b)) ++ repeat (repeat 0%N (bCols (cDat a))) (size - n)))) l l') as HH; [|apply HH; assumption].
      clear - Hs1. induction 1 as [|a b l l' Hab H IH]; intros Ha Hb; constructor; apply Forall_cons_iff in Ha, Hb; destruct Ha as [Ha1 Ha2], Hb as [Hb1 Hb2]; [|apply IH; assumption].
      apply (@reveal_col_ok n size a b _ Ha1 Hb1 Hab Hs1 eq_refl). }
  cbn [bind].
  destruct rm.
  - (* extract *)
    assert (HT : t_ok size (Tab (A ++ repeat 0%N (size - n)) (map2 (fun a b => with_rows a (xor_rows (bRows (cDat a)) (bRows (cDat b)) ++ repeat (repeat 0%N (bCols (cDat a))) (size - n))) (tCols t0) (tCols t1)))).
    { assert (HC : Forall (col_ok size) (map2 (fun a b => with_rows a (xor_rows (bRows (cDat a)) (bRows (cDat b)) ++ repeat (repeat 0%N (bCols (cDat a))) (size - n))) (tCols t0) (tCols t1))).
      { clear - Hc0 Hc1 Hinf Hs1. induction Hinf as [|a b l l' Hab H IH]; cbn [map2]; [constructor|]. apply Forall_cons_iff in Hc0, Hc1. destruct Hc0 as [Ha1 Ha2], Hc1 as [Hb1 Hb2].
        constructor; [|apply IH; assumption]. destruct Ha1 as ([Ra Ea] & Na & Ba & Ta). destruct Hb1 as ([Rb Eb] & Nb & Bb & _). destruct Hab as (_ & _ & Hbits).
        assert (ECb : bCols (cDat b) = bCols (cDat a)) by (rewrite Eb, <- Bb, <- Hbits, Ba; symmetry; exact Ea).
        rewrite Na in Ra. rewrite Nb, ECb in Rb. destruct (xor_rows_ok Ra Rb) as [LX RX].
        assert (LR : length (xor_rows (bRows (cDat a)) (bRows (cDat b)) ++ repeat (repeat 0%N (bCols (cDat a))) (size - n)) = size) by (rewrite app_length, repeat_length; lia).
        unfold with_rows, col_ok, bm_ok, bm_n. cbn [cDat bRows bCols bBits cBits cType].
        split; [split; [split; [reflexivity|]|exact Ea]|]. 2:{ split; [exact LR|]. split; [exact Ba|exact Ta]. }
        apply Forall_app. split; [exact RX|]. apply Forall_forall. intros x Hx. apply repeat_spec in Hx. subst x. split; [apply repeat_length|].
        apply Forall_forall. intros x Hx. apply repeat_spec in Hx. subst x. reflexivity. }
      split; [|split; [exact HC|right; cbn [tAct]; rewrite app_length, repeat_length; lia]].
      unfold t_rows in Hn0 |- *. cbn [tCols]. destruct (tCols t0) as [|a l]; [cbn [map2]; symmetry; apply Hs2; symmetry; exact Hn0|].
      destruct (tCols t1) as [|b l']; [inversion Hinf|]. cbn [map2] in HC |- *. apply Forall_cons_iff in HC. destruct HC as [(_ & HC & _) _]. exact HC. }
    destruct (Nat.eq_dec size 0) as [Ez|Ez].
    + assert (n = 0) by lia. destruct A; [|cbn [length] in LAn; lia]. rewrite Ez. cbn [Nat.sub repeat app]. unfold extract_active. cbn [tAct length Nat.eqb]. do 2 f_equal.
      clear - Hc0 H. assert (HX : forall l l', Forall (col_ok n) l -> map2 (fun a b => with_rows a (xor_rows (bRows (cDat a)) (bRows (cDat b)) ++ [])) l l' = map2 (fun a b => with_rows a (keep [] (xor_rows (bRows (cDat a)) (bRows (cDat b))))) l l').
      { induction l as [|a l IH]; intros [|b l'] Hl; cbn [map2]; try reflexivity. apply Forall_cons_iff in Hl. destruct Hl as [Ha Hl]. rewrite IH by exact Hl. f_equal. f_equal.
        destruct Ha as (_ & Na & _). unfold bm_n in Na. rewrite H in Na. apply length_zero_iff_nil in Na. rewrite Na. reflexivity. }
      apply HX. exact Hc0.
    + rewrite (@extract_active_ok size _ HT). 2:{ cbn [tAct]. intros E. apply (f_equal (@length N)) in E. rewrite app_length, repeat_length in E. cbn [length] in E. lia. }
      cbn [tAct tCols]. do 2 f_equal.
      assert (HX : forall l l', Forall2 same_info l l' -> Forall (col_ok n) l -> Forall (col_ok n) l' -> map (fun c => with_rows c (keep (A ++ repeat 0%N (size - n)) (bRows (cDat c)))) (map2 (fun a b => with_rows a (xor_rows (bRows (cDat a)) (bRows (cDat b)) ++ repeat (repeat 0%N (bCols (cDat a))) (size - n))) l l') = map2 (fun a b => with_rows a (keep A (xor_rows (bRows (cDat a)) (bRows (cDat b))))) l l'); [|apply HX; assumption].
      clear - LAn. induction 1 as [|a b l l' Hab H IH]; intros Ha Hb; cbn [map2 map]; [reflexivity|]. apply Forall_cons_iff in Ha, Hb. destruct Ha as [Ha1 Ha2], Hb as [Hb1 Hb2]. rewrite IH by assumption. f_equal.
      unfold with_rows at 1. cbn [with_rows cDat bRows bBits bCols cName cType cBits]. unfold with_rows. do 2 f_equal.
      destruct Ha1 as (_ & Na & _). destruct Hb1 as (_ & Nb & _). unfold bm_n in Na, Nb.
      rewrite keep_app, keep_zeros, app_nil_r; [reflexivity|]. unfold xor_rows. rewrite map2_length. lia.
  - rewrite (Hs3 eq_refl), Nat.sub_diag. cbn [repeat]. rewrite app_nil_r. do 2 f_equal.
    assert (HX : forall l l', map2 (fun a b => with_rows a (xor_rows (bRows (cDat a)) (bRows (cDat b)) ++ [])) l l' = map2 (fun a b => with_rows a (xor_rows (bRows (cDat a)) (bRows (cDat b)))) l l'); [|apply HX].
    clear. induction l as [|a l IH]; intros [|b l']; cbn [map2]; try reflexivity. rewrite IH, app_nil_r. reflexivity.
Qed.

(* ---------- share then reveal ---------- *)
Lemma keep_Forall2 A B (R : A -> B -> Prop) fl l l' : Forall2 R l l' -> Forall2 R (keep fl l) (keep fl l').
Proof.
  intros H. revert fl. induction H as [|a b l l' Hab H IH]; intros [|f fl]; try constructor. unfold keep in *. cbn [combine filter fst].
  destruct (f =? 1)%N; cbn [map snd]; [constructor; [exact Hab|]|]; apply IH.
Qed.
Lemma active_keep A n fl (l : list A) : length l = n -> fl = [] \/ length fl = n -> active fl l = keep (flags_of n fl) l.
Proof.
  intros L H. unfold active, flags_of. destruct fl as [|f fl]; [|reflexivity]. rewrite <- L. symmetry. apply keep_ones.
Qed.

Lemma with_rows_ok n m c r : col_ok n c -> rows_ok m (bCols (cDat c)) r -> col_ok m (with_rows c r).
Proof.
  intros (Hbm & Hbn & Hb & Ht & Hst) [L R]. unfold col_ok, bm_ok, bm_n, with_rows. cbn [cDat cName cType cBits bBits bCols bRows].
  split; [split; [split; [reflexivity|exact R]|exact (proj2 Hbm)]|]. split; [exact L|]. split; [exact Hb|]. split; [exact Ht|exact Hst].
Qed.

Definition share_pair (n : nat) (c c0 c1 : column) : Prop :=
  col_ok n c0 /\ col_ok n c1 /\ same_info c0 c /\ same_info c1 c /\ bBits (cDat c0) = bBits (cDat c) /\ bCols (cDat c0) = bCols (cDat c) /\
  Forall2 (trim_rel (bBits (cDat c))) (bRows (cDat c)) (xor_rows (bRows (cDat c0)) (bRows (cDat c1))).

Lemma t_share_ok n t rnds ra : t_ok n t -> Forall2 (fun c r => rows_ok n (bCols (cDat c)) r) (tCols t) rnds -> length ra = length (tAct t) ->
  exists l, t_share t rnds ra = Ok (Tab ra (map fst l), Tab (map2 N.lxor ra (tAct t)) (map snd l)) /\
    Forall2 (fun c p => share_pair n c (fst p) (snd p)) (tCols t) l.
Proof.
  intros (Hn & Hc & HA) Hr La. unfold t_share.
  match goal with |- exists l, bind (mapM ?f _) _ = _ /\ _ => set (F := f) end.
  assert (HM : forall cs rs, Forall2 (fun c r => rows_ok n (bCols (cDat c)) r) cs rs -> Forall (col_ok n) cs ->
    exists l, mapM F (combine cs rs) = Ok l /\ Forall2 (fun c p => share_pair n c (fst p) (snd p)) cs l).
  { induction 1 as [|c r cs rs H1 H IH]; intros Hcs; cbn [combine mapM]; [exists []; split; [reflexivity|constructor]|]. apply Forall_cons_iff in Hcs. destruct Hcs as [Hc1 Hcs].
    destruct (IH Hcs) as (l & El & Hl). destruct Hc1 as (Hbm & Hbn & Hb & Ht & Hst). rewrite <- Hbn in H1. destruct (share_bm_ok Hbm H1) as (r0 & r1 & Es & T0 & T1 & Tx).
    unfold F at 1. cbn [fst snd]. rewrite Es. cbn [bind fst snd]. rewrite El. cbn [bind]. eexists. split; [reflexivity|]. constructor; [|exact Hl]. cbn [fst snd].
    pose proof (trim_rows_ok H1 T0) as R0. pose proof (trim_rows_ok (xor_rows_ok (proj1 Hbm) H1) T1) as R1. rewrite Hbn in R0, R1.
    change (Col (cName c) (cType c) (cBits c) (BM (bBits (cDat c)) (bCols (cDat c)) r0)) with (with_rows c r0).
    change (Col (cName c) (cType c) (cBits c) (BM (bBits (cDat c)) (bCols (cDat c)) r1)) with (with_rows c r1).
    assert (Hcc : col_ok n c) by (unfold col_ok; auto).
    split; [apply (with_rows_ok Hcc R0)|]. split; [apply (with_rows_ok Hcc R1)|]. split; [repeat split|]. split; [repeat split|]. split; [reflexivity|]. split; [reflexivity|]. exact Tx. }
  destruct (HM _ _ Hr Hc) as (l & -> & Hl). exists l. split; [reflexivity|exact Hl].
Qed.

Lemma share_reveal_ok n t rnds ra rm : t_ok n t -> NoDup (map cName (tCols t)) -> Forall (fun f => (f < 2)%N) (tAct t) ->
  Forall2 (fun c r => rows_ok n (bCols (cDat c)) r) (tCols t) rnds -> length ra = length (tAct t) ->
  exists s0 s1 r, t_share t rnds ra = Ok (s0, s1) /\ t_reveal s0 s1 rm = Ok r /\
    tAct r = (if rm then [] else match tAct t with [] => repeat 1%N n | _ => tAct t end) /\
    Forall2 (fun c c' => col_is c c' (if rm then active (tAct t) (bRows (cDat c)) else bRows (cDat c))) (tCols t) (tCols r).
Proof.
  intros HT ND HF Hr La. destruct (t_share_ok HT Hr La) as (l & Es & Hl). pose proof HT as (Hn & Hc & HA).
  assert (EA : map2 N.lxor ra (map2 N.lxor ra (tAct t)) = tAct t).
  { clear - La. revert ra La. induction (tAct t) as [|a l IH]; intros [|r ra] L; cbn [length map2] in *; try lia; try reflexivity. rewrite IH by lia. rewrite <- N.lxor_assoc, N.lxor_nilpotent, N.lxor_0_l. reflexivity. }
  assert (HT0 : t_ok n (Tab ra (map fst l)) /\ t_ok n (Tab (map2 N.lxor ra (tAct t)) (map snd l)) /\ Forall2 same_info (map fst l) (map snd l) /\ map cName (map fst l) = map cName (tCols t)).
  { assert (HC : Forall (col_ok n) (map fst l) /\ Forall (col_ok n) (map snd l) /\ Forall2 same_info (map fst l) (map snd l) /\ map cName (map fst l) = map cName (tCols t)).
    { clear - Hl. induction Hl as [|c p cs l (H1 & H2 & H3 & H4 & _) H IH]; [repeat constructor|]. destruct IH as (I1 & I2 & I3 & I4). cbn [map]. split; [constructor; assumption|]. split; [constructor; assumption|].
      split; [constructor; [|exact I3]|rewrite I4; f_equal; apply H3]. destruct H3 as (a1 & a2 & a3), H4 as (b1 & b2 & b3). repeat split; congruence. }
    destruct HC as (C0 & C1 & C2 & C3). split; [|split; [|split; [exact C2|exact C3]]].
    - split; [|split; [exact C0|cbn [tAct]; destruct HA as [HA|HA]; [left; rewrite HA in La; destruct ra; [reflexivity|discriminate]|right; lia]]].
      rewrite <- Hn. unfold t_rows. cbn [tCols]. destruct (tCols t) as [|c cs]; inversion Hl; subst; [reflexivity|]. cbn [map]. apply Forall_cons_iff in Hc. destruct Hc as [(_ & Hc' & _) _].
      cbn [map] in C0. apply Forall_cons_iff in C0. destruct C0 as [(_ & C0 & _) _]. congruence.
    - split; [|split; [exact C1|cbn [tAct]; destruct HA as [HA|HA]; [left; rewrite HA; destruct ra; reflexivity|right; rewrite map2_length; lia]]].
      rewrite <- Hn. unfold t_rows. cbn [tCols]. destruct (tCols t) as [|c cs]; inversion Hl; subst; [reflexivity|]. cbn [map]. apply Forall_cons_iff in Hc. destruct Hc as [(_ & Hc' & _) _].
      cbn [map] in C1. apply Forall_cons_iff in C1. destruct C1 as [(_ & C1 & _) _]. congruence. }
  destruct HT0 as (T0 & T1 & HI & HN).
  eexists _, _, _. split; [exact Es|]. split; [apply (@t_reveal_ok n _ _ rm T0 T1 HI)|].
  - cbn [tCols]. rewrite HN. exact ND.
  - cbn [tAct]. rewrite map2_length. lia.
  - intros _. cbn [tAct]. rewrite EA. exact HF.
  - cbn [tAct tCols]. rewrite EA. change (match tAct t with [] => repeat 1%N n | _ => tAct t end) with (flags_of n (tAct t)).
    split; [destruct rm; reflexivity|]. destruct rm; cbn [tCols].
    + clear - Hl Hc HA. induction Hl as [|c p cs l HP H IH]; cbn [map map2]; [constructor|]. apply Forall_cons_iff in Hc. destruct Hc as [Hc1 Hc]. constructor; [|apply IH; exact Hc].
      destruct HP as (K0 & K1 & (I1 & I2 & I3) & I4 & I5 & I6 & HX). unfold col_is, with_rows. cbn [cName cType cBits cDat bBits bCols bRows]. repeat (split; [assumption|]).
      destruct Hc1 as (_ & Hbn & _). rewrite (@active_keep _ n) by (exact Hbn || exact HA). apply keep_Forall2. exact HX.
    + clear - Hl Hc HA. induction Hl as [|c p cs l HP H IH]; cbn [map map2]; [constructor|]. apply Forall_cons_iff in Hc. destruct Hc as [Hc1 Hc]. constructor; [|apply IH; exact Hc].
      destruct HP as (K0 & K1 & (I1 & I2 & I3) & I4 & I5 & I6 & HX). unfold col_is, with_rows. cbn [cName cType cBits cDat bBits bCols bRows]. repeat (split; [assumption|]). exact HX.
Qed.

(* ---------- operator== of columns and tables ---------- *)
Lemma col_eq_ok n m a b : col_ok n a -> col_ok m b ->
  exists e, col_eq a b = Ok e /\ (e = true <-> cName a = cName b /\ cBits a = cBits b /\ Forall2 (agree (cBits a)) (bRows (cDat a)) (bRows (cDat b))).
Proof.
  intros (Ha & _ & Ea & _) (Hb & _ & Eb & _). unfold col_eq. destruct (Nat.eqb_spec (cBits a) (cBits b)) as [E|E]; cbn [negb].
  2:{ exists false. split; [reflexivity|]. split; [discriminate|]. intros (_ & H & _). contradiction. }
  destruct (bytes_eq (cName a) (cName b)) eqn:EN; cbn [negb].
  2:{ exists false. split; [reflexivity|]. split; [discriminate|]. intros (H & _). apply bytes_eq_iff in H. congruence. }
  apply bytes_eq_iff in EN. destruct Ha as [Ra Ca], Hb as [Rb Cb].
  destruct (@bm_eq_ok (cDat a) (cDat b) Ra Rb) as (e & -> & He).
  { rewrite Ca. pose proof (div_ceil_le (bBits (cDat a))). lia. } { rewrite Cb. pose proof (div_ceil_le (bBits (cDat b))). lia. }
  exists e. split; [reflexivity|]. rewrite He. rewrite Ea in *. rewrite Eb in *. clear -EN. tauto.
Qed.

Lemma cols_eq_ok n m a : forall b, Forall (col_ok n) a -> Forall (col_ok m) b -> length a = length b ->
  exists e, cols_eq a b = Ok e /\
    (e = true <-> Forall2 (fun x y => cName x = cName y /\ cBits x = cBits y /\ Forall2 (agree (cBits x)) (bRows (cDat x)) (bRows (cDat y))) a b).
Proof.
  induction a as [|x a IH]; intros [|y b] Ha Hb HL; cbn in HL; try discriminate HL.
  - exists true. split; [reflexivity|]. split; [constructor|reflexivity].
  - cbn [cols_eq]. destruct (col_eq_ok (Forall_inv Ha) (Forall_inv Hb)) as (e & -> & He). cbn [bind]. destruct e.
    + destruct (IH b (Forall_inv_tail Ha) (Forall_inv_tail Hb) ltac:(lia)) as (e' & -> & He'). exists e'. split; [reflexivity|].
      rewrite He'. split; [intros H; constructor; [apply He; reflexivity|exact H]|]. intros H. inversion H; assumption.
    + exists false. split; [reflexivity|]. split; [discriminate|]. intros H. inversion H as [|u v l l2 Q1 Q2]. subst. apply He in Q1. discriminate Q1.
Qed.

Lemma t_eq_ok n m a b : t_ok n a -> t_ok m b ->
  exists e, t_eq a b = Ok e /\
    (e = true <-> n = m /\ Forall2 (fun x y => same_info x y /\ Forall2 (agree (cBits x)) (bRows (cDat x)) (bRows (cDat y))) (tCols a) (tCols b)).
Proof.
  intros (Hn & Ha & _) (Hm & Hb & _). unfold t_eq. rewrite (t_info_ok Ha), (t_info_ok Hb). cbn [bind].
  destruct (infos_eq _ _) eqn:EI; cbn [negb].
  2:{ exists false. split; [reflexivity|]. split; [discriminate|]. intros [_ H]. exfalso.
      assert (E : map info_of (tCols a) = map info_of (tCols b)).
      { clear -H. induction H as [|x y l l' [(H1 & H2 & H3) _] _ IH]; [reflexivity|]. cbn [map]. unfold info_of at 1 3. rewrite IH, H1, H2, H3. reflexivity. }
      rewrite E, infos_eq_refl in EI. discriminate EI. }
  apply infos_eq_iff in EI. rewrite Hn, Hm.
  assert (HL : length (tCols a) = length (tCols b)) by (apply (f_equal (@length _)) in EI; rewrite !map_length in EI; exact EI).
  destruct (Nat.eqb_spec n m) as [E|E]; cbn [negb].
  2:{ exists false. split; [reflexivity|]. split; [discriminate|]. intros [H _]. contradiction. }
  destruct (cols_eq_ok Ha Hb HL) as (e & -> & He). exists e. split; [reflexivity|]. rewrite He. split.
  - intros H. split; [exact E|]. clear -H EI. revert EI. induction H as [|x y l l' (H1 & H2 & H3) _ IH]; intros EI; [constructor|].
    cbn [map] in EI. unfold info_of at 1 3 in EI. injection EI as E1 E2 E3 E4. constructor; [|apply IH; exact E4]. split; [repeat split; assumption|exact H3].
  - intros [_ H]. clear -H. induction H as [|x y l l' [(H1 & H2 & H3) H4] _ IH]; constructor; auto.
Qed.
