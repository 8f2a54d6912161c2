(* Proof that all messages of the receiver in a whole run of the PRF protocol hide its input. *)
From Coq Require Import Btauto.
From Verif Require Import Base Words Mod3Model Mod3Spec Mod3Proofs ConvModel ConvSpec ConvProofs KeyMultModel KeyMultSpec KeyMultProofs
  F3CodeModel F3CodeSpec F3CodeProofs PrfModel PrfSpec PrfProofs PrfProtoProofs PrivSpec ConvPrivacy Mod2Privacy PrfViewModel RowPrivacy PrfPrivacy.

(* ---------------- one row ---------------- *)
Definition plain (s : srow) (t : list N * list N) : list N :=
  match row_plain s (fst t) (snd t) with Ok m => fst m ++ snd m | _ => [] end.

Definition rflip (cols : nat) (k : bool) (s s' : srow) (tp : (list N * list N) * list N) : (list N * list N) * list N :=
  if k then (move cols s s' (fst tp), snd tp) else (fst tp, xorl (xorl (plain s (fst tp)) (plain s' (fst tp))) (snd tp)).

Lemma plain_eq cols s t : row_in cols s -> row_blk s -> trits_ok cols t ->
  length (plain s t) = 2 * cols /\ Forall blk (plain s t) /\
  forall pad, km_row_msg s (fst t) (snd t) pad = Ok (xorl (plain s t) pad).
Proof.
  intros I B Ht. destruct (row_plain_ok I Ht) as (m & E & _). destruct (plain_blk I B Ht E) as [L Bm].
  unfold plain. rewrite E. split; [exact L|]. split; [exact Bm|]. intros pad. rewrite msg_plain, E. reflexivity.
Qed.

Lemma plain_move cols s s' t : srKey s' = srKey s -> row_in cols s -> row_in cols s' -> row_blk s -> row_blk s' -> trits_ok cols t ->
  plain s' (move cols s s' t) = plain s t.
Proof.
  intros K I I' B B' Ht.
  destruct (row_plain_ok I Ht) as (m & E & L1 & L0 & H). destruct (row_plain_ok I' (move_ok cols s s' t)) as (m' & E' & L1' & L0' & H').
  unfold plain. rewrite E, E'. assert (m' = m) as ->; [|reflexivity]. apply (@trits_ext cols); try assumption.
  - intros c l Hc. apply (H' c l Hc).
  - intros c l Hc. apply (H c l Hc).
  - intros c l Hc. rewrite (proj2 (H c l Hc)), (proj2 (H' c l Hc)), (move_trit l I I' B B' Ht Hc), K.
    destruct Ht as (_ & _ & _ & _ & V). change (forall c l, c < cols -> tvalid (nthN (fst t) c) (nthN (snd t) c) l) in V. pose proof (trit_lt (V c l Hc)) as L.
    pose proof (row_val_lt c l I) as R. pose proof (row_val_lt c l I') as R'.
    generalize dependent (trit (nthN (fst t) c) (nthN (snd t) c) l). generalize dependent (row_val s c l). generalize dependent (row_val s' c l).
    clear. intros a Ha b Hb d Hd. destruct (srKey s);
      (destruct a as [|[|[|]]]; [| | |lia]); (destruct b as [|[|[|]]]; [| | |lia]); (destruct d as [|[|[|]]]; [| | |lia]); reflexivity.
Qed.

Lemma xorl_comm a b : xorl a b = xorl b a.
Proof. unfold xorl. revert b. induction a as [|x a IH]; intros [|y b]; cbn; try reflexivity. rewrite IH, N.lxor_comm. reflexivity. Qed.

Lemma rflip_ok cols k kn s s' tp : srKey s' = srKey s -> row_in cols s -> row_in cols s' -> row_blk s -> row_blk s' -> tp_ok cols k kn tp ->
  tp_ok cols k kn (rflip cols k s s' tp) /\ rflip cols k s' s (rflip cols k s s' tp) = tp /\
  xorl (plain s' (fst (rflip cols k s s' tp))) (snd (rflip cols k s s' tp)) = xorl (plain s (fst tp)) (snd tp).
Proof.
  intros K I I' B B' (Ht & [Lp Bp] & Hk). unfold rflip. destruct k.
  - cbn [fst snd]. split; [|split].
    + split; [apply move_ok|]. split; [split; assumption|exact Hk].
    + rewrite move_back by assumption. destruct tp; reflexivity.
    + rewrite plain_move by assumption. reflexivity.
  - cbn [fst snd]. destruct (plain_eq I B Ht) as (L & Bm & _). destruct (plain_eq I' B' Ht) as (L' & Bm' & _).
    assert (Ld : length (xorl (plain s (fst tp)) (plain s' (fst tp))) = 2 * cols) by (rewrite xorl_length; lia).
    split; [|split].
    + split; [exact Ht|]. split; [|exact Hk]. split; [cbn [snd]; rewrite xorl_length; lia|]. cbn [snd]. apply xorl_blk; [apply xorl_blk; assumption|exact Bp].
    + rewrite (xorl_comm (plain s' (fst tp))). rewrite xorl_xorl by lia. destruct tp; reflexivity.
    + apply xorl_swap; lia.
Qed.

Lemma row_share_ok cols s t : row_in cols s -> row_blk s -> trits_ok cols t ->
  exists x, km_row_share s (fst t) (snd t) = Ok x /\ length (fst x) = cols /\ length (snd x) = cols /\
    (forall c l, c < cols -> tvalid (nthN (fst x) c) (nthN (snd x) c) l) /\ hi0 cols x.
Proof.
  intros Hin B (Lm & Ll & B1 & B0 & HV). change (forall c l, c < cols -> tvalid (nthN (fst t) c) (nthN (snd t) c) l) in HV.
  destruct t as [ms ls]. cbn [fst snd] in *. pose proof (fun c l => @row_val_hi cols s c l Hin B) as Hhi. destruct Hin as [Hx Hm]. unfold km_row_share.
  destruct (srKey s).
  - unfold row_val in Hhi. destruct (srMsb s) as [xm|].
    + destruct Hm as [Hxm HVx]. destruct (mod3AddIn_span_spec Ll Lm Hxm Hx) as (x & E & L1 & L0 & Hr).
      assert (G : forall c l, c < cols -> tvalid (nthN (fst x) c) (nthN (snd x) c) l /\
        trit (nthN (fst x) c) (nthN (snd x) c) l = (trit (nthN ls c) (nthN ms c) l + trit (nthN xm c) (nthN (srLsb s) c) l) mod 3).
      { intros c l Hc. destruct (Hr c Hc) as [G1 G0]. apply nth_error_nthN in G1, G0. rewrite G1, G0.
        destruct (trit_swap (HV c l Hc)) as [Hv' _]. exact (mod3Add_lane Hv' (HVx c l)). }
      exists x. split; [exact E|]. split; [exact L1|]. split; [exact L0|]. split; [intros c l Hc; apply (G c l Hc)|].
      intros c l Hc Hl. rewrite (proj2 (G c l Hc)), (Hhi c l Hl). unfold trit. rewrite (nthN_blk c B1 Hl), (nthN_blk c B0 Hl). reflexivity.
    + destruct (mod3AddIn1_span_spec Ll Lm Hx) as (x & E & L1 & L0 & Hr).
      assert (G : forall c l, c < cols -> tvalid (nthN (fst x) c) (nthN (snd x) c) l /\
        trit (nthN (fst x) c) (nthN (snd x) c) l = (trit (nthN ls c) (nthN ms c) l + b2n (N.testbit (nthN (srLsb s) c) l)) mod 3).
      { intros c l Hc. destruct (Hr c Hc) as [G1 G0]. apply nth_error_nthN in G1, G0. rewrite G1, G0.
        destruct (trit_swap (HV c l Hc)) as [Hv' _]. exact (mod3AddIn1_lane (nthN (srLsb s) c) Hv'). }
      exists x. split; [exact E|]. split; [exact L1|]. split; [exact L0|]. split; [intros c l Hc; apply (G c l Hc)|].
      intros c l Hc Hl. rewrite (proj2 (G c l Hc)), (Hhi c l Hl). unfold trit. rewrite (nthN_blk c B1 Hl), (nthN_blk c B0 Hl). reflexivity.
  - exists (ls, ms). cbn [fst snd]. split; [reflexivity|]. split; [exact Ll|]. split; [exact Lm|].
    split; [intros c l Hc; apply (trit_swap (HV c l Hc))|]. intros c l Hc Hl. cbn [fst snd]. unfold trit. rewrite (nthN_blk c B1 Hl), (nthN_blk c B0 Hl). reflexivity.
Qed.

(* ---------------- all rows ---------------- *)
Definition d_tp : (list N * list N) * list N := (([], []), []).
Definition d_row : srow := SRow (Prng (fun _ => 0%N) 0) (Prng (fun _ => 0%N) 0) false [] None.

Lemma mapM_total A B (f : A -> outcome B) (Q : A -> B -> Prop) : forall l, (forall a, In a l -> exists b, f a = Ok b /\ Q a b) ->
  exists o, mapM f l = Ok o /\ Forall2 Q l o.
Proof.
  induction l as [|a l IH]; intros H; cbn [mapM]; [exists []; split; [reflexivity|constructor]|].
  destruct (H a (or_introl eq_refl)) as (b & E & Qb). rewrite E. cbn [bind].
  destruct IH as (o & Eo & F); [intros a' Ha'; apply H; right; exact Ha'|]. rewrite Eo. cbn [bind]. exists (b :: o). split; [reflexivity|]. constructor; assumption.
Qed.

Lemma Forall2_nth A B (R : A -> B -> Prop) a b da db : Forall2 R a b -> forall i, i < length a -> R (nth i a da) (nth i b db).
Proof. intros H. induction H as [|x y a b Hxy H IH]; intros [|i] Hi; cbn in *; try lia; [exact Hxy|apply IH; lia]. Qed.

Definition rows_ok (cols : nat) (rows : list srow) : Prop :=
  length rows = KeySize /\ forall i, i < KeySize -> row_in cols (nth i rows d_row) /\ row_blk (nth i rows d_row).

Definition msgs_of (rows : list srow) (tps : list ((list N * list N) * list N)) : list (list N) :=
  map (fun i => xorl (plain (nth i rows d_row) (fst (nth i tps d_tp))) (snd (nth i tps d_tp))) (seq 0 KeySize).

Lemma ideal_ok cols rows tps : rows_ok cols rows -> length tps = KeySize -> (forall i, i < KeySize -> trits_ok cols (fst (nth i tps d_tp))) ->
  exists xs, km_ideal rows tps = Ok (groups (KeySize / km_step) (msgs_of rows tps), xs) /\ length xs = KeySize /\
    forall i, i < KeySize -> let x := nth i xs ([], []) in length (fst x) = cols /\ length (snd x) = cols /\
      (forall c l, c < cols -> tvalid (nthN (fst x) c) (nthN (snd x) c) l) /\ hi0 cols x.
Proof.
  intros [Lr Hr] Lt Ht. unfold km_ideal.
  match goal with |- context [mapM ?F (combine rows tps)] => destruct (@mapM_total _ _ F (fun q o =>
     fst o = xorl (plain (fst q) (fst (snd q))) (snd (snd q)) /\ length (fst (snd o)) = cols /\ length (snd (snd o)) = cols /\
      (forall c l, c < cols -> tvalid (nthN (fst (snd o)) c) (nthN (snd (snd o)) c) l) /\ hi0 cols (snd o)) (combine rows tps)) as (o & E & F2) end.
  { intros q Hq. destruct (In_nth _ _ (d_row, d_tp) Hq) as (i & Hi & E). rewrite combine_length, Lr, Lt, Nat.min_id in Hi.
    rewrite combine_nth in E by lia. subst q. cbn [fst snd]. destruct (Hr i Hi) as [I B]. specialize (Ht i Hi).
    destruct (plain_eq I B Ht) as (_ & _ & Em). rewrite Em. cbn [bind].
    destruct (row_share_ok I B Ht) as (x & Ex & Hx). rewrite Ex. cbn [bind]. eexists. split; [reflexivity|]. cbn [fst snd]. split; [reflexivity|exact Hx]. }
  rewrite E. cbn [bind]. pose proof (Forall2_len F2) as Lo. rewrite combine_length, Lr, Lt, Nat.min_id in Lo.
  exists (map snd o). split; [|split; [rewrite map_length; lia|]].
  - do 3 f_equal. apply (nth_ext _ _ [] []); [unfold msgs_of; rewrite !map_length, seq_length; lia|].
    intros i Hi. rewrite map_length, <- Lo in Hi. unfold msgs_of. rewrite nth_map_seq by exact Hi.
    pose proof (Forall2_nth (d_row, d_tp) ([], ([], [])) F2) as G. specialize (G i). rewrite combine_length, Lr, Lt, Nat.min_id in G. specialize (G Hi).
    rewrite combine_nth in G by lia. cbn [fst snd] in G. change (@nil N) with (fst (@nil N, (@nil N, @nil N))) at 1. rewrite map_nth. apply G.
  - intros i Hi. pose proof (Forall2_nth (d_row, d_tp) ([], ([], [])) F2) as G. specialize (G i). rewrite combine_length, Lr, Lt, Nat.min_id in G. specialize (G Hi).
    rewrite combine_nth in G by lia. cbn [fst snd] in G. cbv zeta. change (@nil N, @nil N) with (snd (@nil N, (@nil N, @nil N))). rewrite map_nth. apply G.
Qed.

(* the shares as matrices, encoded *)
Lemma ideal_encode p M cols xs : perms_ok KeySize (prfA p) -> f3_getMatrix KeySize MidSize (prfA p) = Ok M ->
  length xs = KeySize -> (forall i, i < KeySize -> let x := nth i xs ([], []) in length (fst x) = cols /\ length (snd x) = cols /\
      (forall c l, c < cols -> tvalid (nthN (fst x) c) (nthN (snd x) c) l) /\ hi0 cols x) ->
  exists u, prf_encodeA p cols (map fst xs) (map snd xs) = Ok u /\ length (flat2 u) = MidSize * cols /\ Forall blk2 (flat2 u).
Proof.
  intros HP HM Lx H.
  assert (N1 : forall r c, cell (map fst xs) r c = nthN (fst (nth r xs ([], []))) c).
  { intros r c. unfold cell, nthN. f_equal. change (@nil N) with (fst (@nil N, @nil N)) at 1. apply map_nth. }
  assert (N0 : forall r c, cell (map snd xs) r c = nthN (snd (nth r xs ([], []))) c).
  { intros r c. unfold cell, nthN. f_equal. change (@nil N) with (snd (@nil N, @nil N)) at 1. apply map_nth. }
  assert (D1 : dims (map fst xs) KeySize cols).
  { split; [rewrite map_length; exact Lx|]. intros row Hrow. apply in_map_iff in Hrow. destruct Hrow as (x & <- & Hx).
    destruct (In_nth _ _ ([], []) Hx) as (i & Hi & <-). apply H. lia. }
  assert (D0 : dims (map snd xs) KeySize cols).
  { split; [rewrite map_length; exact Lx|]. intros row Hrow. apply in_map_iff in Hrow. destruct Hrow as (x & <- & Hx).
    destruct (In_nth _ _ ([], []) Hx) as (i & Hi & <-). apply H. lia. }
  apply (encodeA_blk HP HM D1 D0).
  - apply (all_valid_in D1 D0). intros r c l Hr Hc. rewrite N1, N0. apply (H r Hr). exact Hc.
  - intros r c l Hr Hc Hl. rewrite N1, N0. destruct (H r Hr) as (_ & _ & _ & Hh). exact (Hh c l Hc Hl).
Qed.

(* ---------------- the receiver's correlations of the mod 2 step ---------------- *)
Definition good_u (n : nat) (u : list (N * N)) : Prop := length u = n /\ Forall blk2 u.

Definition f4_mv (ss : list (list f4_s)) (u u' : list (N * N)) : list (list f4_r) -> list (list f4_r) :=
  segmap (fun i => f4_rflip (nth i (concat ss) fz0) (nth i u z2) (nth i u' z2)) 0.
Definition ole_mv (ss : list (list ole)) (u u' : list (N * N)) : list (list ole) -> list (list ole) :=
  segmap (fun i => ole_flip (nth i (concat ss) o0) (N.lxor (nth i (inter2 u) 0%N) (nth i (inter2 u') 0%N))) 0.

Lemma f4_mv_ok n ss u u' rs : Forall (Forall blk_fs) ss -> good_u n u -> good_u n u' -> fits (fun r s => f4_ot s r) blk_fr ss rs ->
  fits (fun r s => f4_ot s r) blk_fr ss (f4_mv ss u u' rs) /\ f4_mv ss u' u (f4_mv ss u u' rs) = rs /\
  f4_recv_derand (f4_mv ss u u' rs) u' = f4_recv_derand rs u.
Proof.
  intros Bs [L Bx] [L' Bx'] Hf. destruct Hf as [S1 S2] eqn:EF.
  assert (D : blk_fs fz0) by exact (conj blk0 (conj blk0 (conj blk0 blk0))). unfold f4_mv. split; [|split].
  - apply (segmap_rel S1 S2 (bs := fun i => nth i (concat ss) fz0)); [intros; apply nth_error_d; assumption|].
    intros i a Ha Pa. destruct (f4_rflip_ok (nth_concat_P i D Bs) (nth_blk2 i Bx) (nth_blk2 i Bx') Ha Pa) as (Q1 & Q2 & _). split; assumption.
  - apply (segmap_inv S1 S2 (bs := fun i => nth i (concat ss) fz0)); [intros; apply nth_error_d; assumption|].
    intros i a Ha Pa. apply (f4_rflip_ok (nth_concat_P i D Bs) (nth_blk2 i Bx) (nth_blk2 i Bx') Ha Pa).
  - apply f4_derand_view; [congruence|]. intros i _ Hi. destruct (fits_nth fr0 fz0 Hf Hi) as [Ha Pa].
    apply (f4_rflip_ok (nth_concat_P i D Bs) (nth_blk2 i Bx) (nth_blk2 i Bx') Ha Pa).
Qed.

Lemma ole_mv_ok n ss u u' rs : Forall (Forall blk_ole) ss -> good_u n u -> good_u n u' -> fits bin_ole blk_ole ss rs ->
  fits bin_ole blk_ole ss (ole_mv ss u u' rs) /\ ole_mv ss u' u (ole_mv ss u u' rs) = rs /\
  ole_recv_derand (ole_mv ss u u' rs) u' = ole_recv_derand rs u.
Proof.
  intros Bs [L Bx] [L' Bx'] [S1 S2].
  assert (D : blk_ole o0) by exact (conj blk0 blk0). unfold ole_mv.
  assert (Be : forall i, blk (N.lxor (nth i (inter2 u) 0%N) (nth i (inter2 u') 0%N))) by (intros i; apply blk_lxor; apply nth_blk, inter2_blk; assumption).
  split; [|split].
  - apply (segmap_rel S1 S2 (bs := fun i => nth i (concat ss) o0)); [intros; apply nth_error_d; assumption|].
    intros i a Ha Pa. destruct (ole_flip_ok (nth_concat_P i D Bs) (Be i) Ha Pa) as (Q1 & Q2 & _). split; assumption.
  - apply (segmap_inv S1 S2 (bs := fun i => nth i (concat ss) o0)); [intros; apply nth_error_d; assumption|].
    intros i a Ha Pa. rewrite (N.lxor_comm (nth i (inter2 u') 0%N)). apply (ole_flip_ok (nth_concat_P i D Bs) (Be i) Ha Pa).
  - apply ole_derand_view; [congruence|]. intros i _ _. unfold ole_derand, ole_flip. cbn [fst snd Nat.add].
    destruct (inter2_nth u i) as [E1 E2], (inter2_nth u' i) as [E3 E4]. rewrite E1, E2, E3, E4. f_equal; apply N.bits_inj; intros j; bits_rw; btauto.
Qed.

(* ---------------- composition ---------------- *)
Lemma hides_dep X R1 R2 W V (ok1 : R1 -> Prop) (ok2 : R2 -> Prop) (good : W -> Prop) (view : X -> R1 * R2 -> V) x x'
    (f1 g1 : R1 -> R1) (U U' : R1 -> W) (F : W -> W -> R2 -> R2) :
  (forall r, ok1 r -> ok1 (f1 r) /\ g1 (f1 r) = r) -> (forall r, ok1 r -> ok1 (g1 r) /\ f1 (g1 r) = r) ->
  (forall u u' r, good u -> good u' -> ok2 r -> ok2 (F u u' r) /\ F u' u (F u u' r) = r) ->
  (forall r, ok1 r -> good (U r) /\ good (U' r)) ->
  (forall r1 r2, ok1 r1 -> ok2 r2 -> view x' (f1 r1, F (U r1) (U' (f1 r1)) r2) = view x (r1, r2)) ->
  hides (fun r => ok1 (fst r) /\ ok2 (snd r)) view x x'.
Proof.
  intros Hf Hg HF HU HV.
  exists (fun r => (f1 (fst r), F (U (fst r)) (U' (f1 (fst r))) (snd r))), (fun r => (g1 (fst r), F (U' (fst r)) (U (g1 (fst r))) (snd r))).
  split; intros [r1 r2] [O1 O2]; cbn [fst snd] in *.
  - destruct (Hf r1 O1) as [A1 A2]. destruct (HU r1 O1) as [G1 _]. destruct (HU (f1 r1) A1) as [_ G2].
    destruct (HF _ _ _ G1 G2 O2) as [B1 B2]. split; [split; assumption|]. split; [rewrite A2, B2; reflexivity|]. apply HV; assumption.
  - destruct (Hg r1 O1) as [A1 A2]. destruct (HU r1 O1) as [_ G1]. destruct (HU (g1 r1) A1) as [G2 _].
    destruct (HF _ _ _ G1 G2 O2) as [B1 B2]. split; [split; assumption|]. rewrite A2, B2. reflexivity.
Qed.

Definition tflip (cols : nat) (key : list bool) (rows rows' : list srow) : list ((list N * list N) * list N) -> list ((list N * list N) * list N) :=
  imap (fun i => rflip cols (nth i key false) (nth i rows d_row) (nth i rows' d_row)) 0.

Lemma imap_nth A (h : nat -> A -> A) d : forall l k i, i < length l -> nth i (imap h k l) d = h (k + i) (nth i l d).
Proof.
  induction l as [|a l IH]; intros k [|i] Hi; cbn [length] in Hi; try lia; cbn [imap nth]; [rewrite Nat.add_0_r; reflexivity|].
  rewrite IH by lia. f_equal. lia.
Qed.

Lemma tflip_ok cols key known rows rows' tps : rows_ok cols rows -> rows_ok cols rows' ->
  (forall i, i < KeySize -> srKey (nth i rows' d_row) = srKey (nth i rows d_row)) -> tps_ok cols key known tps ->
  tps_ok cols key known (tflip cols key rows rows' tps) /\ tflip cols key rows' rows (tflip cols key rows rows' tps) = tps /\
  msgs_of rows' (tflip cols key rows rows' tps) = msgs_of rows tps.
Proof.
  intros [Lr Hr] [Lr' Hr'] K [Lt Ht].
  assert (Q : forall i, i < KeySize -> let tp := nth i tps d_tp in let h := rflip cols (nth i key false) (nth i rows d_row) (nth i rows' d_row) in
    nth i (tflip cols key rows rows' tps) d_tp = h tp /\ tp_ok cols (nth i key false) (nth i known d_tp) (h tp) /\
    rflip cols (nth i key false) (nth i rows' d_row) (nth i rows d_row) (h tp) = tp /\
    xorl (plain (nth i rows' d_row) (fst (h tp))) (snd (h tp)) = xorl (plain (nth i rows d_row) (fst tp)) (snd tp)).
  { intros i Hi tp h. split; [unfold tflip; rewrite imap_nth by lia; reflexivity|]. destruct (Hr i Hi) as [I B]. destruct (Hr' i Hi) as [I' B'].
    exact (rflip_ok (K i Hi) I I' B B' (Ht i Hi)). }
  assert (LF : length (tflip cols key rows rows' tps) = KeySize) by (unfold tflip; rewrite imap_length; exact Lt).
  split; [|split].
  - split; [exact LF|]. intros i Hi. destruct (Q i Hi) as (E & T & _). change (([], []), []) with d_tp. rewrite E. exact T.
  - apply (nth_ext _ _ d_tp d_tp); [unfold tflip; rewrite !imap_length; reflexivity|]. intros i Hi. unfold tflip in Hi. rewrite !imap_length in Hi. rewrite Lt in Hi.
    destruct (Q i Hi) as (E & _ & I & _). unfold tflip at 1. rewrite imap_nth by lia. cbn [Nat.add]. rewrite E. exact I.
  - unfold msgs_of. apply map_ext_in. intros i Hi. apply in_seq in Hi. destruct (Q i ltac:(lia)) as (E & _ & _ & M). rewrite E. exact M.
Qed.

Lemma km_rows_nth ots share xl i : i < KeySize -> nth i (km_rows ots share xl []) d_row =
  SRow (fst (nth i ots (Prng (fun _ => 0%N) 0, Prng (fun _ => 0%N) 0))) (snd (nth i ots (Prng (fun _ => 0%N) 0, Prng (fun _ => 0%N) 0)))
       (match share with Some k => nth i k false | None => false end) (nth i xl []) None.
Proof. intros Hi. unfold km_rows. rewrite nth_map_seq by exact Hi. reflexivity. Qed.

Lemma expand_rows G B A p n x ots share : length G = 3 -> (forall g, In g G -> length g = 128) -> perms_ok KeySize A ->
  prf_make G B A = Ok p -> length x = n ->
  exists e, expandInputLinear p x (blocks128 n) (mtx KeySize (blocks128 n)) = Ok e /\ rows_ok (blocks128 n) (km_rows ots share e []) /\ prfA p = A.
Proof.
  intros HG Hg HA Hp Hx. destruct (prf_make_ok B HG Hg HA) as (p' & Ep & Hok & EA). rewrite Hp in Ep. injection Ep as <-.
  destruct (@expand_ok p G B x (blocks128 n) (mtx KeySize (blocks128 n)) Hok) as (e & E & De & He); [subst n; reflexivity|apply dims_mtx|].
  exists e. split; [exact E|]. split; [|exact EA]. split; [unfold km_rows; rewrite map_length, seq_length; reflexivity|].
  intros i Hi. rewrite km_rows_nth by exact Hi. destruct De as [L D].
  assert (Li : length (nth i e []) = blocks128 n) by (apply D, nth_In; rewrite L; exact Hi).
  split; [split; [exact Li|exact I]|]. split; [|exact I]. cbn [srLsb]. apply Forall_forall. intros w Hw.
  destruct (In_nth _ _ 0%N Hw) as (c & Hc & <-). intros l Hl. change (nth c (nth i e []) 0%N) with (cell e i c). rewrite He by (try assumption; lia).
  rewrite <- (N2Nat.id l), e_cell_bit. destruct (Nat.ltb_spec (N.to_nat l) 128); [lia|reflexivity].
Qed.

Definition u_of (p : prf) (cols : nat) (rows : list srow) (tps : list ((list N * list N) * list N)) : list (N * N) :=
  match km_ideal rows tps with
  | Ok rk => match prf_encodeA p cols (map fst (snd rk)) (map snd (snd rk)) with Ok u => flat2 u | _ => [] end
  | _ => []
  end.

Lemma ideal_run p M cols rows key known tps : perms_ok KeySize (prfA p) -> f3_getMatrix KeySize MidSize (prfA p) = Ok M ->
  rows_ok cols rows -> tps_ok cols key known tps -> good_u (MidSize * cols) (u_of p cols rows tps) /\
  forall A (k : list (list N) -> list (N * N) -> outcome A),
    (do rk <- km_ideal rows tps; do ru <- prf_encodeA p cols (map fst (snd rk)) (map snd (snd rk)); k (fst rk) (flat2 ru))
    = k (groups (KeySize / km_step) (msgs_of rows tps)) (u_of p cols rows tps).
Proof.
  intros HP HM HR [Lt Ht]. destruct (@ideal_ok cols rows tps HR Lt) as (xs & E & Lx & Hx); [intros i Hi; apply (Ht i Hi)|].
  destruct (ideal_encode HP HM Lx Hx) as (u & Eu & Lu & Bu). unfold u_of. rewrite E. cbn [fst snd]. rewrite Eu. split; [split; assumption|].
  intros A k. cbn [bind fst snd]. rewrite Eu. reflexivity.
Qed.

Lemma input_hides R2 (rc : R2 -> mod2_rcor) (ok2 : R2 -> Prop) (F : list (N * N) -> list (N * N) -> R2 -> R2) chk G B A M p n rshare key known x x' :
  length G = 3 -> (forall g, In g G -> length g = 128) -> perms_ok KeySize A ->
  prf_make G B A = Ok p -> f3_getMatrix KeySize MidSize A = Ok M -> length x = n -> length x' = n ->
  (forall r, ok2 r -> rcor_check (rc r) n = chk) ->
  (forall u u' r, good_u (MidSize * blocks128 n) u -> good_u (MidSize * blocks128 n) u' -> ok2 r ->
     ok2 (F u u' r) /\ F u' u (F u u' r) = r /\ rcor_derand (rc (F u u' r)) u' = rcor_derand (rc r) u) ->
  hides (fun r => tps_ok (blocks128 n) key known (fst r) /\ ok2 (snd r)) (fun x r => prf_ro_ideal p (rc (snd r)) n rshare (fst r) x) x x'.
Proof.
  intros HG Hg HA Hp HM Hx Hx' HC HF.
  destruct (@expand_rows G B A p n x [] rshare HG Hg HA Hp Hx) as (e & E & HR & EA).
  destruct (@expand_rows G B A p n x' [] rshare HG Hg HA Hp Hx') as (e' & E' & HR' & _).
  rewrite <- EA in HA, HM. set (cols := blocks128 n) in *. set (rows := km_rows [] rshare e []) in *. set (rows' := km_rows [] rshare e' []) in *.
  assert (K : forall i, i < KeySize -> srKey (nth i rows' d_row) = srKey (nth i rows d_row)).
  { intros i Hi. unfold rows, rows'. rewrite !km_rows_nth by exact Hi. reflexivity. }
  apply hides_dep with (good := good_u (MidSize * cols)) (f1 := tflip cols key rows rows') (g1 := tflip cols key rows' rows)
    (U := u_of p cols rows) (U' := u_of p cols rows') (F := F).
  - intros r Hr. destruct (tflip_ok HR HR' K Hr) as (A1 & A2 & _). split; assumption.
  - intros r Hr. destruct (@tflip_ok cols key known rows' rows r HR' HR) as (A1 & A2 & _); [intros i Hi; symmetry; exact (K i Hi)|exact Hr|]. split; assumption.
  - intros u u' r G1 G2 Hr. destruct (HF u u' r G1 G2 Hr) as (A1 & A2 & _). split; assumption.
  - intros r Hr. split; [apply (ideal_run HA HM HR Hr)|apply (ideal_run HA HM HR' Hr)].
  - intros r1 r2 O1 O2. unfold prf_ro_ideal. cbn [fst snd]. destruct (throw_if (n =? 0)) as [[]| | |]; try reflexivity. cbn [bind].
    rewrite Hx, Hx', Nat.eqb_refl. cbn [negb throw_if bind].
    destruct (tflip_ok HR HR' K O1) as (T1 & _ & T3).
    destruct (ideal_run HA HM HR O1) as [G1 R1]. destruct (ideal_run HA HM HR' T1) as [G2 RR2].
    destruct (HF _ _ _ G1 G2 O2) as (F1 & _ & F3). rewrite (HC _ O2), (HC _ F1). destruct chk as [[]| | |]; try reflexivity. cbn [bind].
    fold cols. rewrite E, E'. cbn [bind]. fold rows rows'.
    pose proof (R1 _ (fun ms u => do d <- rcor_derand (rc r2) u; Ok (ms, d))) as Q1. cbv beta in Q1. rewrite Q1. clear Q1.
    pose proof (RR2 _ (fun ms u => do d <- rcor_derand (rc (F (u_of p cols rows r1) (u_of p cols rows' (tflip cols key rows rows' r1)) r2)) u; Ok (ms, d))) as Q2.
    cbv beta in Q2. rewrite Q2. clear Q2. rewrite F3, T3. reflexivity.
Qed.

Lemma input_hides_f4 G B A M p n rshare key known ss x x' :
  length G = 3 -> (forall g, In g G -> length g = 128) -> perms_ok KeySize A ->
  prf_make G B A = Ok p -> f3_getMatrix KeySize MidSize A = Ok M -> length x = n -> length x' = n -> Forall (Forall blk_fs) ss ->
  hides (fun r => tps_ok (blocks128 n) key known (fst r) /\ fits (fun r s => f4_ot s r) blk_fr ss (snd r))
    (fun x r => prf_ro_ideal p (RF4 (snd r)) n rshare (fst r) x) x x'.
Proof.
  intros HG Hg HA Hp HM Hx Hx' Bs.
  apply (@input_hides _ RF4 (fits (fun r s => f4_ot s r) blk_fr ss) (f4_mv ss) (throw_if (negb (length (concat ss) =? blocks128 n * MidSize))) G B A M); try assumption.
  - intros r Hr. unfold rcor_check. rewrite (fits_total Hr). reflexivity.
  - intros u u' r G1 G2 Hr. exact (f4_mv_ok Bs G1 G2 Hr).
Qed.

Lemma input_hides_ole G B A M p n rshare key known ss x x' :
  length G = 3 -> (forall g, In g G -> length g = 128) -> perms_ok KeySize A ->
  prf_make G B A = Ok p -> f3_getMatrix KeySize MidSize A = Ok M -> length x = n -> length x' = n -> Forall (Forall blk_ole) ss ->
  hides (fun r => tps_ok (blocks128 n) key known (fst r) /\ fits bin_ole blk_ole ss (snd r))
    (fun x r => prf_ro_ideal p (ROle (snd r)) n rshare (fst r) x) x x'.
Proof.
  intros HG Hg HA Hp HM Hx Hx' Bs.
  apply (@input_hides _ ROle (fits bin_ole blk_ole ss) (ole_mv ss) (throw_if (negb (length (concat ss) =? blocks128 n * MidSize * 2))) G B A M); try assumption.
  - intros r Hr. unfold rcor_check. rewrite (fits_total Hr). reflexivity.
  - intros u u' r G1 G2 Hr. exact (ole_mv_ok Bs G1 G2 Hr).
Qed.

(* ---------------- the run of the code is that function of the expanded OT strings ---------------- *)
Definition row_from (fuel cols : nat) (s : srow) (tp : (list N * list N) * list N) : Prop :=
  (exists g, sample_prng fuel (srOt0 s) cols = Ok (g, fst tp)) /\ snd tp = stream (srOt1 s) (2 * cols) /\ trits_ok cols (fst tp).

Definition row_both (q : srow * ((list N * list N) * list N)) : outcome (list N * (list N * list N)) :=
  do m <- km_row_msg (fst q) (fst (fst (snd q))) (snd (fst (snd q))) (snd (snd q));
  do s <- km_row_share (fst q) (fst (fst (snd q))) (snd (fst (snd q)));
  Ok (m, s).

Lemma row_link fuel cols s o : row_in cols s -> km_send_row fuel s = Ok o ->
  exists tp, row_from fuel cols s tp /\ row_both (s, tp) = Ok (snd o).
Proof.
  intros Hin E. destruct (row_is fuel Hin) as [H|(p & msg & xs & t & H & Ht & Hs & Hm)]; [congruence|].
  rewrite H in E. injection E as <-. exists (t, stream (srOt1 s) (2 * cols)). cbn [fst snd].
  split; [split; [exists (fst p); exact Hs|]; split; [reflexivity|exact Ht]|]. unfold row_both. cbn [fst snd]. rewrite Hm. cbn [bind].
  assert (Q : km_row_share s (fst t) (snd t) = Ok xs); [|rewrite Q; reflexivity].
  unfold km_send_row in H. rewrite (proj1 Hin), Hs in H. cbn [bind fst snd] in H. unfold km_row_share.
  assert (T : forall X Y (o : outcome X) (f : X -> outcome Y) y, bind o f = Ok y -> exists z, o = Ok z /\ f z = Ok y).
  { intros X Y o f y Hb. destruct o as [z| | |]; try discriminate. exists z. split; [reflexivity|exact Hb]. }
  apply T in H. destruct H as (mx & E1 & H). apply T in H. destruct H as (a & _ & H). apply T in H. destruct H as (b & _ & H). injection H as _ _ E2.
  destruct (srMsb s) as [xm|], (srKey s); apply T in E1; destruct E1 as (m & _ & E1).
  - apply T in E1. destruct E1 as (xk & Ek & E1). injection E1 as <-. cbn [snd] in E2. rewrite Ek, E2. reflexivity.
  - injection E1 as <-. cbn [snd] in E2. rewrite E2. reflexivity.
  - apply T in E1. destruct E1 as (xk & Ek & E1). injection E1 as <-. cbn [snd] in E2. rewrite Ek, E2. reflexivity.
  - injection E1 as <-. cbn [snd] in E2. rewrite E2. reflexivity.
Qed.

Lemma rows_link fuel cols : forall ss o, Forall (row_in cols) ss -> mapM (km_send_row fuel) ss = Ok o ->
  exists tps, Forall2 (row_from fuel cols) ss tps /\ mapM row_both (combine ss tps) = Ok (map snd o).
Proof.
  induction ss as [|s ss IH]; intros o HF E; cbn [mapM] in E; [injection E as <-; exists []; split; [constructor|reflexivity]|].
  destruct (km_send_row fuel s) as [a| | |] eqn:Ea; try discriminate. cbn [bind] in E.
  destruct (mapM (km_send_row fuel) ss) as [r| | |]; try discriminate. cbn [bind] in E. injection E as <-.
  inversion HF as [|? ? H1 H2]; subst. destruct (row_link H1 Ea) as (tp & F1 & E1). destruct (IH r H2 eq_refl) as (tps & F2 & E2).
  exists (tp :: tps). split; [constructor; assumption|]. cbn [combine mapM]. rewrite E1. cbn [bind]. rewrite E2. reflexivity.
Qed.

Lemma mapM_app A B (f : A -> outcome B) a b x y : mapM f a = Ok x -> mapM f b = Ok y -> mapM f (a ++ b) = Ok (x ++ y).
Proof.
  revert x. induction a as [|s a IH]; intros x E1 E2; cbn [mapM app] in *; [injection E1 as <-; exact E2|].
  destruct (f s) as [v| | |]; try discriminate. cbn [bind] in *. destruct (mapM f a) as [r| | |]; try discriminate. cbn [bind] in *. injection E1 as <-.
  rewrite (IH r eq_refl E2). reflexivity.
Qed.

Lemma combine_app A B (a1 a2 : list A) (b1 b2 : list B) : length a1 = length b1 -> combine (a1 ++ a2) (b1 ++ b2) = combine a1 b1 ++ combine a2 b2.
Proof. revert b1. induction a1 as [|x a1 IH]; intros [|y b1] L; cbn in *; try lia; [reflexivity|]. rewrite IH by lia. reflexivity. Qed.

Lemma mapM_len A B (f : A -> outcome B) : forall l o, mapM f l = Ok o -> length o = length l.
Proof.
  induction l as [|a l IH]; intros o E; cbn [mapM] in E; [injection E as <-; reflexivity|].
  destruct (f a); try discriminate. cbn [bind] in E. destruct (mapM f l) as [r| | |]; try discriminate. cbn [bind] in E. injection E as <-. cbn [length]. rewrite (IH r eq_refl). reflexivity.
Qed.

Lemma loop_link fuel cols : forall g ss msgs os, Forall (row_in cols) ss -> length ss = g * km_step -> km_send_loop fuel g ss = Ok (msgs, os) ->
  exists tps o, Forall2 (row_from fuel cols) ss tps /\ mapM row_both (combine ss tps) = Ok o /\ groups g (map fst o) = msgs /\ map snd o = map snd os.
Proof.
  induction g as [|g IH]; intros ss msgs os HF L E; cbn [km_send_loop] in E.
  - injection E as <- <-. destruct ss; [|discriminate]. exists [], []. split; [constructor|]. split; [reflexivity|]. split; reflexivity.
  - destruct (mapM (km_send_row fuel) (firstn km_step ss)) as [o1| | |] eqn:E1; try discriminate. cbn [bind] in E.
    destruct (km_send_loop fuel g (skipn km_step ss)) as [[m2 o2]| | |] eqn:E2; try discriminate. cbn [bind fst snd] in E. injection E as <- <-.
    rewrite <- (firstn_skipn km_step ss) in HF. apply Forall_app in HF. destruct HF as [F1 F2].
    destruct (rows_link F1 E1) as (t1 & R1 & Q1).
    assert (Ls : length (skipn km_step ss) = g * km_step) by (rewrite skipn_length, L; cbn [Nat.mul]; lia).
    destruct (IH _ _ _ F2 Ls E2) as (t2 & q2 & R2 & Q2 & G2 & S2).
    exists (t1 ++ t2), (map snd o1 ++ q2). assert (Lf : length (firstn km_step ss) = km_step) by (rewrite firstn_length, L; cbn [Nat.mul]; lia).
    assert (L1 := Forall2_len R1). assert (Lo : length o1 = km_step) by (rewrite (mapM_len E1); exact Lf).
    split; [rewrite <- (firstn_skipn km_step ss); apply Forall2_app; assumption|].
    split; [rewrite <- (firstn_skipn km_step ss) at 1; rewrite combine_app by exact L1; apply mapM_app; assumption|].
    assert (Lm : length (map fst (map snd o1)) = km_step) by (rewrite !map_length; exact Lo).
    split.
    + cbn [groups]. rewrite map_app. f_equal.
      * rewrite firstn_app, Lm, Nat.sub_diag, firstn_O, app_nil_r, <- Lm, firstn_all, map_map. reflexivity.
      * rewrite <- G2. f_equal. rewrite skipn_app, Lm, Nat.sub_diag, <- Lm, skipn_all. reflexivity.
    + rewrite !map_app, S2, !map_map. reflexivity.
Qed.

Lemma ideal_ots ots ots' share xl xm tps : km_ideal (km_rows ots share xl xm) tps = km_ideal (km_rows ots' share xl xm) tps.
Proof.
  unfold km_ideal. match goal with |- bind ?a _ = bind ?b _ => assert (E : a = b) end; [|rewrite E; reflexivity].
  unfold km_rows. generalize (seq 0 KeySize). intros l. revert tps. induction l as [|i l IH]; intros [|tp tps]; try reflexivity.
  cbn [map combine mapM]. rewrite (IH tps). reflexivity.
Qed.

Lemma sent_ideal G B A p fuel c n ros rshare x v : length G = 3 -> (forall g, In g G -> length g = 128) -> perms_ok KeySize A ->
  prf_make G B A = Ok p -> prf_ro_sent fuel p c n ros rshare x = Ok v ->
  exists tps, tps_from fuel (blocks128 n) ros tps /\ (forall i, i < KeySize -> trits_ok (blocks128 n) (fst (nth i tps d_tp))) /\
    prf_ro_ideal p c n rshare tps x = Ok v.
Proof.
  intros HG Hg HA Hp. unfold prf_ro_sent, prf_ro_ideal.
  destruct (throw_if (n =? 0)) as [[]| | |]; try discriminate. cbn [bind].
  destruct (Nat.eqb_spec (length x) n) as [Hx|Hx]; [|discriminate]. cbn [negb throw_if bind].
  destruct (rcor_check c n) as [[]| | |]; try discriminate. cbn [bind].
  destruct (@expand_rows G B A p n x ros rshare HG Hg HA Hp Hx) as (e & E & HR & EA). rewrite E. cbn [bind].
  destruct (km_send fuel ros rshare (blocks128 n) e []) as [[msgs os]| | |] eqn:Ek; try discriminate. cbn [bind fst snd].
  unfold km_send in Ek. destruct (negb (length e =? KeySize)); [discriminate|]. cbn [throw_if bind length Nat.eqb negb andb] in Ek.
  destruct (length ros =? 0); [discriminate|]. cbn [throw_if bind] in Ek.
  change (km_send_loop fuel (KeySize / km_step) (km_rows ros rshare e []) = Ok (msgs, os)) in Ek.
  destruct HR as [Lr Hr].
  assert (HF : Forall (row_in (blocks128 n)) (km_rows ros rshare e [])).
  { apply Forall_forall. intros s Hs. destruct (In_nth _ _ d_row Hs) as (i & Hi & <-). apply Hr. lia. }
  assert (Lk : length (km_rows ros rshare e []) = KeySize / km_step * km_step) by (rewrite Lr; reflexivity).
  destruct (loop_link HF Lk Ek) as (tps & o & R & Q & Gm & So).
  intros Ev. exists tps. assert (Lt := Forall2_len R). rewrite Lr in Lt.
  assert (RN := fun i Hi => Forall2_nth d_row d_tp R (i := i) Hi). rewrite Lr in RN.
  split; [split; [congruence|]|split].
  - intros i Hi ot. destruct (RN i Hi) as ((g & Eg) & Es & _). rewrite km_rows_nth in Eg, Es by exact Hi. cbn [srOt0 srOt1] in Eg, Es. exists g. split; assumption.
  - intros i Hi. apply (RN i Hi).
  - rewrite (ideal_ots [] ros). unfold km_ideal.
    assert (Qc : mapM (fun q => do m <- km_row_msg (fst q) (fst (fst (snd q))) (snd (fst (snd q))) (snd (snd q));
                         do s <- km_row_share (fst q) (fst (fst (snd q))) (snd (fst (snd q)));
                         Ok (m, s)) (combine (km_rows ros rshare e []) tps) = Ok o) by exact Q.
    rewrite Qc. cbn [bind fst snd]. rewrite Gm, So.
    assert (K1 : map fst (map snd os) = fst (km_mats os)) by (unfold km_mats; cbn [fst]; rewrite map_map; reflexivity).
    assert (K2 : map snd (map snd os) = snd (km_mats os)) by (unfold km_mats; cbn [snd]; rewrite map_map; reflexivity).
    rewrite K1, K2. exact Ev.
Qed.

Lemma run_sent fuel p c n ros rshare sos key x ys yr : prf_run_ro fuel p c n ros rshare sos key x = Ok (ys, yr) ->
  exists v, prf_ro_sent fuel p (rcor_of c) n ros rshare x = Ok v /\ prf_ro_sender fuel p c n sos key v = Ok ys.
Proof.
  unfold prf_run_ro, prf_ro_sent, prf_tail.
  destruct (throw_if (n =? 0)) as [[]| | |]; try discriminate. cbn [bind].
  destruct (throw_if (negb (length x =? n))) as [[]| | |]; try discriminate. cbn [bind].
  destruct (mod2_check c n) as [[]| | |] eqn:Ec; try discriminate. cbn [bind].
  assert (Er : rcor_check (rcor_of c) n = Ok tt).
  { unfold mod2_check in Ec. destruct c as [ss rs|ss rs]; cbn [rcor_of rcor_check];
      (match type of Ec with bind ?A _ = _ => destruct A as [[]| | |]; try discriminate end; exact Ec). }
  rewrite Er. cbn [bind].
  destruct (expandInputLinear p x (blocks128 n) (mtx KeySize (blocks128 n))) as [e| | |]; try discriminate. cbn [bind].
  destruct (km_send fuel ros rshare (blocks128 n) e []) as [rk| | |]; try discriminate. cbn [bind].
  destruct (km_recv fuel sos key n (fst rk)) as [sk| | |] eqn:Es; try discriminate. cbn [bind].
  destruct (prf_encodeA p (blocks128 n) (fst (km_mats sk)) (snd (km_mats sk))) as [su| | |] eqn:Eu; try discriminate. cbn [bind].
  destruct (prf_encodeA p (blocks128 n) (fst (km_mats (snd rk))) (snd (km_mats (snd rk)))) as [ru| | |]; try discriminate. cbn [bind].
  unfold mod2_run, prf_ro_sender. destruct c as [ss rs|ss rs]; cbn [rcor_of rcor_derand].
  - destruct (f4_recv_derand rs (flat2 ru)) as [d| | |]; try discriminate. cbn [bind]. intros E. exists (fst rk, d). split; [reflexivity|].
    cbn [fst snd]. rewrite Es. cbn [bind]. rewrite Eu. cbn [bind].
    destruct (f4_send ss (flat2 su) d) as [s| | |]; try discriminate. cbn [bind] in *.
    destruct (f4_recv_out rs (flat2 ru) (fst s)) as [w| | |]; try discriminate. cbn [bind fst snd] in E.
    destruct (compressB p (take_rows MidSize (blocks128 n) (snd s)) (blocks128 n) n) as [y1| | |]; try discriminate. cbn [bind] in E.
    destruct (compressB p (take_rows MidSize (blocks128 n) w) (blocks128 n) n) as [y2| | |]; try discriminate. cbn [bind] in E. congruence.
  - destruct (ole_recv_derand rs (flat2 ru)) as [d| | |]; try discriminate. cbn [bind]. intros E. exists (fst rk, d). split; [reflexivity|].
    cbn [fst snd]. rewrite Es. cbn [bind]. rewrite Eu. cbn [bind].
    destruct (ole_send ss (flat2 su) d) as [s| | |]; try discriminate. cbn [bind] in *.
    destruct (ole_recv_out rs (flat2 ru) (fst s)) as [w| | |]; try discriminate. cbn [bind fst snd] in E.
    destruct (compressB p (take_rows MidSize (blocks128 n) (snd s)) (blocks128 n) n) as [y1| | |]; try discriminate. cbn [bind] in E.
    destruct (compressB p (take_rows MidSize (blocks128 n) w) (blocks128 n) n) as [y2| | |]; try discriminate. cbn [bind] in E. congruence.
Qed.

Lemma known_half fuel cols ros sos key tps : ots_ok ros sos key -> tps_from fuel cols ros tps -> forall i, i < KeySize ->
  if nth i key false then snd (nth i tps d_tp) = stream (nth i sos d_prng) (2 * cols)
  else exists g, sample_prng fuel (nth i sos d_prng) cols = Ok (g, fst (nth i tps d_tp)).
Proof.
  intros (_ & _ & H) [_ F] i Hi. specialize (H i Hi). destruct (F i Hi) as (g & E1 & E2). unfold ot_ok in H. unfold d_prng in *.
  destruct (nth i key false); rewrite H; [exact E2|exists g; exact E1].
Qed.
