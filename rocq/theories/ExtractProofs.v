From Verif Require Import Base Words PermModel PermSpec PermProofs PermCorModel PermCorSpec PermCorProofs CompPermProofs KeyMultModel ShuffleModel ShuffleSpec RadixSpec
  TableModel TableSpec TrimProofs TableProofs BitInjProofs OmJoinModel OmJoinSpec PackProofs OmJoinProofs OmJoinTop RadixSortProofs ExtractModel ExtractSpec.

(* ---------- party 0's result is its mask ---------- *)
Lemma comp_apply_mask n c c0 c1 w x0 x1 o0 o1 z0 z1 d0 d1 : 0 < n -> (N.of_nat c < 2 ^ 64)%N -> comp_rel n c c0 c1 ->
  csOff (cpS c0) + w <= c -> csOff (cpS c1) + w <= c -> length x0 = n * w -> length x1 = n * w ->
  comp_apply c0 c1 Regular (Mat n w x0) (Mat n w x1) o0 o1 = Ok ((Mat n w z0, d0), (Mat n w z1, d1)) ->
  forall i j, i < n -> j < w -> cel w z0 i j = cel c (dat (crB (cpR c0))) i (crOff (cpR c0) + j).
Proof.
  intros Hn Hc (I0 & I1 & HR0 & HR1) Ho0 Ho1 L0 L1. unfold comp_apply.
  destruct (comp_checks c0 _ o0); [|discriminate..]. cbn [bind]. destruct (comp_checks c1 _ o1); [|discriminate..]. cbn [bind].
  unfold comp_roles. rewrite I0, I1. cbn [Nat.eqb negb xorb].
  destruct (@cround_ok n c (cpS c0) (cpR c1) Regular w x0 x1) as (y0 & y1 & E1 & Ly0 & Ly1 & H1); auto. rewrite E1. cbn [bind].
  pose proof HR1 as (_ & _ & _ & _ & RA & CA & LA & RB & CB & LB & EO & _).
  destruct (@recv_ok n c (cpR c0) Regular w (Mat n w y0) (zmat n w)) as (msg & d & E & Lm & Ld & H); auto; [lia|apply zmat_len|].
  unfold comp_round. cbn [rows cols]. rewrite E. cbn [bind fst snd].
  destruct (cor_send_apply_in _ _ _ _ _) as [[zz ss]| | |]; try discriminate. cbn [bind]. intros EQ. injection EQ as <- _ _ _.
  intros i j Hi Hj. apply H; assumption.
Qed.

(* ---------- the combined matrix ---------- *)
(* row i of the zipped columns *)
Definition zrow (ins : list bmat) (i : nat) : list N := concat (map (fun m => nth i (bRows m) []) ins).
Lemma zip_rows_ok n ins : Forall (fun m => bm_n m = n) ins -> zip_rows n ins = map (zrow ins) (seq 0 n).
Proof.
  induction ins as [|m ins IH]; intros H.
  - cbn [zip_rows]. apply nth_ext with [] []; [rewrite repeat_length, map_length, seq_length; reflexivity|]. intros i Hi. rewrite repeat_length in Hi.
    rewrite nth_map_seq' by exact Hi. apply nth_repeat.
  - apply Forall_cons_iff in H. destruct H as [Hm H]. cbn [zip_rows]. rewrite (IH H). unfold bm_n in Hm.
    apply nth_ext with [] []; [rewrite map2_length, !map_length, seq_length; lia|]. intros i Hi. rewrite map2_length, map_length, seq_length in Hi.
    rewrite map2_nth with (da := []) (db := []) by (rewrite ?map_length, ?seq_length; lia). rewrite !nth_map_seq' by lia. reflexivity.
Qed.
Lemma bm_rows n m : bm_ok m -> bm_n m = n -> rows_ok n (bCols m) (bRows m).
Proof. intros [H _] <-. exact H. Qed.
Lemma zrow_ok n ins i : Forall (fun m => bm_ok m /\ bm_n m = n) ins -> i < n -> S (length (zrow ins i)) = ex_width ins /\ bytes (zrow ins i).
Proof.
  intros H Hi. induction H as [|m ins [Hm Hn] H IH]; [split; [reflexivity|constructor]|]. unfold zrow in *. cbn [map concat].
  destruct (rows_nth (bm_rows Hm Hn) Hi) as [L B]. unfold ex_width in *. cbn [fold_right]. rewrite app_length, L. split; [lia|]. apply bytes_app; [exact B|apply IH].
Qed.
(* a row of the combined matrix *)
Definition crow (fl : list N) (ins : list bmat) (i : nat) : list N := nth i fl 0%N :: zrow ins i.
Lemma ex_combine_ok n fl ins : Forall (fun m => bm_ok m /\ bm_n m = n) ins -> length fl = n ->
  ex_combine fl ins = Ok (Mat n (ex_width ins) (concat (map (crow fl ins) (seq 0 n)))) /\
  length (concat (map (crow fl ins) (seq 0 n))) = n * ex_width ins.
Proof.
  intros H L. assert (H' : Forall (fun m => bm_n m = n) ins) by (eapply Forall_impl; [|exact H]; intros m [_ E]; exact E).
  split.
  - unfold ex_combine. rewrite L.
    assert (E : forallb (fun m => bm_n m =? n) ins = true) by (apply forallb_forall; intros m Hm; rewrite Forall_forall in H'; rewrite (H' m Hm); apply Nat.eqb_refl).
    rewrite E. cbn [negb throw_if bind]. rewrite (zip_rows_ok H'). do 3 f_equal.
    apply nth_ext with [] []; [rewrite map2_length, !map_length, seq_length; lia|]. intros i Hi. rewrite map2_length, map_length, seq_length in Hi.
    rewrite map2_nth with (da := 0%N) (db := []) by (rewrite ?map_length, ?seq_length; lia). rewrite !nth_map_seq' by lia. reflexivity.
  - rewrite (concat_length (m := ex_width ins)); [rewrite map_length, seq_length; reflexivity|]. intros r Hr. apply in_map_iff in Hr. destruct Hr as (i & <- & Hi). apply in_seq in Hi.
    cbn [crow length]. apply (zrow_ok H). lia.
Qed.

(* ---------- the rows after the permutation ---------- *)
Lemma row_concat_map n w (f : nat -> list N) i : (forall k, k < n -> length (f k) = w) -> i < n -> row w (concat (map f (seq 0 n))) i = f i.
Proof.
  intros H Hi. assert (HL : forall r, In r (map f (seq 0 n)) -> length r = w) by (intros r Hr; apply in_map_iff in Hr; destruct Hr as (k & <- & Hk); apply in_seq in Hk; apply H; lia).
  assert (LC : length (concat (map f (seq 0 n))) = n * w) by (rewrite (concat_length HL), map_length, seq_length; reflexivity).
  apply nth_ext with 0%N 0%N; [rewrite (row_length LC Hi), (H i Hi); reflexivity|]. intros j Hj. rewrite (row_length LC Hi) in Hj.
  rewrite (cel_row LC Hi Hj). unfold cel. rewrite (@nth_concat _ 0%N _ w _ _ HL) by (rewrite ?map_length, ?seq_length; assumption). rewrite nth_map_seq' by exact Hi. reflexivity.
Qed.
Lemma row_xors n w a b i : length a = n * w -> length b = n * w -> row w (xors a b) i = map2 N.lxor (row w a i) (row w b i).
Proof. intros La Lb. rewrite !row_slice. apply map2_slice. lia. Qed.

Lemma ex_keep_map A (f : A -> bool) (g : A -> list N) l : ex_keep (map f l) (map g l) = map g (filter f l).
Proof. unfold ex_keep. induction l as [|x l IH]; [reflexivity|]. cbn [map combine filter fst snd]. destruct (f x); cbn [map snd]; rewrite IH; reflexivity. Qed.
Lemma odd_lxor a b : N.odd (N.lxor a b) = xorb (N.odd a) (N.odd b).
Proof. rewrite <- !N.bit0_odd. apply N.lxor_spec. Qed.

(* the kept rows are split into columns *)
Lemma ex_split_ok n W (p : nat -> nat) (g0 g1 : nat -> list N) Q :
  (forall i, In i Q -> p i < n /\ length (g0 i) = W /\ length (g1 i) = W /\ bytes (g0 i) /\ bytes (g1 i)) ->
  forall in0 in1, Forall2 (fun a b => bBits a = bBits b) in0 in1 -> Forall (fun m => bm_ok m /\ bm_n m = n) in0 -> Forall (fun m => bm_ok m /\ bm_n m = n) in1 ->
  forall off, off + ex_width in0 = S W ->
  (forall i, In i Q -> exists P, length P = off /\ map2 N.lxor (g0 i) (g1 i) = P ++ map2 N.lxor (zrow in0 (p i)) (zrow in1 (p i))) ->
  exists o0 o1, ex_split off in0 (map g0 Q) = Ok o0 /\ ex_split off in1 (map g1 Q) = Ok o1 /\
    Forall2 (fun m o => bBits o = bBits m /\ bm_ok o /\ bm_n o = length Q) in0 o0 /\
    Forall2 (fun m o => bBits o = bBits m /\ bm_ok o /\ bm_n o = length Q) in1 o1 /\
    map2 (fun a b => xor_rows (bRows a) (bRows b)) o0 o1 =
    map2 (fun a b => map (fun i => nth (p i) (xor_rows (bRows a) (bRows b)) []) Q) in0 in1.
Proof.
  intros HQ. induction 1 as [|a b in0 in1 Hab HF IH]; intros F0 F1 off Hoff HX.
  - exists [], []. cbn [ex_split map2]. repeat split; constructor.
  - apply Forall_cons_iff in F0. destruct F0 as [[Ba Na] F0]. apply Forall_cons_iff in F1. destruct F1 as [[Bb Nb] F1].
    pose proof (bm_rows Ba Na) as Ra. pose proof (bm_rows Bb Nb) as Rb. pose proof (proj2 Ba) as Ea. pose proof (proj2 Bb) as Eb.
    set (w := div_ceil (bBits a) 8) in *. rewrite <- Hab in Eb. fold w in Eb. unfold ex_width in Hoff. cbn [fold_right] in Hoff. fold (ex_width in0) in Hoff. rewrite Ea in Hoff.
    assert (HW : 0 < ex_width in0) by (clear; induction in0 as [|m l IH]; unfold ex_width in *; cbn [fold_right]; lia).
    cbn [ex_split]. rewrite <- Hab. fold w.
    assert (HM : forall g : nat -> list N, (forall i, In i Q -> length (g i) = W) -> mapM (fun x => readN x off w) (map g Q) = Ok (map (fun i => slice (g i) off w) Q)).
    { intros g Hg. rewrite mapM_map. apply mapM_ok. intros i Hi. apply readN_ok. rewrite (Hg i Hi). lia. }
    rewrite (HM g0), (HM g1) by (intros i Hi; apply (HQ i Hi)). cbn [bind].
    assert (HX' : forall i, In i Q -> exists P, length P = off /\ map2 N.lxor (g0 i) (g1 i) =
      P ++ map2 N.lxor (nth (p i) (bRows a) []) (nth (p i) (bRows b) []) ++ map2 N.lxor (zrow in0 (p i)) (zrow in1 (p i)) /\
      length (map2 N.lxor (nth (p i) (bRows a) []) (nth (p i) (bRows b) [])) = w).
    { intros i Hi. destruct (HX i Hi) as (P & LP & E). exists P. split; [exact LP|]. destruct (HQ i Hi) as (Hp & _). destruct (rows_nth Ra Hp) as [La _], (rows_nth Rb Hp) as [Lb _].
      split; [|rewrite map2_length; lia]. rewrite E. f_equal. unfold zrow. cbn [map concat]. apply map2_app. lia. }
    destruct (IH F0 F1 (off + w)) as (o0 & o1 & E0 & E1 & G0 & G1 & GX); [lia| |].
    { intros i Hi. destruct (HX' i Hi) as (P & LP & E & Lw). eexists (P ++ _). rewrite <- app_assoc. split; [rewrite app_length, LP, Lw; reflexivity|exact E]. }
    rewrite E0, E1. cbn [bind]. eexists _, _. split; [reflexivity|]. split; [reflexivity|].
    assert (HB : forall g : nat -> list N, (forall i, In i Q -> length (g i) = W /\ bytes (g i)) -> bm_ok (BM (bBits a) w (map (fun i => slice (g i) off w) Q)) /\ bm_n (BM (bBits a) w (map (fun i => slice (g i) off w) Q)) = length Q).
    { intros g Hg. unfold bm_n. cbn [bRows]. rewrite map_length. split; [|reflexivity]. split; [|reflexivity]. unfold bm_n. cbn [bRows bCols]. split; [reflexivity|].
      apply Forall_forall. intros r Hr. apply in_map_iff in Hr. destruct Hr as (i & <- & Hi). destruct (Hg i Hi) as [L B]. split; [apply slice_length; lia|apply slice_bytes, B]. }
    split; [constructor; [split; [reflexivity|apply HB; intros i Hi; split; apply (HQ i Hi)]|exact G0]|].
    split; [constructor; [split; [exact Hab|apply HB; intros i Hi; split; apply (HQ i Hi)]|exact G1]|].
    cbn [map2]. rewrite GX. f_equal. cbn [bRows].
    assert (EE : forall l, (forall i, In i l -> In i Q) -> xor_rows (map (fun i => slice (g0 i) off w) l) (map (fun i => slice (g1 i) off w) l) = map (fun i => nth (p i) (xor_rows (bRows a) (bRows b)) []) l).
    { induction l as [|i l IHl]; intros Hl; [reflexivity|]. cbn [map]. unfold xor_rows at 1. cbn [map2]. fold (xor_rows (map (fun i => slice (g0 i) off w) l) (map (fun i => slice (g1 i) off w) l)).
      rewrite IHl by (intros k Hk; apply Hl; right; exact Hk). f_equal. assert (Hi : In i Q) by (apply Hl; left; reflexivity).
      destruct (HX' i Hi) as (P & LP & E & Lw). destruct (HQ i Hi) as (Hp & L0 & L1 & _). rewrite <- map2_slice by lia. rewrite E, <- LP.
      rewrite (@nth_xor_rows n) by first [exact Hp|apply Ra|apply Rb]. apply slice_mid. exact Lw. }
    apply EE. auto.
Qed.

Lemma xor_bytes_r a b : length a = length b -> bytes a -> bytes (map2 N.lxor a b) -> bytes b.
Proof. intros L Ha Hx. rewrite <- (xor_row_cancel_l (eq_sym L)). apply RadixSortProofs.bytes_xors; assumption. Qed.

(* the indices kept, in the order of the permutation *)
Lemma filter_map A B (f : B -> bool) (g : A -> B) l : filter f (map g l) = map g (filter (fun x => f (g x)) l).
Proof. induction l as [|x l IH]; [reflexivity|]. cbn [map filter]. rewrite IH. destruct (f (g x)); reflexivity. Qed.

Lemma ex_apply_ok n c c0 c1 fl0 fl1 in0 in1 : 0 < n -> (N.of_nat c < 2 ^ 64)%N -> comp_rel n c c0 c1 -> bytes (dat (crB (cpR c0))) ->
  Forall (fun m => bm_ok m /\ bm_n m = n) in0 -> Forall (fun m => bm_ok m /\ bm_n m = n) in1 -> Forall2 (fun a b => bBits a = bBits b) in0 in1 ->
  length fl0 = n -> length fl1 = n -> bytes fl0 -> bytes fl1 ->
  csOff (cpS c0) + ex_width in0 <= c -> csOff (cpS c1) + ex_width in0 <= c ->
  let act := fun i => N.odd (N.lxor (nth i fl0 0%N) (nth i fl1 0%N)) in
  let q := filter act (comp_perm c0 c1) in
  exists o0 o1 f0 f1, ex_apply c0 c1 n fl0 fl1 in0 in1 (length in0) (length in1) = Ok ((o0, f0), (o1, f1)) /\
    Forall2 (fun m o => bBits o = bBits m /\ bm_ok o /\ bm_n o = length q) in0 o0 /\
    Forall2 (fun m o => bBits o = bBits m /\ bm_ok o /\ bm_n o = length q) in1 o1 /\
    map2 (fun a b => xor_rows (bRows a) (bRows b)) o0 o1 = map2 (fun a b => pick [] q (xor_rows (bRows a) (bRows b))) in0 in1 /\
    f0 = map (fun i => N.odd (cel c (dat (crB (cpR c0))) i (crOff (cpR c0)))) (seq 0 n) /\
    f1 = map2 xorb f0 (map act (comp_perm c0 c1)).
Proof.
  intros Hn Hc HR HB F0 F1 F01 L0 L1 B0 B1 O0 O1 act q.
  assert (EW : ex_width in1 = ex_width in0).
  { clear - F0 F1 F01. induction F01 as [|a b l l' H HF IH]; [reflexivity|]. apply Forall_cons_iff in F0, F1. destruct F0 as [[[_ Ea] _] F0], F1 as [[[_ Eb] _] F1].
    unfold ex_width in *. cbn [fold_right]. rewrite IH by assumption. congruence. }
  destruct (ex_combine_ok F0 L0) as [E0 LC0]. destruct (ex_combine_ok F1 L1) as [E1 LC1]. rewrite EW in *. set (w := ex_width in0) in *.
  set (x0 := concat (map (crow fl0 in0) (seq 0 n))) in *. set (x1 := concat (map (crow fl1 in1) (seq 0 n))) in *.
  assert (HC : forall ins, Forall (fun m => bm_ok m /\ bm_n m = n) ins -> forallb (fun m => bm_n m =? n) ins = true).
  { intros ins H. apply forallb_forall. intros m Hm. rewrite Forall_forall in H. rewrite (proj2 (H m Hm)). apply Nat.eqb_refl. }
  unfold ex_apply, ex_checks. rewrite L0, L1, (HC _ F0), (HC _ F1), !Nat.eqb_refl. cbn [negb throw_if bind]. rewrite E0, E1. cbn [bind].
  destruct (@comp_apply_ok n c c0 c1 Regular w x0 x1 (Mat n w x0) (Mat n w x1)) as (z0 & z1 & d0 & d1 & EA & LZ0 & LZ1 & HP & _); auto.
  pose proof (@comp_apply_mask n c c0 c1 w x0 x1 _ _ z0 z1 d0 d1 Hn Hc HR O0 O1 LC0 LC1 EA) as HM.
  rewrite EA. cbn [bind fst snd]. unfold mat_rows. cbn [dat rows cols].
  set (p := comp_perm c0 c1) in *.
  assert (Hp : is_perm n p) by (destruct HR as (_ & _ & H0 & H1); apply map_nth_perm; [apply H0|apply H1]).
  pose proof (is_perm_length Hp) as Lp.
  set (pp := fun i => nth i p 0).
  assert (Epp : p = map pp (seq 0 n)) by (apply nth_ext with 0 0; [rewrite map_length, seq_length; exact Lp|]; intros i Hi; rewrite nth_map_seq' by lia; reflexivity).
  assert (Hpp : forall i, i < n -> pp i < n) by (intros i Hi; apply (nthp Hp Hi)).
  assert (Hw : 0 < w) by (unfold w; clear; induction in0 as [|m l IH]; unfold ex_width in *; cbn [fold_right]; lia).
  set (g0 := fun i => slice z0 (i * w) w). set (g1 := fun i => slice z1 (i * w) w).
  assert (HZ0 : forall k, k < n -> S (length (zrow in0 k)) = w /\ bytes (zrow in0 k)) by (intros k Hk; apply (zrow_ok F0 Hk)).
  assert (HZ1 : forall k, k < n -> S (length (zrow in1 k)) = w /\ bytes (zrow in1 k)) by (intros k Hk; rewrite <- EW; apply (zrow_ok F1 Hk)).
  assert (HX : forall i, i < n -> map2 N.lxor (g0 i) (g1 i) = N.lxor (nth (pp i) fl0 0%N) (nth (pp i) fl1 0%N) :: map2 N.lxor (zrow in0 (pp i)) (zrow in1 (pp i))).
  { intros i Hi. destruct HP as [_ HP]. specialize (HP i (pp i) (proj1 (nthp Hp Hi))). rewrite (row_xors i LZ0 LZ1), (row_xors (pp i) LC0 LC1) in HP.
    unfold g0, g1. rewrite <- !row_slice, HP. unfold x0, x1. rewrite (@row_concat_map n w (crow fl0 in0)), (@row_concat_map n w (crow fl1 in1)) by (try apply Hpp; try exact Hi; intros k Hk; first [apply (HZ0 k Hk)|apply (HZ1 k Hk)]). reflexivity. }
  assert (LG0 : forall i, i < n -> length (g0 i) = w) by (intros i Hi; unfold g0; rewrite <- row_slice; apply (row_length LZ0 Hi)).
  assert (LG1 : forall i, i < n -> length (g1 i) = w) by (intros i Hi; unfold g1; rewrite <- row_slice; apply (row_length LZ1 Hi)).
  assert (BG0 : forall i, i < n -> bytes (g0 i)).
  { intros i Hi. apply Forall_forall. intros x Hx. apply (In_nth _ _ 0%N) in Hx. destruct Hx as (j & Hj & <-). rewrite (LG0 i Hi) in Hj. unfold g0.
    rewrite <- row_slice, (cel_row LZ0 Hi Hj), (HM i j Hi Hj). unfold cel. unfold bytes in HB. rewrite Forall_forall in HB.
    destruct (nth_in_or_default (i * c + (crOff (cpR c0) + j)) (dat (crB (cpR c0))) 0%N) as [H|H]; [apply HB, H|rewrite H; reflexivity]. }
  assert (BN : forall l k, bytes l -> (nth k l 0 < 256)%N).
  { intros l k Hl. unfold bytes in Hl. rewrite Forall_forall in Hl. destruct (nth_in_or_default k l 0%N) as [H|H]; [apply Hl, H|rewrite H; reflexivity]. }
  assert (BG1 : forall i, i < n -> bytes (g1 i)).
  { intros i Hi. apply (@xor_bytes_r (g0 i)); [rewrite LG0, LG1 by exact Hi; reflexivity|apply BG0, Hi|]. rewrite (HX i Hi).
    change (bytes (map2 N.lxor (nth (pp i) fl0 0%N :: zrow in0 (pp i)) (nth (pp i) fl1 0%N :: zrow in1 (pp i)))).
    apply RadixSortProofs.bytes_xors; (constructor; [apply BN; assumption|]); [apply HZ0|apply HZ1]; apply Hpp, Hi. }
  assert (HBits : forall g : nat -> list N, (forall i, i < n -> length (g i) = w) -> ex_bits (map g (seq 0 n)) = Ok (map (fun i => N.odd (nth 0 (g i) 0%N)) (seq 0 n))).
  { intros g Hg. unfold ex_bits. rewrite mapM_map. apply mapM_ok. intros i Hi. apply in_seq in Hi. rewrite get_ok with (d := 0%N) by (rewrite Hg; lia). reflexivity. }
  fold g0 g1. rewrite (HBits g0 LG0), (HBits g1 LG1). cbn [bind].
  assert (HA : forall i, i < n -> xorb (N.odd (nth 0 (g0 i) 0%N)) (N.odd (nth 0 (g1 i) 0%N)) = act (pp i)).
  { intros i Hi. rewrite <- odd_lxor. unfold act. f_equal. pose proof (f_equal (fun l => nth 0 l 0%N) (HX i Hi)) as E.
    cbn beta in E. rewrite map2_nth with (da := 0%N) (db := 0%N) in E by (rewrite ?LG0, ?LG1; lia). exact E. }
  assert (EF : map2 xorb (map (fun i => N.odd (nth 0 (g0 i) 0%N)) (seq 0 n)) (map (fun i => N.odd (nth 0 (g1 i) 0%N)) (seq 0 n)) = map (fun i => act (pp i)) (seq 0 n)).
  { apply nth_ext with false false; [rewrite map2_length, !map_length; lia|]. intros i Hi. rewrite map2_length, !map_length, seq_length, Nat.min_id in Hi.
    rewrite map2_nth with (da := false) (db := false) by (rewrite map_length, seq_length; exact Hi). rewrite !nth_map_seq' by exact Hi. apply HA, Hi. }
  rewrite EF, !ex_keep_map. set (Q := filter (fun i => act (pp i)) (seq 0 n)).
  assert (Eq : q = map pp Q) by (unfold q; rewrite Epp at 1; apply filter_map).
  assert (HQ : forall i, In i Q -> i < n) by (intros i Hi; apply filter_In in Hi; destruct Hi as [Hi _]; apply in_seq in Hi; lia).
  destruct (@ex_split_ok n w pp g0 g1 Q) with (in0 := in0) (in1 := in1) (off := 1) as (o0 & o1 & ES0 & ES1 & G0 & G1 & GX); try assumption.
  - intros i Hi. specialize (HQ i Hi). auto 10.
  - reflexivity.
  - intros i Hi. specialize (HQ i Hi). rewrite (HX i HQ). exists [N.lxor (nth (pp i) fl0 0%N) (nth (pp i) fl1 0%N)]. split; reflexivity.
  - rewrite ES0, ES1. cbn [bind]. eexists o0, o1, _, _. split; [reflexivity|]. rewrite Eq, map_length. split; [exact G0|]. split; [exact G1|]. split; [|split].
    + rewrite GX. clear. revert in1. induction in0 as [|a l IH]; intros [|b l']; try reflexivity. cbn [map2]. rewrite IH. f_equal. unfold pick. rewrite map_map. reflexivity.
    + apply map_ext_in. intros i Hi. apply in_seq in Hi. f_equal. unfold g0. rewrite <- row_slice, (cel_row LZ0 (i := i) (j := 0)) by lia. rewrite (HM i 0) by lia. rewrite Nat.add_0_r. reflexivity.
    + rewrite Epp at 1. rewrite map_map, <- EF. apply nth_ext with false false; [rewrite !map2_length, !map_length; lia|]. intros i Hi. rewrite map_length, seq_length in Hi.
      rewrite !map2_nth with (da := false) (db := false) by (rewrite ?map2_length, !map_length, seq_length; lia). rewrite !nth_map_seq' by exact Hi. cbn [Nat.add].
      rewrite <- xorb_assoc, xorb_nilpotent. symmetry. apply xorb_false_l.
Qed.

(* ---------- tables ---------- *)
Lemma col_ok_bm n c : col_ok n c -> bm_ok (cDat c) /\ bm_n (cDat c) = n.
Proof. intros (H1 & H2 & _). split; assumption. Qed.
Lemma col_forall n l : Forall (col_ok n) l -> Forall (fun m => bm_ok m /\ bm_n m = n) (map cDat l).
Proof. intros H. apply Forall_map. eapply Forall_impl; [|exact H]. intros c. apply col_ok_bm. Qed.
Lemma row_bytes_width t : ex_width (map cDat (tCols t)) = row_bytes t.
Proof. unfold ex_width, row_bytes. induction (tCols t) as [|c l IH]; [reflexivity|]. cbn [map fold_right]. rewrite IH. reflexivity. Qed.
Lemma same_bits n l0 l1 : Forall (col_ok n) l0 -> Forall (col_ok n) l1 -> Forall2 same_info l0 l1 -> Forall2 (fun a b => bBits a = bBits b) (map cDat l0) (map cDat l1).
Proof.
  intros H0 H1 H. induction H as [|a b l l' (_ & _ & Hb) H IH]; [constructor|]. apply Forall_cons_iff in H0, H1. destruct H0 as [(_ & _ & Ea & _) H0], H1 as [(_ & _ & Eb & _) H1].
  cbn [map]. constructor; [congruence|]. apply IH; assumption.
Qed.
Lemma same_info_refl l : Forall2 same_info l l.
Proof. induction l; constructor; [repeat split|assumption]. Qed.
Lemma ex_cols_same t out : out_fits t out -> Forall2 same_info (tCols t) (ex_cols t out).
Proof. unfold out_fits, ex_cols. intros H. destruct (Nat.eqb_spec (length (tCols out)) (length (tCols t))) as [E|E]; [|apply same_info_refl]. destruct H as [H|H]; [contradiction|exact H]. Qed.

Lemma ex_table_cols n m t out ms : Forall (col_ok n) (tCols t) -> out_fits t out ->
  Forall2 (fun a o => bBits o = bBits a /\ bm_ok o /\ bm_n o = m) (map cDat (tCols t)) ms ->
  Forall (col_ok m) (tCols (ex_table t out ms)) /\ Forall2 same_info (tCols t) (tCols (ex_table t out ms)) /\
  tCols (ex_table t out ms) = map2 (fun c o => Col (cName c) (cType c) (cBits c) o) (tCols t) ms.
Proof.
  intros HC HO HF. pose proof (ex_cols_same HO) as HS. unfold ex_table. cbn [tCols]. revert HS. generalize (ex_cols t out) as l'. clear HO.
  remember (map cDat (tCols t)) as l0 eqn:E0. revert E0. generalize dependent (tCols t). intros l HC E0 l' HS. revert l HC E0 l' HS.
  induction HF as [|a o l0 ms (Hb & Ho & Hn) HF IH]; intros l HC E0 l' HS.
  - destruct l; [|discriminate E0]. inversion HS. subst. cbn [map2]. repeat split; constructor.
  - destruct l as [|c l]; [discriminate E0|]. injection E0 as -> ->. destruct l' as [|y l2]; [inversion HS|]. assert (HS2 : same_info c y /\ Forall2 same_info l l2) by (inversion HS; auto). destruct HS2 as [(En & Et & Eb) HS'].
    apply Forall_cons_iff in HC. destruct HC as [(C1 & C2 & C3 & C4 & C5) HC]. destruct (IH l HC eq_refl _ HS') as (I1 & I2 & I3). cbn [map2].
    split; [|split].
    + constructor; [|exact I1]. split; [exact Ho|]. split; [exact Hn|]. split; [cbn; congruence|]. cbn [cType cDat]. rewrite <- Et, Hb. split; assumption.
    + constructor; [split; [exact En|split; [exact Et|exact Eb]]|exact I2].
    + rewrite I3, En, Et, Eb. reflexivity.
Qed.

Lemma ex_tables_ok n c c0 c1 t0 t1 out0 out1 : 0 < n -> (N.of_nat c < 2 ^ 64)%N -> comp_rel n c c0 c1 -> bytes (dat (crB (cpR c0))) ->
  shared_table n t0 t1 -> bytes (tAct t0) -> bytes (tAct t1) -> out_fits t0 out0 -> out_fits t1 out1 ->
  csOff (cpS c0) + row_bytes t0 <= c -> csOff (cpS c1) + row_bytes t0 <= c ->
  let q := filter (is_active t0 t1) (comp_perm c0 c1) in
  exists o0 o1 f0 f1, ex_tables c0 c1 n t0 t1 out0 out1 = Ok ((o0, f0), (o1, f1)) /\
    plain_shares (length q) o0 o1 (picked q t0 t1) /\
    f0 = map (fun i => N.odd (cel c (dat (crB (cpR c0))) i (crOff (cpR c0)))) (seq 0 n) /\
    f1 = map2 xorb f0 (map (is_active t0 t1) (comp_perm c0 c1)).
Proof.
  intros Hn Hc HR HB (C0 & C1 & CI & L0 & L1) B0 B1 F0 F1 O0 O1 q.
  destruct (@ex_apply_ok n c c0 c1 (tAct t0) (tAct t1) (map cDat (tCols t0)) (map cDat (tCols t1))) as (o0 & o1 & f0 & f1 & E & G0 & G1 & GX & HF0 & HF1);
    try assumption; try (apply col_forall; assumption); try (rewrite row_bytes_width; assumption).
  { apply (same_bits C0 C1 CI). }
  unfold ex_tables. rewrite L0, L1, Nat.eqb_refl. cbn [negb throw_if bind]. rewrite !map_length in E. rewrite E. cbn [bind fst snd].
  change (filter (fun i => N.odd (N.lxor (nth i (tAct t0) 0%N) (nth i (tAct t1) 0%N))) (comp_perm c0 c1)) with q in *.
  destruct (ex_table_cols C0 F0 G0) as (D0 & S0 & X0), (ex_table_cols C1 F1 G1) as (D1 & S1 & X1).
  eexists _, _, f0, f1. split; [reflexivity|]. split; [|split; [exact HF0|exact HF1]].
  split; [exact D0|]. split; [exact D1|]. split; [|split; [reflexivity|split; [reflexivity|]]].
  - rewrite X0, X1. clear - CI G0 G1. revert o0 o1 G0 G1. induction CI as [|a b l l' (H1 & H2 & H3) CI IH]; intros o0 o1 G0 G1; [constructor|].
    inversion G0; inversion G1; subst. cbn [map2]. constructor; [repeat split; assumption|]. apply IH; assumption.
  - rewrite X0, X1. unfold picked. clear - C0 C1 CI G0 G1 GX. revert o0 o1 G0 G1 GX. induction CI as [|a b l l' (H1 & H2 & H3) CI IH]; intros o0 o1 G0 G1 GX; [reflexivity|].
    apply Forall_cons_iff in C0, C1. destruct C0 as [K0 C0], C1 as [K1 C1].
    inversion G0 as [|m0 p0 ml0 pl0 (P1 & P2 & P3) G0' E1 E2]; inversion G1 as [|m1 p1 ml1 pl1 P' G1' E3 E4]; subst. cbn [map2 map] in GX |- *. injection GX as GX1 GX2.
    f_equal; [|apply IH; assumption]. unfold xor_col, with_rows, shared_rows. cbn [cName cType cBits cDat]. rewrite GX1, P1, (proj2 P2), P1, <- (proj2 (proj1 K0)). reflexivity.
Qed.

Lemma q_perm n c0 c1 c f : comp_rel n c c0 c1 -> Permutation (filter f (comp_perm c0 c1)) (filter f (seq 0 n)).
Proof.
  intros (_ & _ & H0 & H1). assert (Hp : is_perm n (comp_perm c0 c1)) by (apply map_nth_perm; [apply H0|apply H1]).
  assert (HP : Permutation (comp_perm c0 c1) (seq 0 n)) by exact Hp.
  clear Hp. induction HP; cbn [filter]; [constructor| | |].
  - destruct (f x); [constructor|]; assumption.
  - destruct (f x), (f y); try apply Permutation_refl. apply perm_swap.
  - eapply Permutation_trans; eassumption.
Qed.

(* too few bytes in the correlation *)
Lemma ex_tables_exhausted n c c0 c1 t0 t1 out0 out1 : (N.of_nat c < 2 ^ 64)%N -> comp_rel n c c0 c1 ->
  shared_table n t0 t1 -> csOff (cpS c0) <= c -> csOff (cpS c1) <= c ->
  c < csOff (cpS c0) + row_bytes t0 -> ex_tables c0 c1 n t0 t1 out0 out1 = Throw.
Proof.
  intros Hc HR (C0 & C1 & CI & L0 & L1) O0 O1 HX. unfold ex_tables. rewrite L0, L1, Nat.eqb_refl. cbn [negb throw_if bind].
  pose proof (col_forall C0) as K0. pose proof (col_forall C1) as K1.
  destruct (ex_combine_ok K0 L0) as [E0 _], (ex_combine_ok K1 L1) as [E1 _].
  assert (HC : forall ins, Forall (fun m => bm_ok m /\ bm_n m = n) ins -> forallb (fun m => bm_n m =? n) ins = true).
  { intros ins H. apply forallb_forall. intros m Hm. rewrite Forall_forall in H. rewrite (proj2 (H m Hm)). apply Nat.eqb_refl. }
  unfold ex_apply, ex_checks. rewrite L0, L1, (HC _ K0), (HC _ K1), !map_length, !Nat.eqb_refl. cbn [negb throw_if bind]. rewrite E0, E1. cbn [bind].
  assert (EW : ex_width (map cDat (tCols t1)) = ex_width (map cDat (tCols t0))).
  { pose proof (same_bits C0 C1 CI) as H. clear - H K0 K1. induction H as [|a b l l' H HF IH]; [reflexivity|]. apply Forall_cons_iff in K0, K1. destruct K0 as [[[_ Ea] _] K0], K1 as [[[_ Eb] _] K1].
    unfold ex_width in *. cbn [fold_right]. rewrite IH by assumption. congruence. }
  rewrite (@comp_exhausted n c c0 c1 _ (row_bytes t0) _ _ _ _ Hc HR); [reflexivity|exact O0|exact O1|left; exact HX| |]; cbn [cols]; rewrite ?EW; apply row_bytes_width.
Qed.
