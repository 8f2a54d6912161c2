(* A Gmw run between two parties that bring their inputs as the code lets them: what a party
   receives hides the other party's inputs. *)
From Verif Require Import Base PrfModel PrfProofs RoundPrivacy GmwModel GmwSpec GmwProofs GmwPrivSpec GmwPrivacy GmwIoModel GmwIoSpec GmwIoProofs GmwEndProofs ShuffleModel ShuffleSpec AggModel AggCirModel AggCirSpec AggCirProofs AggCirRun AggTwoModel AggTwoSpec AggTwoRel AggTwoTree AggRunModel AggRunProofs AggViewModel AggViewSpec AggViewHide PropsGmwPriv.

(* ---- all memory holds blocks of 128 bits ---- *)
Definition heap_blocks (g : gmw) : Prop := Forall (fun rg => blocks_mem (rgRows rg)) (gHeap g).
Definition given_blocks (x : given) : Prop := match x with GMap d => blocks_mem (tmRows d) | _ => True end.

Lemma forN_pres {A} (Q : A -> Prop) (f : nat -> A -> outcome A) : (forall j a a', Q a -> f j a = Ok a' -> Q a') -> forall n i a a', Q a -> forN i n f a = Ok a' -> Q a'.
Proof. intros H. induction n as [|n IH]; intros i a a' Ha E; cbn [forN] in E; [congruence|]. apply bind_inv in E. destruct E as (x & Ex & E). exact (IH _ _ _ (H _ _ _ Ha Ex) E). Qed.
Lemma forall_upd {A} (Q : A -> Prop) (l : list A) : forall i x, Forall Q l -> Q x -> Forall Q (upd l i x).
Proof. induction l as [|a l IH]; intros [|i] x H Hx; cbn [upd]; inversion H; subst; constructor; auto. Qed.
Lemma forall_set {A} (Q : A -> Prop) (l : list A) i x l' : Forall Q l -> Q x -> set l i x = Ok l' -> Forall Q l'.
Proof. unfold set. intros H Hx E. destruct (i <? length l); [|discriminate]. assert (l' = upd l i x) as -> by congruence. apply forall_upd; assumption. Qed.
Lemma forall_get {A} (Q : A -> Prop) (l : list A) i x : Forall Q l -> get l i = Ok x -> Q x.
Proof. unfold get. intros H E. destruct (nth_error l i) as [y|] eqn:EN; [|discriminate]. assert (y = x) by congruence. subst y. rewrite Forall_forall in H. apply H. exact (nth_error_In _ _ EN). Qed.
Lemma forall_firstn {A} (Q : A -> Prop) (l : list A) : forall i, Forall Q l -> Forall Q (firstn i l).
Proof. induction l as [|a l IH]; intros [|i] H; cbn [firstn]; auto. inversion H; subst. constructor; auto. Qed.
Lemma forall_skipn {A} (Q : A -> Prop) (l : list A) : forall i, Forall Q l -> Forall Q (skipn i l).
Proof. induction l as [|a l IH]; intros [|i] H; cbn [skipn]; auto. inversion H; subst. auto. Qed.
Lemma forall_readN {A} (Q : A -> Prop) (l : list A) o n x : Forall Q l -> readN l o n = Ok x -> Forall Q x.
Proof. unfold readN, slice. intros H E. destruct (o + n <=? length l); [|discriminate]. assert (x = firstn n (skipn o l)) as -> by congruence. apply forall_firstn, forall_skipn. exact H. Qed.
Lemma forall_writeN {A} (Q : A -> Prop) (l : list A) o x l' : Forall Q l -> Forall Q x -> writeN l o x = Ok l' -> Forall Q l'.
Proof. unfold writeN, overwrite. intros H Hx E. destruct (o + length x <=? length l); [|discriminate]. assert (l' = firstn o l ++ x ++ skipn (o + length x) l) as -> by congruence. apply Forall_app. split; [apply forall_firstn; exact H|]. apply Forall_app. split; [exact Hx|apply forall_skipn; exact H]. Qed.
Lemma bits_block l : length l <= 128 -> block128 (of_bits l).
Proof. intros H. unfold block128. change 128%N with (N.of_nat 128). apply of_bits_lt. exact H. Qed.

Lemma gmap_blocks w p g g' : heap_blocks g -> gmap w p g = Ok g' -> heap_blocks g'.
Proof. unfold gmap. intros H E. do 2 inv_do. destruct x0; [discriminate|]. destruct (gRem g =? 0); [discriminate|]. inv_do. inv_do. exact H. Qed.
Lemma gmaps_blocks (b : list nat) r n g g' : heap_blocks g -> forN 0 n (fun j g => do w <- get b j; gmap w (r, j) g) g = Ok g' -> heap_blocks g'.
Proof. apply (@forN_pres _ heap_blocks). intros j a a' Ha E. inv_do. exact (gmap_blocks Ha E). Qed.
Lemma fresh_blocks junk k g : junk_blocks junk -> heap_blocks g -> heap_blocks (fresh junk k g).
Proof.
  intros HJ H. unfold heap_blocks, fresh. cbn [gHeap]. apply Forall_app. split; [exact H|]. constructor; [|constructor]. cbn [rgRows]. apply Forall_forall. intros r Hr. apply in_map_iff in Hr. destruct Hr as (j & <- & _).
  apply Forall_forall. intros x Hx. apply in_map_iff in Hx. destruct Hx as (c & <- & _). apply HJ.
Qed.
Lemma view_blocks junk bs i g g' p b : junk_blocks junk -> heap_blocks g -> bundle_view junk bs i g = Ok (g', p, b) -> heap_blocks g'.
Proof.
  unfold bundle_view, mem_view. intros HJ H E. do 3 inv_do. do 3 (apply bind_inv in H2; destruct H2 as (? & ? & H2)). destruct x4.
  - apply bind_inv in H2. destruct H2 as (? & ? & H2). assert (g' = g) by congruence. subst. exact H.
  - apply bind_inv in H2. destruct H2 as (? & ? & H2). apply (gmaps_blocks (fresh_blocks _ HJ H)) in H6. assert (g' = x4) by congruence. subst. exact H6.
Qed.
Lemma put_blocks p x g g' : heap_blocks g -> Forall block128 x -> put_row p x g = Ok g' -> heap_blocks g'.
Proof.
  unfold put_row. intros H Hx E. do 5 inv_do. inv_do. unfold heap_blocks in *. cbn [gHeap]. pose proof (@forall_get _ _ _ _ _ H H0) as R. cbv beta in R.
  refine (forall_set H _ H4). cbn [rgRows]. refine (forall_set R _ H3). refine (@forall_writeN _ _ _ _ _ _ _ Hx H2). exact (forall_get R H1).
Qed.
Lemma map_bundle_blocks bs i d g g' : heap_blocks g -> blocks_mem (tmRows d) -> map_bundle bs i d g = Ok g' -> heap_blocks g'.
Proof.
  unfold map_bundle. intros H Hd E. do 5 inv_do. cbv zeta in E. revert E. apply gmaps_blocks. unfold heap_blocks. cbn [gHeap]. apply Forall_app. split; [exact H|]. constructor; [exact Hd|constructor].
Qed.
Lemma tr_in_blocks pad w x j : Forall block128 (tr_in pad w x j).
Proof. unfold tr_in. apply Forall_forall. intros y Hy. apply in_map_iff in Hy. destruct Hy as (c & <- & _). apply bits_block. rewrite map_length, seq_length. lia. Qed.
Lemma give_blocks junk pad xs g g' : junk_blocks junk -> Forall given_blocks xs -> heap_blocks g -> give_all junk pad xs g = Ok g' -> heap_blocks g'.
Proof.
  intros HJ HX. unfold give_all. apply (@forN_pres _ heap_blocks). intros j a a' Ha E. apply bind_inv in E. destruct E as (x & Ex & E). pose proof (forall_get HX Ex) as Gx. destruct x as [|al cols rows|d].
  - unfold set_zero_input in E. apply bind_inv in E. destruct E as (((y & r & o) & b) & Ey & E). revert E. apply (@forN_pres _ heap_blocks); [|exact (view_blocks HJ Ha Ey)].
    intros k z z' Hz E. refine (put_blocks Hz _ E). apply Forall_forall. intros v Hv. apply repeat_spec in Hv. subst v. reflexivity.
  - unfold set_input in E. apply bind_inv in E. destruct E as (((y & r & o) & b) & Ey & E). cbv zeta in E. destruct (al * 8 =? 0); [discriminate|]. do 2 inv_do. revert E. apply (@forN_pres _ heap_blocks); [|exact (view_blocks HJ Ha Ey)].
    intros k z z' Hz E. exact (put_blocks Hz (tr_in_blocks _ _ _ _) E).
  - exact (map_bundle_blocks Ha Gx E).
Qed.
Lemma take_blocks ys g g' ids : (forall d, In (Some d) ys -> blocks_mem (tmRows d)) -> heap_blocks g -> take_all ys g = Ok (g', ids) -> heap_blocks g'.
Proof.
  intros HY H E. unfold take_all in E. change (heap_blocks (fst (g', ids))). revert E. apply (@forN_pres _ (fun s => heap_blocks (fst s))); [|exact H]. intros j a a' Ha E. apply bind_inv in E. destruct E as (y & Ey & E). destruct y as [d|].
  - apply bind_inv in E. destruct E as (y & E1 & E). injection E as <-. cbn [fst]. refine (map_bundle_blocks Ha _ E1). apply HY. unfold get in Ey. destruct (nth_error ys j) as [z|] eqn:EN; [|discriminate]. assert (z = Some d) as -> by congruence. exact (nth_error_In _ _ EN).
  - injection E as <-. exact Ha.
Qed.
Lemma finalize_blocks junk g g' : junk_blocks junk -> heap_blocks g -> finalize junk g = Ok g' -> heap_blocks g'.
Proof.
  intros HJ H. unfold finalize. intros E. inv_do. destruct (gRem g =? 0); [congruence|]. cbv zeta in E. apply bind_inv in E. destruct E as (s & Es & E).
  destruct (gRem (fst s) =? 0); [|discriminate]. assert (g' = fst s) as -> by congruence. revert Es. apply (@forN_pres _ (fun s => heap_blocks (fst s))); [|exact (fresh_blocks _ HJ H)].
  intros j a a' Ha E'. inv_do. destruct x0; [congruence|]. apply bind_inv in E'. destruct E' as (y & Ey & E'). injection E' as <-. exact (gmap_blocks Ha Ey).
Qed.
Lemma mapO_forall {A B} (Q : B -> Prop) (f : A -> outcome B) : (forall a b, f a = Ok b -> Q b) -> forall l m, mapO f l = Ok m -> Forall Q m.
Proof. intros H. induction l as [|a l IH]; intros m E; cbn [mapO] in E; [assert (m = []) as -> by congruence; constructor|]. apply bind_inv in E. destruct E as (x & Ex & E). apply bind_inv in E. destruct E as (y & Ey & E). assert (m = x :: y) as -> by congruence. constructor; eauto. Qed.
Lemma load_blocks g m : heap_blocks g -> load_wires g = Ok m -> blocks_mem m.
Proof.
  intros H. unfold load_wires. apply mapO_forall. intros [p|] x E; [|discriminate]. unfold get_row in E. apply bind_inv in E. destruct E as (rg & E1 & E). apply bind_inv in E. destruct E as (row & E2 & E).
  exact (forall_readN (forall_get (forall_get H E1) E2) E).
Qed.

(* the correlation is symmetric, and the segments of both parties have the same sizes *)
Lemma f2_len {A B} (R : A -> B -> Prop) l m : Forall2 R l m -> length l = length m.
Proof. induction 1; cbn [length]; congruence. Qed.
Lemma ole_segs_sym s t : ole_segs s t -> ole_segs t s.
Proof. unfold ole_segs. induction 1 as [|a b s t H _ IH]; constructor; [|exact IH]. clear -H. induction H as [|p q a b H _ IH]; constructor; [exact (ole_sym H)|exact IH]. Qed.
Lemma ole_evens s t : ole_segs s t -> even_segs s -> even_segs t /\ length (concat t) = length (concat s).
Proof.
  unfold even_segs. induction 1 as [|a b s t H _ IH]; intros E; [split; [constructor|reflexivity]|]. inversion E; subst. destruct (IH H3) as [I1 I2]. pose proof (f2_len H) as L.
  split; [constructor; [rewrite <- L; assumption|exact I1]|]. cbn [concat]. rewrite !app_length. lia.
Qed.

(* ---- a party before the run ---- *)
Section Run.
Variables (n wires : nat) (ins outs : list (list nat)) (lvs : list level).
Hypothesis Hn : 0 < n.
Hypothesis HIO : io_ok wires ins outs.
Hypothesis HLv : Forall (level_ok wires) lvs.
Hypothesis Hne : concat (map fst lvs) <> [].
Let w := div_ceil n 128.

(* what a party brings *)
Definition brings (junk junk' : nat -> nat -> nat -> N) (xs : list given) (ys : list (option tmat)) : Prop :=
  junk_blocks junk /\ junk_blocks junk' /\ length xs = length ins /\ Forall given_blocks xs /\ (forall i b x, nth_error ins i = Some b -> nth_error xs i = Some x -> given_ok n (length b) x) /\
  take_ok n outs ys /\ (forall d, In (Some d) ys -> blocks_mem (tmRows d)).

Lemma party_mem junk junk' pad xs ys : brings junk junk' xs ys ->
  exists g ids f m, prepare junk pad xs ys (gmw_init n wires ins outs) = Ok (g, ids) /\ finalize junk' g = Ok f /\ load_wires f = Ok m /\ gW f = w /\ mem_ok wires w m /\ blocks_mem m /\
    forall m', mem_ok wires w m' -> exists h, store_wires m' f = Ok h.
Proof using Hn HIO.
  intros (J & J' & L & BX & HX & HT & BY). destruct (@party_ready n wires ins outs Hn HIO junk junk' pad xs ys L HX HT) as (g & ids & f & A1 & A2 & A3 & A4 & A5 & A6 & A7 & _).
  destruct (load_ok A3 A4) as (m & C1 & C2 & C3 & _). assert (W0 : gW f = w) by (unfold gW; rewrite A5; reflexivity).
  exists g, ids, f, m. split; [exact A1|]. split; [exact A2|]. split; [exact C1|]. split; [exact W0|]. split; [split; [congruence|rewrite <- W0; exact C3]|]. split.
  - refine (load_blocks _ C1). refine (finalize_blocks J' _ A2). unfold prepare in A1. apply bind_inv in A1. destruct A1 as (g1 & G1 & G2). refine (take_blocks BY _ G2). refine (give_blocks J BX _ G1). constructor.
  - intros m' [M1 M2]. destruct (@store_ok m' f A3 A4) as (h & S1 & _); [congruence|rewrite W0; exact M2|]. eauto.
Qed.

Lemma w_pos : 0 < w.
Proof using Hn. unfold w, div_ceil. apply Nat.div_str_pos. lia. Qed.

Lemma exec_val junk0' junk1' s0 s1 g0 g1 f0 f1 m0 m1 p0 p1 tr h0 h1 : finalize junk0' g0 = Ok f0 -> finalize junk1' g1 = Ok f1 -> load_wires f0 = Ok m0 -> load_wires f1 = Ok m1 ->
  gmw_run (gW f0) lvs m0 m1 s0 s1 = Ok (p0, p1, tr) -> store_wires (fst (fst p0)) f0 = Ok h0 -> store_wires (fst (fst p1)) f1 = Ok h1 ->
  gmw_exec_msg lvs junk0' junk1' s0 s1 g0 g1 = Ok ((h0, h1), tr).
Proof using. intros E1 E2 E3 E4 E5 E6 E7. unfold gmw_exec_msg. rewrite E1. cbn [bind]. rewrite E2. cbn [bind]. rewrite E3. cbn [bind]. rewrite E4. cbn [bind]. rewrite E5. cbn [bind fst snd]. rewrite E6. cbn [bind]. rewrite E7. reflexivity. Qed.

Lemma run_mem m0 m1 s0 s1 p0 p1 tr : mem_ok wires w m0 -> mem_ok wires w m1 -> ole_segs s0 s1 -> even_segs s0 -> demand w lvs <= length (concat s0) ->
  gmw_run w lvs m0 m1 s0 s1 = Ok (p0, p1, tr) -> mem_ok wires w (fst (fst p0)) /\ mem_ok wires w (fst (fst p1)).
Proof using Hn HLv Hne.
  intros M0 M1 HS He Hd E. destruct (gmw_run_ok w_pos HLv Hne M0 M1 HS He Hd) as (n0 & n1 & c0 & c1 & q0 & q1 & tr' & RE & RM0 & RM1 & _). rewrite RE in E. injection E as <- <- _. auto.
Qed.

(* party 0 looks *)
Theorem exec_hides1 junk0 junk1 junk0' junk1' pad0 pad1 xs0 xs1 xs1' ys0 ys1 s0 s1 :
  brings junk0 junk0' xs0 ys0 -> brings junk1 junk1' xs1 ys1 -> brings junk1 junk1' xs1' ys1 ->
  blocks_segs s0 -> triples_for s0 s1 -> even_segs s0 -> demand w lvs = length (concat s0) ->
  exists g0 g1 g1' id0 id1 id1' s1' h0 h1 h1' tr,
    prepare junk0 pad0 xs0 ys0 (gmw_init n wires ins outs) = Ok (g0, id0) /\
    prepare junk1 pad1 xs1 ys1 (gmw_init n wires ins outs) = Ok (g1, id1) /\
    prepare junk1 pad1 xs1' ys1 (gmw_init n wires ins outs) = Ok (g1', id1') /\ triples_for s0 s1' /\
    gmw_exec_msg lvs junk0' junk1' s0 s1 g0 g1 = Ok ((h0, h1), tr) /\ gmw_exec_msg lvs junk0' junk1' s0 s1' g0 g1' = Ok ((h0, h1'), tr) /\
    forall s2 h2 tr2, triples_for s0 s2 -> gmw_exec_msg lvs junk0' junk1' s0 s2 g0 g1' = Ok (h2, tr2) -> map snd tr2 = map snd tr -> s2 = s1'.
Proof using Hn HIO HLv Hne.
  intros B0 B1 B1' BS HS He Hd. destruct (@party_mem junk0 junk0' pad0 xs0 ys0 B0) as (g0 & id0 & f0 & m0 & A1 & A2 & A3 & A4 & A5 & A6 & A7).
  destruct (@party_mem junk1 junk1' pad1 xs1 ys1 B1) as (g1 & id1 & f1 & m1 & C1 & C2 & C3 & C4 & C5 & C6 & C7). destruct (@party_mem junk1 junk1' pad1 xs1' ys1 B1') as (g1' & id1' & f1' & m1' & D1 & D2 & D3 & D4 & D5 & D6 & D7).
  destruct (C54_hides_party1 w_pos HLv Hne A5 C5 D5 A6 C6 D6 BS HS He Hd) as (s1' & p0 & p1 & p1' & tr & T & R1 & R2 & U).
  destruct (run_mem A5 C5 (proj1 HS) He (Nat.eq_le_incl _ _ Hd) R1) as [M0 M1]. destruct (run_mem A5 D5 (proj1 T) He (Nat.eq_le_incl _ _ Hd) R2) as [_ M1'].
  destruct (A7 _ M0) as (h0 & S0). destruct (C7 _ M1) as (h1 & S1). destruct (D7 _ M1') as (h1' & S1').
  exists g0, g1, g1', id0, id1, id1', s1', h0, h1, h1', tr. do 4 (split; [assumption|]). rewrite <- A4 in R1, R2, U.
  split; [exact (@exec_val _ _ _ _ _ _ _ _ _ _ _ _ _ _ _ A2 C2 A3 C3 R1 S0 S1)|]. split; [exact (@exec_val _ _ _ _ _ _ _ _ _ _ _ _ _ _ _ A2 D2 A3 D3 R2 S0 S1')|].
  intros s2 h2 tr2 T2 E V. unfold gmw_exec_msg in E. rewrite A2 in E. cbn [bind] in E. rewrite D2 in E. cbn [bind] in E. rewrite A3 in E. cbn [bind] in E. rewrite D3 in E. cbn [bind] in E.
  apply bind_inv in E. destruct E as (((q0 & q1) & t) & E1 & E). apply bind_inv in E. destruct E as (k0 & _ & E). apply bind_inv in E. destruct E as (k1 & _ & E). cbn [snd] in E. assert (tr2 = t) as -> by congruence. exact (U s2 q0 q1 t T2 E1 V).
Qed.

(* party 1 looks *)
Theorem exec_hides0 junk0 junk1 junk0' junk1' pad0 pad1 xs0 xs0' xs1 ys0 ys1 s0 s1 :
  brings junk0 junk0' xs0 ys0 -> brings junk0 junk0' xs0' ys0 -> brings junk1 junk1' xs1 ys1 ->
  blocks_segs s1 -> triples_for s1 s0 -> even_segs s1 -> demand w lvs = length (concat s1) ->
  exists g0 g0' g1 id0 id0' id1 s0' h0 h0' h1 tr,
    prepare junk0 pad0 xs0 ys0 (gmw_init n wires ins outs) = Ok (g0, id0) /\
    prepare junk0 pad0 xs0' ys0 (gmw_init n wires ins outs) = Ok (g0', id0') /\
    prepare junk1 pad1 xs1 ys1 (gmw_init n wires ins outs) = Ok (g1, id1) /\ triples_for s1 s0' /\
    gmw_exec_msg lvs junk0' junk1' s0 s1 g0 g1 = Ok ((h0, h1), tr) /\ gmw_exec_msg lvs junk0' junk1' s0' s1 g0' g1 = Ok ((h0', h1), tr) /\
    forall s2 h2 tr2, triples_for s1 s2 -> gmw_exec_msg lvs junk0' junk1' s2 s1 g0' g1 = Ok (h2, tr2) -> map fst tr2 = map fst tr -> s2 = s0'.
Proof using Hn HIO HLv Hne.
  intros B0 B0' B1 BS HS He Hd. destruct (@party_mem junk0 junk0' pad0 xs0 ys0 B0) as (g0 & id0 & f0 & m0 & A1 & A2 & A3 & A4 & A5 & A6 & A7).
  destruct (@party_mem junk1 junk1' pad1 xs1 ys1 B1) as (g1 & id1 & f1 & m1 & C1 & C2 & C3 & C4 & C5 & C6 & C7). destruct (@party_mem junk0 junk0' pad0 xs0' ys0 B0') as (g0' & id0' & f0' & m0' & D1 & D2 & D3 & D4 & D5 & D6 & D7).
  destruct (C54_hides_party0 w_pos HLv Hne A5 D5 C5 A6 D6 C6 BS HS He Hd) as (s0' & p0 & p0' & p1 & tr & T & R1 & R2 & U).
  assert (EV : forall s, ole_segs s1 s -> ole_segs s s1 /\ even_segs s /\ demand w lvs <= length (concat s)).
  { intros s H. split; [exact (ole_segs_sym H)|]. destruct (ole_evens H He) as [H1 H2]. split; [exact H1|lia]. }
  destruct (EV _ (proj1 HS)) as (V1 & V2 & V3). destruct (EV _ (proj1 T)) as (V1' & V2' & V3').
  destruct (run_mem A5 C5 V1 V2 V3 R1) as [M0 M1]. destruct (run_mem D5 C5 V1' V2' V3' R2) as [M0' _].
  destruct (A7 _ M0) as (h0 & S0). destruct (C7 _ M1) as (h1 & S1). destruct (D7 _ M0') as (h0' & S0').
  exists g0, g0', g1, id0, id0', id1, s0', h0, h0', h1, tr. do 4 (split; [assumption|]).
  split; [rewrite <- A4 in R1; exact (@exec_val _ _ _ _ _ _ _ _ _ _ _ _ _ _ _ A2 C2 A3 C3 R1 S0 S1)|]. split; [rewrite <- D4 in R2; exact (@exec_val _ _ _ _ _ _ _ _ _ _ _ _ _ _ _ D2 C2 D3 C3 R2 S0' S1)|].
  intros s2 h2 tr2 T2 E V. unfold gmw_exec_msg in E. rewrite D2 in E. cbn [bind] in E. rewrite C2 in E. cbn [bind] in E. rewrite D3 in E. cbn [bind] in E. rewrite C3 in E. cbn [bind] in E. rewrite D4 in E.
  apply bind_inv in E. destruct E as (((q0 & q1) & t) & E1 & E). apply bind_inv in E. destruct E as (k0 & _ & E). apply bind_inv in E. destruct E as (k1 & _ & E). cbn [snd] in E. assert (tr2 = t) as -> by congruence. exact (U s2 q0 q1 t T2 E1 V).
Qed.
End Run.
