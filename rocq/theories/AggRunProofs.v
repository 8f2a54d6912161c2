(* The Gmw runs of the tree compute their circuits' functions on the shares. *)
From Verif Require Import Base PrfModel PrfProofs GmwModel GmwSpec GmwProofs GmwIoModel GmwIoSpec GmwIoProofs ShuffleModel ShuffleSpec AggModel AggCirModel AggCirSpec AggCirProofs AggCirRun AggTwoModel AggTwoSpec AggTwoRel AggTwoTree AggRunModel GmwPrivacy BitInjProofs.

Lemma map_seq_nth {A} (f : nat -> A) n i d : i < n -> nth i (map f (seq 0 n)) d = f i.
Proof. intros H. rewrite (@nth_map' _ _ f (seq 0 n) i 0 d) by (rewrite seq_length; exact H). rewrite seq_nth by exact H. reflexivity. Qed.

Lemma dc128 n : div_ceil n 128 = (n + 127) / 128.
Proof. unfold div_ceil. f_equal. lia. Qed.
Lemma lane_mat_ok past k i xs : tmat_ok (length xs) k (lane_mat past k i xs).
Proof.
  unfold lane_mat. rewrite dc128. split; [reflexivity|]. cbn [tmRows tmBytes]. rewrite map_length, seq_length. split; [reflexivity|]. split; [reflexivity|].
  apply Forall_forall. intros r H. apply in_map_iff in H. destruct H as (j & <- & _). rewrite map_length, seq_length. reflexivity.
Qed.
Lemma lane_mat_lane past k i xs r j : r < length xs -> j < k -> lane (tmRows (lane_mat past k i xs)) r j = nth j (nth i (nth r xs []) []) false.
Proof.
  intros Hr Hj. unfold lane, lane_mat. cbn [tmRows]. rewrite map_seq_nth by exact Hj.
  pose proof (Nat.mod_upper_bound r 128 ltac:(discriminate)) as M. pose proof (Nat.div_mod r 128 ltac:(discriminate)) as D.
  assert (L : r / 128 < div_ceil (length xs) 128).
  { unfold div_ceil. apply Nat.div_le_lower_bound; [discriminate|]. lia. }
  rewrite map_seq_nth by exact L. rewrite of_bits_bit, map_seq_nth by exact M. cbv zeta. rewrite <- D, (proj2 (Nat.ltb_lt _ _) Hr). reflexivity.
Qed.
Lemma out_mat_ok n k : tmat_ok n k (out_mat n k).
Proof.
  unfold out_mat. rewrite dc128. split; [reflexivity|]. cbn [tmRows tmBytes]. rewrite repeat_length. split; [reflexivity|]. split; [reflexivity|].
  apply Forall_forall. intros r H. apply repeat_spec in H. subst r. apply repeat_length.
Qed.
Lemma bundle_once (ls : list (list nat)) : NoDup (concat ls) -> forall i b i' b' w, nth_error ls i = Some b -> nth_error ls i' = Some b' -> In w b -> In w b' -> i' = i.
Proof.
  induction ls as [|l ls IH]; intros ND i b i' b' w H H' W W'; [destruct i; discriminate|]. cbn [concat] in ND.
  assert (K : forall j m, nth_error ls j = Some m -> In w m -> In w (concat ls)) by (intros j m Hj Hm; apply in_concat; exists m; split; [eapply nth_error_In; exact Hj|exact Hm]).
  destruct i as [|i], i' as [|i']; cbn [nth_error] in *; [reflexivity| | |].
  - injection H as <-. exfalso. exact (nodup_app_apart ND W (K _ _ H' W')).
  - injection H' as <-. exfalso. exact (nodup_app_apart ND W' (K _ _ H W)).
  - f_equal. eapply IH; [exact (nodup_app_r ND)|exact H|exact H'|exact W|exact W'].
Qed.
Lemma outputs_ok mapped n c ins outs : runnable c ins outs -> take_ok n (cOuts c) (lane_outputs mapped n c).
Proof.
  intros (_ & _ & E & _). unfold lane_outputs. split; [apply map_length|]. intros i b d Hb Hd. rewrite nth_error_map, Hb in Hd. cbn [option_map] in Hd.
  destruct mapped; [|discriminate]. assert (d = out_mat n (length b)) as -> by congruence. split; [apply out_mat_ok|].
  assert (ND : NoDup (concat (cOuts c))) by (apply (nodup_app_r (l := concat (cIns c))); rewrite E; apply seq_NoDup).
  intros i' b' w Hb' H H'. exact (@bundle_once _ ND _ _ _ _ _ Hb Hb' H H').
Qed.
Lemma inputs_nth tp c xs i b : nth_error (cIns c) i = Some b -> nth_error (lane_inputs tp c xs) i = Some (GMap (lane_mat (tpPast tp) (length b) i xs)).
Proof.
  intros H. unfold lane_inputs. rewrite nth_error_map.
  assert (E : nth_error (combine (seq 0 (length (cIns c))) (cIns c)) i = Some (i, b)).
  { pose proof (nth_error_lt H) as L. rewrite (nth_error_nth' _ (0, [])) by (rewrite combine_length, seq_length; lia).
    rewrite combine_nth by (rewrite seq_length; reflexivity). rewrite seq_nth by exact L. rewrite (nth_error_nth _ _ [] H). reflexivity. }
  rewrite E. reflexivity.
Qed.
Lemma inputs_len tp c xs : length (lane_inputs tp c xs) = length (cIns c).
Proof. unfold lane_inputs. rewrite map_length, combine_length, seq_length. lia. Qed.
Lemma take_ids ys g g' ids : take_all ys g = Ok (g', ids) -> forall i d, nth_error ys i = Some (Some d) -> exists q, nth_error ids i = Some (Some q).
Proof.
  unfold take_all.
  set (f := fun i (s : gmw * list (option nat)) => _).
  assert (G : forall m i s g' ids, i + m = length ys -> length (snd s) = i -> forN i m f s = Ok (g', ids) ->
    firstn i ids = snd s /\ length ids = length ys /\ forall j d, i <= j -> nth_error ys j = Some (Some d) -> exists q, nth_error ids j = Some (Some q)).
  { clear. induction m as [|m IH]; intros i s g' ids L1 L2 E; cbn [forN] in E.
    - assert (snd s = ids) as <- by (injection E as E'; rewrite E'; reflexivity). split; [apply firstn_all2; lia|]. split; [lia|]. intros j d Hj H. apply nth_error_lt in H. lia.
    - apply bind_inv in E. destruct E as (t & Et & E). unfold f in Et. apply bind_inv in Et. destruct Et as (y & Ey & Et).
      assert (HT : exists o, snd t = snd s ++ [o] /\ (forall d, y = Some d -> exists q, o = Some q)).
      { destruct y as [d|]; [|exists None; split; [injection Et as <-; reflexivity|discriminate]]. apply bind_inv in Et. destruct Et as (g2 & _ & Et).
        exists (Some (length (gHeap (fst s)))). split; [injection Et as <-; reflexivity|]. eauto. }
      destruct HT as (o & HT & HO). destruct (IH (i + 1) t g' ids) as (K1 & K2 & K3); [lia|rewrite HT, app_length; cbn [length]; lia|exact E|].
      assert (LI : length (snd s) = length (firstn i ids)) by (rewrite firstn_length; lia).
      assert (E1 : firstn i ids = snd s).
      { apply (f_equal (firstn i)) in K1. rewrite firstn_firstn, Nat.min_l in K1 by lia. rewrite K1, HT, firstn_app, L2, Nat.sub_diag, firstn_all2 by lia. cbn [firstn]. apply app_nil_r. }
      split; [exact E1|]. split; [exact K2|]. intros j d Hj H. destruct (Nat.eq_dec j i) as [->|D]; [|apply K3 with d; [lia|exact H]].
      unfold get in Ey. rewrite H in Ey. assert (y = Some d) by congruence. destruct (HO d H0) as (q & ->). exists q.
      assert (N : nth_error (firstn (i + 1) ids) i = Some (Some q)) by (rewrite K1, HT, nth_error_app2, L2, Nat.sub_diag by lia; reflexivity).
      rewrite <- (firstn_skipn (i + 1) ids), nth_error_app1 by (rewrite firstn_length; lia). exact N. }
  intros E i d H. destruct (G (length ys) 0 (g, []) g' ids eq_refl eq_refl E) as (_ & _ & K). apply (K i d); [lia|exact H].
Qed.
Lemma prepare_ids junk pad xs ys g g' ids : prepare junk pad xs ys g = Ok (g', ids) -> forall i d, nth_error ys i = Some (Some d) -> exists q, nth_error ids i = Some (Some q).
Proof. unfold prepare. intros E. apply bind_inv in E. destruct E as (x & _ & E). exact (@take_ids _ _ _ _ E). Qed.

(* no call changes the circuit's outputs *)
Lemma forN_keeps {A B} (p : A -> B) (f : nat -> A -> outcome A) : (forall j a a', f j a = Ok a' -> p a' = p a) -> forall n i a a', forN i n f a = Ok a' -> p a' = p a.
Proof. intros H. induction n as [|n IH]; intros i a a' E; cbn [forN] in E; [congruence|]. apply bind_inv in E. destruct E as (x & Ex & E). rewrite (IH _ _ _ E). exact (H _ _ _ Ex). Qed.
Ltac inv_do := match goal with H : bind _ _ = Ok _ |- _ => apply bind_inv in H; destruct H as (? & ? & H) | H : Ok _ = Ok _ |- _ => injection H as H; try subst end.
Lemma gmap_outs w p g g' : gmap w p g = Ok g' -> gOuts g' = gOuts g.
Proof. unfold gmap. intros E. do 2 inv_do. destruct x0; [discriminate|]. destruct (gRem g =? 0); [discriminate|]. inv_do. inv_do. reflexivity. Qed.
Lemma gmaps_outs (b : list nat) r n g g' : forN 0 n (fun j g => do w <- get b j; gmap w (r, j) g) g = Ok g' -> gOuts g' = gOuts g.
Proof. apply (@forN_keeps _ _ gOuts). intros j a a' E. inv_do. exact (gmap_outs E). Qed.
Lemma view_outs junk bs i g g' p b : bundle_view junk bs i g = Ok (g', p, b) -> gOuts g' = gOuts g.
Proof.
  unfold bundle_view, mem_view. intros E. do 3 inv_do. do 3 (apply bind_inv in H1; destruct H1 as (? & ? & H1)). destruct x4.
  - apply bind_inv in H1. destruct H1 as (? & ? & H1). assert (g' = g) by congruence. subst. reflexivity.
  - apply bind_inv in H1. destruct H1 as (? & ? & H1). apply gmaps_outs in H5. assert (g' = x4) by congruence. subst. exact H5.
Qed.
Lemma put_outs p x g g' : put_row p x g = Ok g' -> gOuts g' = gOuts g.
Proof. unfold put_row. intros E. do 5 inv_do. inv_do. reflexivity. Qed.
Lemma map_bundle_outs bs i d g g' : map_bundle bs i d g = Ok g' -> gOuts g' = gOuts g.
Proof. unfold map_bundle. intros E. do 5 inv_do. cbv zeta in E. apply gmaps_outs in E. exact E. Qed.
Lemma give_outs junk pad xs g g' : give_all junk pad xs g = Ok g' -> gOuts g' = gOuts g.
Proof.
  unfold give_all. apply (@forN_keeps _ _ gOuts). intros j a a' E. inv_do. destruct x as [|al cols rows|d].
  - unfold set_zero_input in E. apply bind_inv in E. destruct E as (((y & r & o) & b) & Ey & E). rewrite <- (view_outs Ey). revert E. apply (@forN_keeps _ _ gOuts). intros k z z' E. exact (put_outs E).
  - unfold set_input in E. apply bind_inv in E. destruct E as (((y & r & o) & b) & Ey & E). cbv zeta in E. destruct (al * 8 =? 0); [discriminate|]. rewrite <- (view_outs Ey). do 2 inv_do. revert E. apply (@forN_keeps _ _ gOuts). intros k z z' E. exact (put_outs E).
  - exact (map_bundle_outs E).
Qed.
Lemma take_outs ys g g' ids : take_all ys g = Ok (g', ids) -> gOuts g' = gOuts g.
Proof.
  unfold take_all. intros E. change (gOuts (fst (g', ids)) = gOuts (fst (g, @nil (option nat)))). revert E. apply (@forN_keeps _ _ (fun s => gOuts (fst s))). intros j a a' E. inv_do. destruct x as [d|].
  - apply bind_inv in E. destruct E as (y & Ey & E). injection E as <-. exact (map_bundle_outs Ey).
  - injection E as <-. reflexivity.
Qed.
Lemma prepare_outs junk pad xs ys g g' ids : prepare junk pad xs ys g = Ok (g', ids) -> gOuts g' = gOuts g.
Proof. unfold prepare. intros E. apply bind_inv in E. destruct E as (y & Ey & E). rewrite (take_outs E). exact (give_outs Ey). Qed.
Lemma finalize_outs junk g g' : finalize junk g = Ok g' -> gOuts g' = gOuts g.
Proof.
  unfold finalize. intros E. inv_do. destruct (gRem g =? 0); [congruence|]. cbv zeta in E. apply bind_inv in E. destruct E as (s & Es & E).
  destruct (gRem (fst s) =? 0); [|discriminate]. injection E as <-. change (gOuts (fst s) = gOuts (fst (fresh junk (gRem g) g, 0))). revert Es. apply (@forN_keeps _ _ (fun s => gOuts (fst s))).
  intros j a a' E. inv_do. destruct x0; [congruence|]. apply bind_inv in E. destruct E as (y & Ey & E). injection E as <-. exact (gmap_outs Ey).
Qed.
Lemma store_outs m g g' : store_wires m g = Ok g' -> gOuts g' = gOuts g.
Proof. unfold store_wires. apply (@forN_keeps _ _ gOuts). intros j a a' E. do 2 inv_do. destruct x; [|discriminate]. exact (put_outs E). Qed.
Lemma exec_outs lvs j0 j1 s0 s1 g0 g1 h0 h1 : gmw_exec lvs j0 j1 s0 s1 g0 g1 = Ok (h0, h1) -> gOuts h0 = gOuts g0 /\ gOuts h1 = gOuts g1.
Proof.
  unfold gmw_exec. intros E. apply bind_inv in E. destruct E as (a0 & E0 & E). apply bind_inv in E. destruct E as (a1 & E1 & E). do 2 inv_do.
  apply bind_inv in E. destruct E as (r & _ & E). destruct r as ((((m0 & ?) & ?) & ((m1 & ?) & ?)) & ?). apply bind_inv in E. destruct E as (b0 & B0 & E). apply bind_inv in E. destruct E as (b1 & B1 & E).
  assert (b0 = h0 /\ b1 = h1) as [<- <-] by (split; congruence). rewrite (store_outs B0), (store_outs B1), (finalize_outs E0), (finalize_outs E1). auto.
Qed.

Lemma mapO_two {A B C} (f0 : A -> outcome B) (f1 : A -> outcome C) (Q : A -> B -> C -> Prop) l : (forall p, In p l -> exists v0 v1, f0 p = Ok v0 /\ f1 p = Ok v1 /\ Q p v0 v1) ->
  exists os0 os1, mapO f0 l = Ok os0 /\ mapO f1 l = Ok os1 /\ length os0 = length l /\ length os1 = length l /\
    forall i p, nth_error l i = Some p -> exists v0 v1, nth_error os0 i = Some v0 /\ nth_error os1 i = Some v1 /\ Q p v0 v1.
Proof.
  induction l as [|a l IH]; intros H; [exists [], []; repeat (split; [reflexivity|]); intros [|i] p E; discriminate|].
  destruct (H a (or_introl eq_refl)) as (v0 & v1 & E0 & E1 & HQ). destruct IH as (os0 & os1 & M0 & M1 & L0 & L1 & K); [intros p Hp; apply H; right; exact Hp|].
  exists (v0 :: os0), (v1 :: os1). cbn [mapO]. rewrite E0, E1. cbn [bind]. rewrite M0, M1. cbn [bind length]. repeat (split; [auto|]).
  intros [|i] p E; cbn [nth_error] in *; [|exact (K i p E)]. assert (p = a) as -> by congruence. eauto.
Qed.

(* the randomness and memory of a run: enough correlations *)
Definition tapes_ok (n : nat) (lvs : list level) (t0 t1 : tape) : Prop :=
  ole_segs (tpCor t0) (tpCor t1) /\ even_segs (tpCor t0) /\ demand ((n + 127) / 128) lvs <= length (concat (tpCor t0)).

Lemma lane_row_vals c ins outs t0 t1 x0 x1 x r a b v : runnable c ins outs -> F3 (lane_shares ins) x0 x1 x ->
  nth_error x0 r = Some a -> nth_error x1 r = Some b -> nth_error x r = Some v ->
  row_vals r (cIns c) (lane_inputs t0 c x0) (lane_inputs t1 c x1) = v.
Proof.
  intros (EI & _) HX Ha Hb Hv. destruct (f3_nth_error HX Hv) as (a' & b' & Ha' & Hb' & LA & LB & EV).
  assert (a' = a) by congruence. assert (b' = b) by congruence. subst a' b'.
  pose proof (nth_error_lt Ha) as RA. pose proof (nth_error_lt Hb) as RB.
  assert (LL : map (@length bool) (row_vals r (cIns c) (lane_inputs t0 c x0) (lane_inputs t1 c x1)) = ins) by (rewrite row_vals_len by apply inputs_len; exact EI).
  assert (L1 : length (row_vals r (cIns c) (lane_inputs t0 c x0) (lane_inputs t1 c x1)) = length (cIns c)) by (rewrite <- (map_length (@length bool)), LL, <- EI; apply map_length).
  assert (La : length a = length (cIns c)) by (rewrite <- (map_length (@length bool)), LA, <- EI; apply map_length).
  assert (Lb : length b = length (cIns c)) by (rewrite <- (map_length (@length bool)), LB, <- EI; apply map_length).
  subst v. apply (@list_eq_nth _ []); [rewrite L1, map2_length; lia|]. rewrite L1. intros i Hi.
  destruct (nth_error (cIns c) i) as [bd|] eqn:Eb; [|apply nth_error_None in Eb; lia].
  rewrite (nth_error_nth _ _ [] (@row_vals_nth r _ _ _ _ _ _ _ (inputs_len t0 c x0) (inputs_len t1 c x1) Eb (@inputs_nth t0 c x0 _ _ Eb) (@inputs_nth t1 c x1 _ _ Eb))).
  rewrite (@map2_nth _ _ _ (map2 xorb) a b i [] []) by lia. cbn [given_bit].
  assert (KA : length (nth i a []) = length bd).
  { pose proof (f_equal (fun l => nth i l 0) LA) as K. cbv beta in K. rewrite (@nth_map' _ _ (@length bool) a i []) in K by lia. rewrite K, <- EI, (@nth_map' _ _ (@length nat) (cIns c) i []) by lia. rewrite (nth_error_nth _ _ [] Eb). reflexivity. }
  assert (KB : length (nth i b []) = length bd).
  { pose proof (f_equal (fun l => nth i l 0) LB) as K. cbv beta in K. rewrite (@nth_map' _ _ (@length bool) b i []) in K by lia. rewrite K, <- EI, (@nth_map' _ _ (@length nat) (cIns c) i []) by lia. rewrite (nth_error_nth _ _ [] Eb). reflexivity. }
  apply (@list_eq_nth _ false); rewrite map_length, seq_length; [rewrite map2_length; lia|]. intros j Hj.
  rewrite map_seq_nth by exact Hj. rewrite !lane_mat_lane by assumption. rewrite (@map2_nth _ _ _ xorb _ _ j false false) by lia.
  rewrite (nth_error_nth _ _ [] Ha), (nth_error_nth _ _ [] Hb). reflexivity.
Qed.

Theorem gmw_lanes_ok mapped c ins outs F lvs n t0 t1 : runnable c ins outs -> computes c F -> Forall (fun n => 0 < n) ins -> Forall (fun n => 0 < n) outs -> outs <> [] ->
  levels_of c lvs -> 0 < n -> tapes_ok n lvs t0 t1 -> run_ok n ins outs F (gmw_lanes mapped n c lvs t0 t1).
Proof.
  intros HR HF P1 P2 NE HL Hn (HS & HE & HD) x0 x1 x Lx HX.
  pose proof HR as (EI & EO & _). pose proof (f3_len0 HX) as L0. pose proof (f3_len1 HX) as L1. rewrite Lx in L0, L1.
  assert (LI : length (cIns c) = length ins) by (rewrite <- EI, map_length; reflexivity).
  destruct (@run_rows c ins outs F lvs n (tpJunk t0) (tpJunk t1) (tpJunk2 t0) (tpJunk2 t1) (tpPast t0) (tpPast t1) (lane_inputs t0 c x0) (lane_inputs t1 c x1) (lane_outputs mapped n c) (lane_outputs mapped n c) (tpCor t0) (tpCor t1))
    as (g0 & g1 & ids0 & ids1 & h0 & h1 & G0 & G1 & GX & H); auto.
  { rewrite inputs_len. exact LI. } { rewrite inputs_len. exact LI. }
  { intros i b y Hb Hy. rewrite (@inputs_nth t0 c x0 _ _ Hb) in Hy. assert (y = GMap (lane_mat (tpPast t0) (length b) i x0)) as -> by congruence. cbn [given_ok]. rewrite <- L0. apply lane_mat_ok. }
  { intros i b y Hb Hy. rewrite (@inputs_nth t1 c x1 _ _ Hb) in Hy. assert (y = GMap (lane_mat (tpPast t1) (length b) i x1)) as -> by congruence. cbn [given_ok]. rewrite <- L1. apply lane_mat_ok. }
  { exact (@outputs_ok mapped n _ _ _ HR). } { exact (@outputs_ok mapped n _ _ _ HR). }
  unfold gmw_lanes. rewrite G0. cbn [bind]. rewrite G1. cbn [bind fst snd]. rewrite GX. cbn [bind fst snd].
  set (Q := fun (p : nat * list nat) (v0 v1 : list (list bool)) => forall r v, nth_error x r = Some v ->
    length (nth r v0 []) = length (snd p) /\ length (nth r v1 []) = length (snd p) /\ map2 xorb (nth r v0 []) (nth r v1 []) = nth (fst p) (F v) []).
  assert (EV : forall (A : Type) (l : list A) i p, nth_error (combine (seq 0 (length l)) l) i = Some p -> fst p = i /\ nth_error l i = Some (snd p)).
  { clear. intros A l i p H. assert (L : i < length l) by (apply nth_error_lt in H; rewrite combine_length, seq_length in H; lia).
    destruct (nth_error l i) as [b|] eqn:Eb; [|apply nth_error_None in Eb; lia].
    rewrite (nth_error_nth' _ (0, b)) in H by (rewrite combine_length, seq_length; lia). rewrite combine_nth in H by (rewrite seq_length; reflexivity).
    rewrite seq_nth in H by exact L. rewrite (nth_error_nth _ _ b Eb) in H. assert (p = (i, b)) as -> by (injection H as <-; reflexivity). split; reflexivity. }
  destruct (@mapO_two _ _ _ (fun p => lane_output mapped t0 n ids0 h0 (fst p) (snd p)) (fun p => lane_output mapped t1 n ids1 h1 (fst p) (snd p)) Q (combine (seq 0 (length (cOuts c))) (cOuts c))) as (os0 & os1 & M0 & M1 & LO0 & LO1 & K).
  { intros p Hp. apply In_nth_error in Hp. destruct Hp as (i & Hp). apply EV in Hp. destruct Hp as (Ep & Eb). rewrite Ep. destruct p as [i' b]. cbn [fst snd] in *. subst i'.
    assert (Eo : nth_error outs i = Some (length b)) by (rewrite <- EO, nth_error_map, Eb; reflexivity).
    destruct (H i (length b) 1 (div_ceil (length b) 8) (tpJunk t0) (tpJunk t1) (tpOutPad t0 i) (tpOutPad t1 i) Eo) as (o0 & o1 & X0 & X1 & LE0 & LE1 & _ & _ & HB & HM0 & HM1); [lia|rewrite Nat.div_1_r; unfold div_ceil; rewrite Nat.mul_1_l; reflexivity|].
    exists (map (fun r => map (sbit (nth r o0 [])) (seq 0 (length b))) (seq 0 n)), (map (fun r => map (sbit (nth r o1 [])) (seq 0 (length b))) (seq 0 n)).
    assert (HG : gOuts h0 = cOuts c /\ gOuts h1 = cOuts c) by (destruct (exec_outs GX) as [-> ->]; rewrite (prepare_outs G0), (prepare_outs G1); auto).
    assert (OUT : forall tp ids h o (HH : gOuts h = cOuts c), get_output (tpJunk tp) (tpOutPad tp i) i 1 n (div_ceil (length b) 8) h = Ok (h, o) -> length o = n ->
       (forall q, nth_error ids i = Some (Some q) -> exists rg, nth_error (gHeap h) q = Some rg /\ forall r j, r < n -> j < length b -> lane (rgRows rg) r j = sbit (nth r o []) j) ->
       (mapped = true -> exists q, nth_error ids i = Some (Some q)) ->
       lane_output mapped tp n ids h i b = Ok (map (fun r => map (sbit (nth r o [])) (seq 0 (length b))) (seq 0 n))).
    { intros tp ids h o HH EG LE HM HI. unfold lane_output. destruct mapped.
      - destruct (HI eq_refl) as (q & Eq). destruct (HM q Eq) as (rg & Er & HN). unfold get. rewrite Eq. cbn [bind]. rewrite Er. cbn [bind]. f_equal.
        apply map_ext_in. intros r Hr. apply in_seq in Hr. apply map_ext_in. intros j Hj. apply in_seq in Hj. apply HN; lia.
      - unfold get_output_bm. rewrite HH. rewrite (proj2 (Nat.ltb_ge _ _)) by (pose proof (nth_error_lt Eb); lia). cbn [throw_if bind]. unfold get. rewrite Eb. cbn [bind]. rewrite Nat.eqb_refl. cbn [negb throw_if bind].
        rewrite EG. cbn [bind snd]. f_equal. apply (@list_eq_nth _ []); rewrite !map_length, ?seq_length; [exact LE|]. intros r Hr. rewrite LE in Hr. rewrite map_seq_nth by exact Hr. rewrite (@nth_map' _ _ (row_bits (length b)) o r []) by lia. reflexivity. }
    assert (MI : forall junk pad xs g g' ids, prepare junk pad xs (lane_outputs mapped n c) g = Ok (g', ids) -> mapped = true -> exists q, nth_error ids i = Some (Some q)).
    { intros junk pad xs g g' ids E EM. eapply (@prepare_ids _ _ _ _ _ _ _ E). unfold lane_outputs. rewrite nth_error_map, Eb, EM. reflexivity. }
    split; [apply OUT; [exact (proj1 HG)|exact X0|exact LE0|exact HM0|exact (MI _ _ _ _ _ _ G0)]|].
    split; [apply OUT; [exact (proj2 HG)|exact X1|exact LE1|exact HM1|exact (MI _ _ _ _ _ _ G1)]|].
    intros r v Hv. pose proof (nth_error_lt Hv) as Hr. rewrite Lx in Hr. cbn [fst snd]. rewrite !map_seq_nth by exact Hr. rewrite !map_length, seq_length. split; [reflexivity|]. split; [reflexivity|].
    assert (Ra : nth_error x0 r = Some (nth r x0 [])) by (apply nth_error_nth'; lia). assert (Rb : nth_error x1 r = Some (nth r x1 [])) by (apply nth_error_nth'; lia).
    rewrite <- (@lane_row_vals _ _ _ t0 t1 _ _ _ _ _ _ _ HR HX Ra Rb Hv), <- (HB r Hr).
    apply (@list_eq_nth _ false); [rewrite map2_length, !map_length, seq_length; lia|]. intros j Hj. rewrite map2_length, !map_length, seq_length in Hj. rewrite (@map2_nth _ _ _ xorb _ _ j false false) by (rewrite map_length, seq_length; lia).
    rewrite !map_seq_nth by lia. reflexivity. }
  unfold lanes_back. rewrite M0. cbn [bind]. rewrite M1. cbn [bind]. eexists. eexists. split; [reflexivity|].
  rewrite combine_length, seq_length, Nat.min_id in LO0, LO1.
  apply f3_forall; rewrite ?map_length, ?seq_length; [lia|lia|].
  intros r a b y Ha Hb Hy. rewrite nth_error_map in Ha, Hb, Hy. destruct (nth_error x r) as [v|] eqn:Ev; [|discriminate].
  assert (Hr : r < n) by (apply nth_error_lt in Ev; lia). rewrite (nth_error_nth' _ 0) in Ha, Hb by (rewrite seq_length; exact Hr). rewrite seq_nth in Ha, Hb by exact Hr. cbn [option_map Nat.add] in Ha, Hb, Hy.
  assert (Ea : a = map (fun o => nth r o []) os0) by congruence. assert (Eb : b = map (fun o => nth r o []) os1) by congruence. assert (Ey : y = F v) by congruence. subst a b y. clear Ha Hb Hy.
  assert (LF : length (F v) = length (cOuts c)).
  { assert (Ra : nth_error x0 r = Some (nth r x0 [])) by (apply nth_error_nth'; lia). assert (Rb : nth_error x1 r = Some (nth r x1 [])) by (apply nth_error_nth'; lia).
    assert (LV : map (@length bool) v = ins) by (rewrite <- (@lane_row_vals _ _ _ t0 t1 _ _ _ _ _ _ _ HR HX Ra Rb Ev), row_vals_len by apply inputs_len; exact EI).
    rewrite <- (env_of_ins HR LV), <- (HF (env_of v)). apply map_length. }
  assert (KK : forall i, i < length (cOuts c) -> length (nth r (nth i os0 []) []) = nth i outs 0 /\ length (nth r (nth i os1 []) []) = nth i outs 0 /\ map2 xorb (nth r (nth i os0 []) []) (nth r (nth i os1 []) []) = nth i (F v) []).
  { intros i Hi. destruct (nth_error (combine (seq 0 (length (cOuts c))) (cOuts c)) i) as [p|] eqn:Ep; [|apply nth_error_None in Ep; rewrite combine_length, seq_length in Ep; lia].
    destruct (K i p Ep) as (v0 & v1 & N0 & N1 & HQ). destruct (EV _ _ _ _ Ep) as (Fp & Sp). destruct (HQ r v Ev) as (Q1 & Q2 & Q3).
    rewrite !(nth_error_nth _ _ [] N0), !(nth_error_nth _ _ [] N1). rewrite <- EO, !(@nth_map' _ _ (@length nat) (cOuts c) _ []) by lia. rewrite !(nth_error_nth _ _ [] Sp), Q1, Q2. rewrite Fp in Q3. auto. }
  assert (LO : length outs = length (cOuts c)) by (rewrite <- EO; apply map_length).
  split; [|split].
  - apply (@list_eq_nth _ 0); rewrite !map_length; [lia|]. intros i Hi. rewrite map_map, (@nth_map' _ _ _ os0 i []) by exact Hi. apply KK. lia.
  - apply (@list_eq_nth _ 0); rewrite !map_length; [lia|]. intros i Hi. rewrite map_map, (@nth_map' _ _ _ os1 i []) by exact Hi. apply KK. lia.
  - apply (@list_eq_nth _ []); [rewrite map2_length, !map_length; lia|]. intros i Hi. rewrite (@map2_nth _ _ _ (map2 xorb) _ _ i [] []) by (rewrite map_length; lia).
    rewrite (@nth_map' _ _ _ os0 i []), (@nth_map' _ _ _ os1 i []) by lia. symmetry. apply KK. lia.
Qed.
