From Verif Require Import Base ConvModel ShuffleModel ShuffleSpec GmwModel GmwSpec GmwProofs PrfModel PrfProofs CircuitProofs GmwIoModel GmwIoSpec GmwIoProofs.

(* ---------------- wires in and out of the run ---------------- *)
Lemma get_row_ok p g : ptr_ok g p -> exists x, get_row p g = Ok x /\ length x = gW g.
Proof.
  intros (rg & row & P1 & P2 & P3 & _). unfold get_row, get. rewrite P1. cbn [bind]. rewrite P2. cbn [bind]. unfold readN, slice.
  rewrite (proj2 (Nat.leb_le _ _)) by lia. cbn [skipn]. rewrite firstn_all2 by lia. eauto.
Qed.

Lemma mapO_get A B (f : A -> outcome B) (l : list A) : (forall i x, nth_error l i = Some x -> exists y, f x = Ok y) ->
  exists r, mapO f l = Ok r /\ length r = length l /\ forall i x, nth_error l i = Some x -> exists y, nth_error r i = Some y /\ f x = Ok y.
Proof.
  induction l as [|a l IH]; intros H.
  - exists []. split; [reflexivity|]. split; [reflexivity|]. intros [|i] x Hx; discriminate Hx.
  - cbn [mapO]. destruct (H 0 a eq_refl) as [y Ey]. rewrite Ey. cbn [bind]. destruct IH as (r & -> & L & R); [intros i x Hx; exact (H (S i) x Hx)|].
    exists (y :: r). split; [reflexivity|]. split; [cbn [length]; lia|]. intros [|i] x Hx; cbn [nth_error] in *.
    + injection Hx as <-. exists y. auto.
    + exact (R i x Hx).
Qed.

Definition all_mapped (g : gmw) : Prop := forall w, w < length (gWords g) -> exists p, nth_error (gWords g) w = Some (Some p).

Lemma load_ok g : inv g -> all_mapped g ->
  exists m, load_wires g = Ok m /\ length m = length (gWords g) /\ Forall (fun x => length x = gW g) m /\
    forall w p, nth_error (gWords g) w = Some (Some p) -> get_row p g = Ok (nth w m []).
Proof.
  intros HI HA. unfold load_wires.
  destruct (@mapO_get (option (nat * nat)) (list N) (fun p => match p with Some p => get_row p g | None => UB end) (gWords g)) as (m & -> & L & R).
  { intros i x Hx. destruct (HA i (nth_error_lt Hx)) as [p Hp]. assert (x = Some p) as -> by congruence. destruct (get_row_ok (inv_ptr HI Hp)) as (y & E & _). eauto. }
  exists m. split; [reflexivity|]. split; [exact L|]. split.
  - apply Forall_forall. intros y Hy. apply In_nth_error in Hy. destruct Hy as [i Hi]. pose proof (nth_error_lt Hi) as Li. rewrite L in Li.
    destruct (HA i Li) as [p Hp]. destruct (R i _ Hp) as (y' & E1 & E2). assert (y' = y) as -> by congruence. destruct (get_row_ok (inv_ptr HI Hp)) as (z & E3 & E4). congruence.
  - intros w p Hp. destruct (R w _ Hp) as (y & E1 & E2). rewrite E2. f_equal. symmetry. apply nth_error_nth. exact E1.
Qed.

Lemma store_ok m g : inv g -> all_mapped g -> length m = length (gWords g) -> Forall (fun x => length x = gW g) m ->
  exists g', store_wires m g = Ok g' /\ same_state g g' /\
    forall w p, nth_error (gWords g) w = Some (Some p) -> get_row p g' = Ok (nth w m []).
Proof.
  intros HI HA HL HF. unfold store_wires.
  destruct (@forN_inv gmw (fun i g' => same_state g g' /\ forall w p, w < i -> nth_error (gWords g) w = Some (Some p) -> get_row p g' = Ok (nth w m []))
    (fun i g => do p <- get (gWords g) i; do x <- get m i; match p with Some p => put_row p x g | None => UB end) (length (gWords g)) 0 g) as (g' & E & H1 & H2).
  - split; [unfold same_state; intuition|]. intros w p H. lia.
  - intros i g1 Hi [S R]. pose proof S as (S1 & S2 & S3 & S4 & S5 & S6 & S7). destruct (HA i ltac:(lia)) as [p Hp].
    rewrite S4. unfold get at 1. rewrite Hp. cbn [bind]. destruct (nth_error m i) as [x|] eqn:EX; [|apply nth_error_None in EX; lia].
    unfold get at 1. rewrite EX. cbn [bind]. assert (EW : gW g1 = gW g) by (unfold gW; rewrite S1; reflexivity).
    destruct (@put_row_ok p x g1) as (g2 & E & F1 & F2 & F3 & F4 & F5 & F6 & F7 & F8 & F9).
    + apply S7. exact (inv_ptr HI Hp).
    + rewrite EW. rewrite Forall_forall in HF. apply HF. exact (nth_error_In _ _ EX).
    + exists g2. split; [exact E|]. split.
      * unfold same_state. rewrite F1, F2, F3, F4, F5, F6. repeat (split; [assumption|]). intros q. rewrite F7. apply S7.
      * intros w q Hw Hq. destruct (Nat.eq_dec w i) as [->|D].
        -- assert (q = p) as -> by congruence. rewrite F8. f_equal. symmetry. apply nth_error_nth. exact EX.
        -- rewrite F9; [apply R; [lia|exact Hq]|]. intros ->. apply D. exact (inv_inj HI Hq Hp).
  - exists g'. split; [exact E|]. split; [exact H1|]. intros w p Hp. apply H2; [exact (nth_error_lt Hp)|exact Hp].
Qed.

(* ---------------- getOutput ---------------- *)
Lemma tr_out_bit pad cols mem i j : j < length mem -> j < 8 * cols ->
  sbit (tr_out pad cols mem i) j = N.testbit (nth (i / 128) (nth j mem []) 0%N) (N.of_nat (i mod 128)).
Proof.
  intros Hj Hc. unfold sbit, tr_out. assert (L : j / 8 < cols) by (apply Nat.div_lt_upper_bound; lia).
  match goal with |- N.testbit (nth _ (map ?f _) _) _ = _ => rewrite (nth_indep _ _ (f 0)) by (rewrite map_length, seq_length; exact L); rewrite (map_nth f) end.
  rewrite seq_nth by exact L. cbn [Nat.add]. rewrite of_bits_bit.
  pose proof (Nat.mod_upper_bound j 8 ltac:(discriminate)) as M. pose proof (Nat.div_mod j 8 ltac:(discriminate)) as D.
  match goal with |- nth _ (map ?f _) _ = _ => rewrite (nth_indep _ _ (f 0)) by (rewrite map_length, seq_length; exact M); rewrite (map_nth f) end.
  rewrite seq_nth by exact M. cbn [Nat.add]. rewrite <- D. rewrite (proj2 (Nat.ltb_lt _ _) Hj). reflexivity.
Qed.

Lemma view_mapped junk s k r o g : inv g -> 0 < k -> (forall j, j < k -> nth_error (gWords g) (s + j) = Some (Some (r, o + j))) ->
  mem_view junk (seq s k) g = Ok (g, (r, o)).
Proof.
  intros HI Hk HW. unfold mem_view. rewrite seq_consec. cbn [negb throw_if bind]. unfold get at 1. rewrite (@seq_nth_error s k 0) by lia. cbn [bind].
  unfold get at 1. rewrite (HW 0 Hk), Nat.add_0_r. cbn [bind]. rewrite seq_length.
  assert (E : forN 1 (k - 1) (fun j _ =>
      do a <- get (seq s k) (j - 1); do b <- get (seq s k) j;
      do p <- get (gWords g) a; do q <- get (gWords g) b;
      throw_if (negb (next_to g p q))) tt = Ok tt).
  { destruct (@forN_inv unit (fun _ _ => True) (fun j _ =>
      do a <- get (seq s k) (j - 1); do b <- get (seq s k) j;
      do p <- get (gWords g) a; do q <- get (gWords g) b;
      throw_if (negb (next_to g p q))) (k - 1) 1 tt I) as ([] & E & _); [|exact E].
    intros j [] Hj _. exists tt. split; [|exact I]. unfold get at 1. rewrite (@seq_nth_error s k (j - 1)) by lia. cbn [bind].
    unfold get at 1. rewrite (@seq_nth_error s k j) by lia. cbn [bind]. unfold get. rewrite (HW (j - 1)) by lia. cbn [bind]. rewrite (HW j) by lia. cbn [bind].
    unfold next_to. destruct (inv_ptr HI (HW j ltac:(lia))) as (rg & row & P1 & _ & _ & P4). cbn [fst] in P1. rewrite P1, Nat.eqb_refl, P4, Nat.eqb_refl.
    rewrite (proj2 (Nat.eqb_eq _ _)) by lia. reflexivity. }
  rewrite E. reflexivity.
Qed.

Lemma output_ok junk pad i al cols b s r o g : inv g -> nth_error (gOuts g) i = Some b -> b = seq s (length b) -> 0 < length b ->
  (forall j, j < length b -> nth_error (gWords g) (s + j) = Some (Some (r, o + j))) ->
  0 < al -> (length b + al * 8 - 1) / (al * 8) = cols / al ->
  exists out, get_output junk pad i al (gN g) cols g = Ok (g, out) /\ length out = gN g /\ Forall (fun l => length l = cols) out /\
    forall x j, x < gN g -> j < length b -> exists row, get_row (r, o + j) g = Ok row /\
      sbit (nth x out []) j = N.testbit (nth (x / 128) row 0%N) (N.of_nat (x mod 128)).
Proof.
  intros HI Hb Es Hk HW Hal Hc. unfold get_output. unfold bundle_view, throw_if. pose proof (nth_error_lt Hb) as Li. rewrite (proj2 (Nat.leb_gt _ _)) by exact Li. cbn [bind].
  unfold get at 1. rewrite Hb. cbn [bind]. assert (EV : mem_view junk b g = Ok (g, (r, o))) by (pose proof (view_mapped junk HI Hk HW) as Q; rewrite <- Es in Q; exact Q). rewrite EV. cbn [bind]. cbv zeta.
  rewrite (proj2 (Nat.eqb_neq (al * 8) 0)) by lia. rewrite Hc, Nat.eqb_refl. cbn [negb bind]. rewrite Nat.eqb_refl. cbn [negb bind].
  destruct (@mapO_get nat (list N) (fun j => get_row (r, o + j) g) (seq 0 (length b))) as (mem & -> & L & R).
  { intros j x Hx. pose proof (nth_error_lt Hx) as Lx. rewrite seq_length in Lx. rewrite seq_nth_error in Hx by exact Lx. injection Hx as <-.
    destruct (get_row_ok (inv_ptr HI (HW j Lx))) as (y & E & _). eauto. }
  rewrite seq_length in L. cbn [bind]. eexists. split; [reflexivity|]. split; [rewrite map_length, seq_length; reflexivity|]. split.
  { apply Forall_forall. intros l Hl. apply in_map_iff in Hl. destruct Hl as (x & <- & _). unfold tr_out. rewrite map_length, seq_length. reflexivity. }
  intros x j Hx Hj. destruct (R j j (@seq_nth_error 0 (length b) j Hj)) as (row & E1 & E2). exists row. split; [exact E2|].
  rewrite (nth_indep _ [] (tr_out pad cols mem 0)) by (rewrite map_length, seq_length; exact Hx). rewrite map_nth, seq_nth by exact Hx. cbn [Nat.add].
  rewrite tr_out_bit; [rewrite (nth_error_nth _ _ _ E1); reflexivity|lia|].
  assert (H1 : length b <= al * 8 * (cols / al)).
  { rewrite <- Hc. pose proof (Nat.div_mod (length b + al * 8 - 1) (al * 8) ltac:(lia)) as D. pose proof (Nat.mod_upper_bound (length b + al * 8 - 1) (al * 8) ltac:(lia)) as M.
    clear -D M Hal. remember (al * 8) as a. remember ((length b + a - 1) / a) as q. remember ((length b + a - 1) mod a) as t. clear Heqq Heqt. nia. }
  pose proof (Nat.mul_div_le cols al ltac:(lia)) as H2. clear -H1 H2 Hj. remember (cols / al) as q. clear Heqq. nia.
Qed.

(* ---------------- mapOutput ---------------- *)
Lemma map_heap (b : list nat) r : forall k i g g', forN i k (fun j g => do w <- get b j; gmap w (r, j) g) g = Ok g' -> gHeap g' = gHeap g.
Proof.
  induction k as [|k IH]; intros i g g' H; cbn [forN] in H; [injection H as <-; reflexivity|].
  destruct (do w <- get b i; gmap w (r, i) g) as [g1| | |] eqn:E1; cbn [bind] in H; try discriminate H. rewrite (IH _ _ _ H).
  destruct (get b i) as [w| | |]; cbn [bind] in E1; try discriminate E1. unfold gmap, throw_if in E1.
  destruct (length (gWords g) <=? w); cbn [bind] in E1; try discriminate E1. destruct (get (gWords g) w) as [[q|]| | |]; cbn [bind] in E1; try discriminate E1.
  destruct (gRem g =? 0); try discriminate E1. destruct (set (gWords g) w (Some (r, i))) as [ws| | |]; cbn [bind] in E1; try discriminate E1. injection E1 as <-. reflexivity.
Qed.

Lemma attach_heap bs i d g g' : map_bundle bs i d g = Ok g' -> exists rg, gHeap g' = gHeap g ++ [rg].
Proof.
  unfold map_bundle, throw_if. intros H. destruct (length bs <=? i); cbn [bind] in H; try discriminate H. destruct (get bs i) as [b| | |]; cbn [bind] in H; try discriminate H.
  destruct (negb (length b =? length (tmRows d))); cbn [bind] in H; try discriminate H. destruct (negb (gN g =? tmEntries d)); cbn [bind] in H; try discriminate H.
  destruct (negb (tmBytes d mod 16 =? 0)); cbn [bind] in H; try discriminate H. cbv zeta in H. apply map_heap in H. eexists. exact H.
Qed.

Lemma take_all_ok n wires outs ys g : inv g -> gN g = n -> gOuts g = outs -> length (gWords g) = wires -> Forall (bundle_ok wires) outs -> take_ok n outs ys ->
  (forall w, In w (concat outs) -> nth_error (gWords g) w = Some None) ->
  exists g' ids, take_all ys g = Ok (g', ids) /\ inv g' /\ gN g' = gN g /\ gIns g' = gIns g /\ gOuts g' = gOuts g /\ length (gWords g') = wires /\
    (forall w, ~ In w (concat outs) -> nth_error (gWords g') w = nth_error (gWords g) w) /\
    (forall p, ptr_ok g p -> get_row p g' = get_row p g) /\ length ids = length ys /\
    forall i b, nth_error outs i = Some b ->
      (nth_error ys i = Some None -> nth_error ids i = Some None /\ forall w, In w b -> nth_error (gWords g') w = Some None) /\
      (forall d, nth_error ys i = Some (Some d) -> exists r, nth_error ids i = Some (Some r) /\ forall j w, nth_error b j = Some w -> nth_error (gWords g') w = Some (Some (r, j))).
Proof.
  intros HI HN HO HL HB (TL & TK) HU. unfold take_all.
  assert (HIn : forall i b w, nth_error outs i = Some b -> In w b -> In w (concat outs)).
  { intros i b w Hb Hw. apply in_concat. exists b. split; [exact (nth_error_In _ _ Hb)|exact Hw]. }
  destruct (@forN_inv (gmw * list (option nat)) (fun i s => inv (fst s) /\ gN (fst s) = gN g /\ gIns (fst s) = gIns g /\ gOuts (fst s) = gOuts g /\ length (gWords (fst s)) = wires /\
    (forall w, ~ In w (concat outs) -> nth_error (gWords (fst s)) w = nth_error (gWords g) w) /\
    (forall p, ptr_ok g p -> ptr_ok (fst s) p /\ get_row p (fst s) = get_row p g) /\ length (snd s) = i /\
    forall i' b, nth_error outs i' = Some b ->
      (i <= i' \/ nth_error ys i' = Some None -> forall w, In w b -> (forall k d, k < i -> nth_error ys k = Some (Some d) -> forall bk, nth_error outs k = Some bk -> ~ In w bk) -> nth_error (gWords (fst s)) w = Some None) /\
      (i' < i -> nth_error ys i' = Some None -> nth_error (snd s) i' = Some None) /\
      (forall d, i' < i -> nth_error ys i' = Some (Some d) -> exists r, nth_error (snd s) i' = Some (Some r) /\ forall j w, nth_error b j = Some w -> nth_error (gWords (fst s)) w = Some (Some (r, j))))
    (fun i s => do y <- get ys i;
    match y with
    | None => Ok (fst s, snd s ++ [None])
    | Some d => do g <- map_bundle (gOuts (fst s)) i d (fst s); Ok (g, snd s ++ [Some (length (gHeap (fst s)))])
    end) (length ys) 0 (g, [])) as ([g' ids] & E & H1 & H2 & H3 & H4 & H5 & H6 & H7 & H8 & H9).
  - cbn [fst snd]. split; [exact HI|]. do 3 (split; [reflexivity|]). split; [exact HL|]. split; [reflexivity|]. split; [auto|]. split; [reflexivity|].
    intros i b Hb. split; [|split; [intros; lia|intros d Hi; lia]]. intros _ w Hw _. apply HU. exact (HIn i b w Hb Hw).
  - intros i [g1 ids] Hi (G1 & G2 & G3 & G4 & G5 & G6 & G7 & G8 & G9). cbn [fst snd] in *.
    destruct (nth_error ys i) as [[d|]|] eqn:EY; [| |apply nth_error_None in EY; lia]; unfold get at 1; rewrite EY; cbn [bind].
    + destruct (nth_error outs i) as [b|] eqn:EB; [|apply nth_error_None in EB; lia]. destruct (TK i b d EB EY) as [TD TA].
      assert (OKb : bundle_ok wires b) by (rewrite Forall_forall in HB; apply HB; exact (nth_error_In _ _ EB)). destruct OKb as (s & B1 & B2 & B3).
      destruct (@map_ok (gOuts g1) i d b s g1) as (g2 & E & I2 & N1 & N2 & N3 & N4 & W1 & W2 & W3 & _); try assumption.
      * rewrite G4, HO. exact EB.
      * rewrite G5. exact B3.
      * intros w Hw. destruct (G9 i b EB) as [Q _]. apply Q; [left; lia|exact Hw|]. intros k dk Hk _ bk Hbk Hwk. pose proof (TA k bk w Hbk Hw Hwk). lia.
      * rewrite G2, HN. exact TD.
      * rewrite E. cbn [bind]. eexists. split; [reflexivity|]. cbn [fst snd]. rewrite N1, N2, N3, N4. split; [exact I2|]. do 4 (split; [assumption|]). split; [|split; [|split]].
        -- intros w Hw. rewrite W1; [apply G6; exact Hw|]. intros H. apply Hw. exact (HIn i b w EB H).
        -- intros p Hp. destruct (G7 p Hp) as [Q1 Q2]. split; [|rewrite W3 by exact Q1; exact Q2].
           destruct Q1 as (rg & row & P1 & P2 & P3 & P4).
           destruct (@attach_heap (gOuts g1) i d g1 g2 E) as (rows & EH). exists rg, row. rewrite EH, nth_error_app1 by exact (nth_error_lt P1).
           assert (gW g2 = gW g1) as -> by (unfold gW; rewrite N1; reflexivity). auto.
        -- rewrite app_length, G8. reflexivity.
        -- intros i' b' Hb'. destruct (G9 i' b' Hb') as (Q1 & Q2 & Q3). split; [|split].
           ++ intros Hi' w Hw HA. assert (Hnb : ~ In w b) by (apply (HA i d); [lia|exact EY|exact EB]). rewrite W1 by exact Hnb.
              apply Q1; [destruct Hi' as [Hi'|Hi']; [left; lia|right; exact Hi']|exact Hw|]. intros k dk Hk. apply HA. lia.
           ++ intros Hi' HY. assert (i' <> i) by congruence. rewrite nth_error_app1 by lia. apply Q2; [lia|exact HY].
           ++ intros d' Hi' HY. destruct (Nat.eq_dec i' i) as [->|D].
              ** exists (length (gHeap g1)). rewrite nth_error_app2 by lia. rewrite G8, Nat.sub_diag. split; [reflexivity|]. assert (b' = b) as -> by congruence.
                 intros j w Hw. apply W2. exact Hw.
              ** destruct (Q3 d' ltac:(lia) HY) as (r & R1 & R2). exists r. rewrite nth_error_app1 by lia. split; [exact R1|]. intros j w Hw. rewrite W1; [apply R2; exact Hw|].
                 intros H. apply D. apply (TA i' b' w); [exact Hb'|exact H|exact (nth_error_In _ _ Hw)].
    + eexists. split; [reflexivity|]. cbn [fst snd]. do 7 (split; [assumption|]). split; [rewrite app_length, G8; reflexivity|].
      intros i' b' Hb'. destruct (G9 i' b' Hb') as (Q1 & Q2 & Q3). split; [|split].
      * intros Hi' w Hw HA. apply Q1; [destruct Hi' as [Hi'|Hi']; [left; lia|right; exact Hi']|exact Hw|]. intros k dk Hk. apply HA. lia.
      * intros Hi' HY. destruct (Nat.eq_dec i' i) as [->|D]; [rewrite nth_error_app2 by lia; rewrite G8, Nat.sub_diag; reflexivity|]. rewrite nth_error_app1 by lia. apply Q2; [lia|exact HY].
      * intros d' Hi' HY. assert (i' <> i) by congruence. destruct (Q3 d' ltac:(lia) HY) as (r & R1 & R2). exists r. rewrite nth_error_app1 by lia. split; [exact R1|exact R2].
  - exists g', ids. split; [exact E|]. cbn [fst snd Nat.add] in *. do 6 (split; [assumption|]). split; [intros p Hp; apply H7; exact Hp|]. split; [exact H8|].
    intros i b Hb. destruct (H9 i b Hb) as (Q1 & Q2 & Q3). split.
    + intros HY. split; [apply Q2; [exact (nth_error_lt HY)|exact HY]|]. intros w Hw. apply Q1; [right; exact HY|exact Hw|].
      intros k d Hk HD bk Hbk Hwk. destruct (TK k bk d Hbk HD) as [_ TA]. pose proof (TA i b w Hb Hwk Hw). subst k. congruence.
    + intros d HY. apply (Q3 d); [exact (nth_error_lt HY)|exact HY].
Qed.

(* ---------------- dependence on the inputs ---------------- *)
Lemma well_def_eval inputs : forall gs defined e e', well_def inputs defined gs -> (forall w, In w defined -> e w = e' w) ->
  forall w, In w defined \/ (exists g, In g gs /\ gOut g = w) -> eval gs e w = eval gs e' w.
Proof.
  induction gs as [|g gs IH]; intros defined e e' HW HD w Hw.
  - destruct Hw as [Hw|(g & [] & _)]. apply HD. exact Hw.
  - destruct HW as (W1 & W2 & W3). unfold eval. simpl. fold (eval gs). apply (IH (gOut g :: defined)); auto.
    + intros k Hk. unfold step, put. assert (HV : gfun (gType g) (e (gIn0 g)) (e (gIn1 g)) = gfun (gType g) (e' (gIn0 g)) (e' (gIn1 g))).
      { rewrite (HD (gIn0 g)) by (apply W1; left; reflexivity).
        destruct (gType g) eqn:ET; simpl; auto; (rewrite (HD (gIn1 g)) by (apply W1; right; split; [rewrite ET; discriminate|reflexivity]); reflexivity). }
      rewrite HV. destruct (Nat.eqb_spec k (gOut g)); [reflexivity|]. apply HD. destruct Hk as [Hk|Hk]; [congruence|exact Hk].
    + destruct Hw as [Hw|(h & [<-|Hh] & Ho)]; [left; right; auto|left; left; auto|right; eauto].
Qed.

(* ---------------- what is rejected ---------------- *)
Lemma init_inv n wires ins outs : inv (gmw_init n wires ins outs).
Proof.
  constructor; cbn [gmw_init gRem gWords].
  - rewrite repeat_length. symmetry. apply rank_none_all.
  - intros v p H. apply nth_error_In in H. apply repeat_spec in H. discriminate H.
  - intros v1 v2 p H. apply nth_error_In in H. apply repeat_spec in H. discriminate H.
Qed.

Lemma set_shape junk pad n wires ins outs i b al cols x : nth_error ins i = Some b -> bundle_ok wires b -> 0 < al ->
  (length b + al * 8 - 1) / (al * 8) <> cols / al \/ length x <> n ->
  set_input junk pad i al cols x (gmw_init n wires ins outs) = Throw.
Proof.
  intros Hb (s & Es & Hk & Hs) Hal HD. unfold set_input, bundle_view, throw_if. cbn [gmw_init gIns]. rewrite (proj2 (Nat.leb_gt _ _) (nth_error_lt Hb)). cbn [bind].
  unfold get at 1. rewrite Hb. cbn [bind]. destruct (@view_fresh junk s (length b) (gmw_init n wires ins outs) (init_inv n wires ins outs) Hk) as (g' & rows & E & _ & EN & _).
  { cbn [gmw_init gWords]. rewrite repeat_length. exact Hs. }
  { intros v Hv. cbn [gmw_init gWords]. rewrite (nth_error_nth_lt None) by (rewrite repeat_length; lia). rewrite nth_repeat. reflexivity. }
  rewrite <- Es in E. change (gN (gmw_init n wires ins outs)) with n in EN. rewrite E. cbn [bind]. cbv zeta. rewrite (proj2 (Nat.eqb_neq (al * 8) 0)) by lia.
  destruct (Nat.eqb_spec ((length b + al * 8 - 1) / (al * 8)) (cols / al)) as [E1|_]; [|reflexivity]. cbn [negb bind]. destruct HD as [HD|HD]; [contradiction|].
  rewrite EN. rewrite (proj2 (Nat.eqb_neq _ _) HD). reflexivity.
Qed.

Lemma unset_throws junk g v : (forall u, In u (concat (gIns g)) -> u < length (gWords g)) -> In v (concat (gIns g)) -> nth_error (gWords g) v = Some None ->
  finalize junk g = Throw.
Proof.
  intros HR Hv HN. unfold finalize.
  assert (E : mapO (fun w => do p <- get (gWords g) w; throw_if (match p with None => true | _ => false end)) (concat (gIns g)) = Throw); [|rewrite E; reflexivity].
  revert HR Hv. induction (concat (gIns g)) as [|u l IH]; intros HR Hv; [contradiction|]. cbn [mapO].
  destruct (nth_error (gWords g) u) as [[p|]|] eqn:EU; [| |apply nth_error_None in EU; specialize (HR u (or_introl eq_refl)); lia]; unfold get at 1; rewrite EU; cbn [bind throw_if]; [|reflexivity].
  destruct Hv as [->|Hv]; [congruence|]. rewrite IH; [reflexivity|intros; apply HR; right; assumption|exact Hv].
Qed.

Lemma map_rejects bs i d g :
  length bs <= i \/ (exists b, nth_error bs i = Some b /\ (length b <> length (tmRows d) \/ gN g <> tmEntries d \/ tmBytes d mod 16 <> 0 \/
    exists v p, nth_error b 0 = Some v /\ nth_error (gWords g) v = Some (Some p))) ->
  map_bundle bs i d g = Throw.
Proof.
  unfold map_bundle, throw_if. intros [H|(b & Hb & H)]; [rewrite (proj2 (Nat.leb_le _ _) H); reflexivity|].
  rewrite (proj2 (Nat.leb_gt _ _) (nth_error_lt Hb)). cbn [bind]. unfold get at 1. rewrite Hb. cbn [bind].
  destruct (Nat.eqb_spec (length b) (length (tmRows d))) as [E1|_]; [|reflexivity]. cbn [negb bind].
  destruct (Nat.eqb_spec (gN g) (tmEntries d)) as [E2|_]; [|reflexivity]. cbn [negb bind].
  destruct (Nat.eqb_spec (tmBytes d mod 16) 0) as [E3|_]; [|reflexivity]. cbn [negb bind]. cbv zeta.
  destruct H as [H|[H|[H|(v & p & Hv & Hp)]]]; try contradiction. destruct b as [|v' b]; [discriminate Hv|]. cbn [nth_error] in Hv. injection Hv as ->.
  cbn [length forN get nth_error bind]. unfold gmap at 1, throw_if. cbn [gWords]. rewrite (proj2 (Nat.leb_gt _ _) (nth_error_lt Hp)). cbn [bind]. unfold get at 1. rewrite Hp. reflexivity.
Qed.

(* ---------------- both parties ---------------- *)
Section End2End.
Variables (n wires : nat) (ins outs : list (list nat)) (lvs : list level).
Hypothesis Hn : 0 < n.
Hypothesis HIO : io_ok wires ins outs.
Hypothesis HLv : Forall (level_ok wires) lvs.
Hypothesis Hne : concat (map fst lvs) <> [].
Let w := div_ceil n 128.

Lemma party_ready junk junk' pad xs ys : length xs = length ins -> (forall i b x, nth_error ins i = Some b -> nth_error xs i = Some x -> given_ok n (length b) x) ->
  take_ok n outs ys ->
  exists g ids g', prepare junk pad xs ys (gmw_init n wires ins outs) = Ok (g, ids) /\ finalize junk' g = Ok g' /\ inv g' /\ all_mapped g' /\
    gN g' = n /\ gOuts g' = outs /\ length (gWords g') = wires /\
    (forall i b x j v, nth_error ins i = Some b -> nth_error xs i = Some x -> nth_error b j = Some v ->
       exists p, nth_error (gWords g') v = Some (Some p) /\ get_row p g' = Ok (given_row (pad i) w x j)) /\
    forall i b s, nth_error outs i = Some b -> b = seq s (length b) -> exists r o,
      (forall j, j < length b -> nth_error (gWords g') (s + j) = Some (Some (r, o + j))) /\
      forall q, nth_error ids i = Some (Some q) -> r = q /\ o = 0.
Proof using Hn HIO.
  destruct HIO as (HB & HND & HBO & HDis). intros HL HX HT.
  destruct (@give_all_ok junk pad n wires ins outs xs HB HND HL HX) as (g0 & E0 & I0 & N1 & N2 & N3 & N4 & W1 & W2).
  destruct (@take_all_ok n wires outs ys g0 I0 N1 N3 N4 HBO HT) as (g & ids & E & I1 & K1 & K2 & K3 & K4 & V1 & V2 & V3 & V4).
  { intros v Hv. apply W1; [|apply HDis; exact Hv]. apply in_concat in Hv. destruct Hv as (b & Hb & Hv). rewrite Forall_forall in HBO. destruct (HBO b Hb) as (s & Es & _ & Ls).
    rewrite Es in Hv. apply in_seq in Hv. lia. }
  assert (W3 : forall i b x j v, nth_error ins i = Some b -> nth_error xs i = Some x -> nth_error b j = Some v ->
       exists p, nth_error (gWords g) v = Some (Some p) /\ get_row p g = Ok (given_row (pad i) w x j)).
  { intros i b x j v Hb Hx Hv. destruct (W2 i b x j v Hb Hx Hv) as (p & P1 & P2). exists p.
    rewrite V1; [|intros Ho; apply (HDis v Ho); apply in_concat; exists b; split; [exact (nth_error_In _ _ Hb)|exact (nth_error_In _ _ Hv)]].
    split; [exact P1|]. rewrite V2; [exact P2|exact (inv_ptr I0 P1)]. }
  destruct (@finalize_ok junk' g I1) as (g' & E' & I2 & M1 & M2 & M3 & M4 & F1 & F2).
  { intros v Hv. rewrite K2, N2 in Hv. apply in_concat in Hv. destruct Hv as (b & Hb & Hv). apply In_nth_error in Hb, Hv. destruct Hb as [i Hi], Hv as [j Hj].
    destruct (nth_error xs i) as [x|] eqn:EX; [|apply nth_error_None in EX; pose proof (nth_error_lt Hi); lia].
    destruct (W3 i b x j v Hi EX Hj) as (p & Hp & _). eauto. }
  exists g, ids, g'. split; [unfold prepare; rewrite E0; exact E|]. split; [exact E'|]. split; [exact I2|]. split.
  { intros v Hv. rewrite M4 in Hv. destruct (nth_error (gWords g) v) as [[p|]|] eqn:EV.
    - exists p. apply F1. exact EV.
    - eexists. apply F2. exact EV.
    - apply nth_error_None in EV. lia. }
  rewrite M1, M3, M4, K1, K3. do 3 (split; [assumption|]). split.
  - intros i b x j v Hb Hx Hv. destruct (W3 i b x j v Hb Hx Hv) as (p & P1 & P2). destruct (F1 v p P1) as [Q1 Q2]. exists p. split; [exact Q1|]. rewrite Q2. exact P2.
  - intros i b s Hb Es. destruct (V4 i b Hb) as [U1 U2]. destruct HT as [TL _].
    destruct (nth_error ys i) as [[d|]|] eqn:EY; [| |apply nth_error_None in EY; pose proof (nth_error_lt Hb); lia].
    + destruct (U2 d eq_refl) as (r & R1 & R2). exists r, 0. split; [|intros q Hq; split; [congruence|reflexivity]].
      intros j Hj. cbn [Nat.add]. apply F1. apply R2. rewrite Es. apply seq_nth_error. exact Hj.
    + destruct (U1 eq_refl) as [R1 R2]. exists (length (gHeap g)), (rank (gWords g) s). split; [|intros q Hq; congruence].
      assert (RN : forall j, j < length b -> nth_error (gWords g) (s + j) = Some None) by (intros j Hj; apply R2; rewrite Es; apply in_seq; lia).
      assert (RR : forall j, j < length b -> rank (gWords g) (s + j) = rank (gWords g) s + j).
      { induction j as [|j IH]; intros Hj; [rewrite !Nat.add_0_r; reflexivity|]. replace (s + S j) with (S (s + j)) by lia. rewrite (rank_S (RN j ltac:(lia))). cbn [is_none]. rewrite IH by lia. lia. }
      intros j Hj. rewrite <- RR by exact Hj. apply F2. apply RN. exact Hj.
Qed.

Theorem end_to_end junk0 junk1 junk0' junk1' pad0 pad1 xs0 xs1 ys0 ys1 s0 s1 :
  length xs0 = length ins -> length xs1 = length ins ->
  (forall i b x, nth_error ins i = Some b -> nth_error xs0 i = Some x -> given_ok n (length b) x) ->
  (forall i b x, nth_error ins i = Some b -> nth_error xs1 i = Some x -> given_ok n (length b) x) ->
  take_ok n outs ys0 -> take_ok n outs ys1 ->
  well_def (concat ins) (concat ins) (concat (map fst lvs)) ->
  (forall v, In v (concat outs) -> exists h, In h (concat (map fst lvs)) /\ gOut h = v) ->
  ole_segs s0 s1 -> even_segs s0 -> demand w lvs <= length (concat s0) ->
  exists g0 g1 ids0 ids1 h0 h1,
    prepare junk0 pad0 xs0 ys0 (gmw_init n wires ins outs) = Ok (g0, ids0) /\
    prepare junk1 pad1 xs1 ys1 (gmw_init n wires ins outs) = Ok (g1, ids1) /\
    gmw_exec lvs junk0' junk1' s0 s1 g0 g1 = Ok (h0, h1) /\
    forall i b al cols jk0 jk1 pd0 pd1, nth_error outs i = Some b -> 0 < al -> (length b + al * 8 - 1) / (al * 8) = cols / al ->
      exists o0 o1, get_output jk0 pd0 i al n cols h0 = Ok (h0, o0) /\ get_output jk1 pd1 i al n cols h1 = Ok (h1, o1) /\
        length o0 = n /\ length o1 = n /\ Forall (fun l => length l = cols) o0 /\ Forall (fun l => length l = cols) o1 /\
        (forall r j v e, r < n -> nth_error b j = Some v ->
          (forall i' b' x y j' v', nth_error ins i' = Some b' -> nth_error xs0 i' = Some x -> nth_error xs1 i' = Some y -> nth_error b' j' = Some v' ->
             e v' = xorb (given_bit x r j') (given_bit y r j')) ->
          xorb (sbit (nth r o0 []) j) (sbit (nth r o1 []) j) = eval (concat (map fst lvs)) e v) /\
        (forall q, nth_error ids0 i = Some (Some q) -> exists rg, nth_error (gHeap h0) q = Some rg /\
          forall r j, r < n -> j < length b -> lane (rgRows rg) r j = sbit (nth r o0 []) j) /\
        (forall q, nth_error ids1 i = Some (Some q) -> exists rg, nth_error (gHeap h1) q = Some rg /\
          forall r j, r < n -> j < length b -> lane (rgRows rg) r j = sbit (nth r o1 []) j).
Proof using Hn HIO HLv Hne.
  intros L0 L1 HX HY HT0 HT1 HWD HO HS He Hd. assert (Hw : 0 < w) by (unfold w, div_ceil; apply Nat.div_str_pos; lia).
  destruct (@party_ready junk0 junk0' pad0 xs0 ys0 L0 HX HT0) as (g0 & ids0 & f0 & A1 & A2 & A3 & A4 & A5 & A6 & A7 & A8 & A9).
  destruct (@party_ready junk1 junk1' pad1 xs1 ys1 L1 HY HT1) as (g1 & ids1 & f1 & B1 & B2 & B3 & B4 & B5 & B6 & B7 & B8 & B9).
  destruct (load_ok A3 A4) as (m0 & C1 & C2 & C3 & C4). destruct (load_ok B3 B4) as (m1 & D1 & D2 & D3 & D4).
  assert (W0 : gW f0 = w) by (unfold gW; rewrite A5; reflexivity). assert (W1 : gW f1 = w) by (unfold gW; rewrite B5; reflexivity).
  rewrite W0 in C3. rewrite W1 in D3. rewrite A7 in C2. rewrite B7 in D2.
  destruct (gmw_run_ok Hw HLv Hne (conj C2 C3) (conj D2 D3) HS He Hd) as (n0 & n1 & c0 & c1 & q0 & q1 & tr & RE & RM0 & RM1 & REV & _).
  destruct RM0 as [RL0 RF0], RM1 as [RL1 RF1].
  destruct (@store_ok n0 f0 A3 A4) as (h0 & S1 & S2 & S3); [congruence|rewrite W0; exact RF0|].
  destruct (@store_ok n1 f1 B3 B4) as (h1 & T1 & T2 & T3); [congruence|rewrite W1; exact RF1|].
  exists g0, g1, ids0, ids1, h0, h1. split; [exact A1|]. split; [exact B1|]. split.
  { unfold gmw_exec. rewrite A2. cbn [bind]. rewrite B2. cbn [bind]. rewrite C1. cbn [bind]. rewrite D1. cbn [bind]. rewrite W0, RE. cbn [bind]. rewrite S1. cbn [bind]. rewrite T1. reflexivity. }
  intros i b al cols jk0 jk1 pd0 pd1 Hb Hal Hc. destruct HIO as (_ & _ & HB & HDis).
  assert (OKb : bundle_ok wires b) by (rewrite Forall_forall in HB; apply HB; exact (nth_error_In _ _ Hb)). destruct OKb as (s & Es & Hk & Hs).
  destruct (A9 i b s Hb Es) as (r0 & rk0 & P0 & ID0). destruct (B9 i b s Hb Es) as (r1 & rk1 & P1 & ID1).
  pose proof (same_inv S2 A3) as I0. pose proof (same_inv T2 B3) as I1.
  destruct S2 as (S21 & S22 & S23 & S24 & _). destruct T2 as (T21 & T22 & T23 & T24 & _).
  destruct (@output_ok jk0 pd0 i al cols b s r0 rk0 h0 I0) as (o0 & O1 & O2 & O3 & O4); try assumption; [rewrite S23, A6; exact Hb|rewrite S24; exact P0|].
  destruct (@output_ok jk1 pd1 i al cols b s r1 rk1 h1 I1) as (o1 & U1 & U2 & U3 & U4); try assumption; [rewrite T23, B6; exact Hb|rewrite T24; exact P1|].
  rewrite S21, A5 in O1, O2, O4. rewrite T21, B5 in U1, U2, U4.
  assert (HREG : forall (h : gmw) r q o (words : list (option (nat * nat))), inv h -> gN h = n -> gWords h = words ->
    (forall j, j < length b -> nth_error words (s + j) = Some (Some (r, 0 + j))) ->
    (forall x j, x < n -> j < length b -> exists row, get_row (r, 0 + j) h = Ok row /\ sbit (nth x o []) j = N.testbit (nth (x / 128) row 0%N) (N.of_nat (x mod 128))) ->
    r = q -> exists rg, nth_error (gHeap h) q = Some rg /\ forall x j, x < n -> j < length b -> lane (rgRows rg) x j = sbit (nth x o []) j).
  { intros h r q o words IH NH <- WH OH <-. destruct (inv_ptr IH (WH 0 Hk)) as (rg & row & R1 & _). cbn [fst] in R1. exists rg. split; [exact R1|].
    intros x j Hx Hj. destruct (OH x j Hx Hj) as (row' & G & ->). unfold lane. destruct (inv_ptr IH (WH j Hj)) as (rg' & row2 & R1' & R2 & R3 & _). cbn [fst snd Nat.add] in *.
    assert (rg' = rg) as -> by congruence. unfold get_row, get in G. cbn [fst snd] in G. rewrite R1 in G. cbn [bind] in G. rewrite R2 in G. cbn [bind] in G.
    unfold readN, slice in G. rewrite (proj2 (Nat.leb_le _ _)) in G by lia. cbn [skipn] in G. rewrite firstn_all2 in G by lia. injection G as <-.
    rewrite (nth_error_nth _ _ _ R2). reflexivity. }
  exists o0, o1. do 6 (split; [assumption|]). split; [|split].
  - intros r j v e Hr Hv HE. assert (Lj : j < length b) by exact (nth_error_lt Hv). rewrite Es in Hv. rewrite seq_nth_error in Hv by exact Lj. injection Hv as <-.
    destruct (O4 r j Hr Lj) as (row0 & G0 & ->). destruct (U4 r j Hr Lj) as (row1 & G1 & ->).
    rewrite (S3 _ _ (P0 j Lj)) in G0. injection G0 as <-. rewrite (T3 _ _ (P1 j Lj)) in G1. injection G1 as <-.
    assert (Lc : r / 128 < w).
    { unfold w, div_ceil. apply Nat.div_lt_upper_bound; [discriminate|]. pose proof (Nat.div_mod (n + 128 - 1) 128 ltac:(discriminate)). pose proof (Nat.mod_upper_bound (n + 128 - 1) 128 ltac:(discriminate)). lia. }
    assert (Lk : (N.of_nat (r mod 128) < 128)%N). { pose proof (Nat.mod_upper_bound r 128 ltac:(discriminate)). lia. }
    pose proof (REV (r / 128) (N.of_nat (r mod 128)) Lc Lk (s + j)) as EQ.
    change (xorb (wbit n0 (r / 128) (N.of_nat (r mod 128)) (s + j)) (wbit n1 (r / 128) (N.of_nat (r mod 128)) (s + j)) = eval (concat (map fst lvs)) e (s + j)).
    unfold shared at 1 in EQ. rewrite EQ. clear EQ.
    apply (@well_def_eval (concat ins) _ (concat ins)); [exact HWD| |].
    + intros v Hv. apply in_concat in Hv. destruct Hv as (b' & Hb' & Hv). apply In_nth_error in Hb', Hv. destruct Hb' as [i' Hi'], Hv as [j' Hj'].
      destruct (nth_error xs0 i') as [x|] eqn:EX; [|apply nth_error_None in EX; pose proof (nth_error_lt Hi'); lia].
      destruct (nth_error xs1 i') as [y|] eqn:EY; [|apply nth_error_None in EY; pose proof (nth_error_lt Hi'); lia].
      rewrite (HE i' b' x y j' v Hi' EX EY Hj'). destruct (A8 i' b' x j' v Hi' EX Hj') as (p & Q1 & Q2). destruct (B8 i' b' y j' v Hi' EY Hj') as (p' & Q1' & Q2').
      unfold shared, wbit. rewrite (C4 _ _ Q1) in Q2. injection Q2 as ->. rewrite (D4 _ _ Q1') in Q2'. injection Q2' as ->.
      unfold w. rewrite (given_row_bit _ _ (HX i' b' x Hi' EX) Hr), (given_row_bit _ _ (HY i' b' y Hi' EY) Hr). reflexivity.
    + right. apply HO. apply in_concat. exists b. split; [exact (nth_error_In _ _ Hb)|]. rewrite Es. apply in_seq. lia.
  - intros q Hq. destruct (ID0 q Hq) as [Eq Eo]. rewrite Eo in *. apply (HREG h0 r0 q o0 (gWords f0) I0); [congruence|exact S24|exact P0|exact O4|exact Eq].
  - intros q Hq. destruct (ID1 q Hq) as [Eq Eo]. rewrite Eo in *. apply (HREG h1 r1 q o1 (gWords f1) I1); [congruence|exact T24|exact P1|exact U4|exact Eq].
Qed.
End End2End.
