From Verif Require Import Base Words GmwModel ShuffleModel ShuffleSpec AggModel AggSpec GmwProofs ShuffleSpanProofs AggSizeProofs AggLoadProofs.

(* ---------------- lists of alternating elements ---------------- *)

Lemma odds_cons2 A (a b : A) l : odds (a :: b :: l) = b :: odds l.
Proof. unfold odds. cbn [tl evens]. destruct l; reflexivity. Qed.

Lemma evens_map A B (f : A -> B) l : evens (map f l) = map f (evens l) /\ odds (map f l) = map f (odds l).
Proof.
  induction l as [|a|a b l [IH1 IH2]] using list_pair_ind; try (split; reflexivity).
  cbn [map evens]. rewrite !odds_cons2. cbn [map]. rewrite IH1, IH2. split; reflexivity.
Qed.

Lemma evens_length A (l : list A) h : length l = 2 * h -> length (evens l) = h /\ length (odds l) = h.
Proof.
  revert h. induction l as [|a|a b l IH] using list_pair_ind; intros h H; simpl in H.
  - assert (h = 0) as -> by lia. split; reflexivity.
  - lia.
  - destruct h as [|h]; [lia|]. destruct (IH h) as [H1 H2]; [lia|].
    rewrite odds_cons2. cbn [evens length]. rewrite H1, H2. split; reflexivity.
Qed.

Lemma evens_app A (l m : list A) h : length l = 2 * h -> evens (l ++ m) = evens l ++ evens m /\ odds (l ++ m) = odds l ++ odds m.
Proof.
  revert h. induction l as [|a|a b l IH] using list_pair_ind; intros h H; simpl in H.
  - split; reflexivity.
  - lia.
  - destruct h as [|h]; [lia|]. destruct (IH h) as [H1 H2]; [lia|].
    cbn [app]. rewrite !odds_cons2. cbn [evens app]. rewrite H1, H2. split; reflexivity.
Qed.

Lemma interleave_evens A (l : list A) h : length l = 2 * h -> interleave (evens l) (odds l) = l.
Proof.
  revert h. induction l as [|a|a b l IH] using list_pair_ind; intros h H; simpl in H.
  - reflexivity.
  - lia.
  - destruct h as [|h]; [lia|]. rewrite odds_cons2. cbn [evens interleave]. rewrite (IH h) by lia. reflexivity.
Qed.

Lemma map_fst_combine A B (l : list A) (m : list B) : length l = length m -> map fst (combine l m) = l /\ map snd (combine l m) = m.
Proof.
  revert m. induction l as [|a l IH]; intros [|b m] H; simpl in H; try lia; [split; reflexivity|].
  destruct (IH m) as [H1 H2]; [lia|]. cbn [combine map fst snd]. rewrite H1, H2. split; reflexivity.
Qed.

Lemma writeN_whole A (z : A) n x : length x = n -> writeN (repeat z n) 0 x = Ok x.
Proof.
  intros H. rewrite writeN_ok by (rewrite repeat_length; lia). unfold overwrite. cbn [firstn app].
  rewrite skipn_all2 by (rewrite repeat_length; lia). rewrite app_nil_r. reflexivity.
Qed.

Lemma writeN_tail A (l : list A) p x : p + length x = length l -> writeN l p x = Ok (firstn p l ++ x).
Proof.
  intros H. rewrite writeN_ok by lia. unfold overwrite. rewrite (skipn_all2 (n := p + length x)) by lia.
  rewrite app_nil_r. reflexivity.
Qed.

Lemma writeN_head A (l m x : list A) : length x = length l -> writeN (l ++ m) 0 x = Ok (x ++ m).
Proof.
  intros H. rewrite writeN_ok by (rewrite app_length; lia). unfold overwrite. cbn [firstn app Nat.add].
  rewrite H. rewrite skipn_app_len by reflexivity. reflexivity.
Qed.

Lemma readN_head A (l m : list A) n : length l = n -> readN (l ++ m) 0 n = Ok l.
Proof.
  intros H. rewrite readN_ok by (rewrite app_length; lia). unfold slice. cbn [skipn].
  rewrite firstn_app_len by exact H. reflexivity.
Qed.

Lemma readN_all A (l : list A) n : length l = n -> readN l 0 n = Ok l.
Proof. intros H. rewrite <- (app_nil_r l) at 1. apply readN_head, H. Qed.

Lemma readN_last A (l m : list A) p n : length l = p -> length m = n -> readN (l ++ m) p n = Ok m.
Proof.
  intros H1 H2. rewrite readN_ok by (rewrite app_length; lia). unfold slice.
  rewrite skipn_app_len by exact H1. rewrite firstn_all2 by lia. reflexivity.
Qed.

Section Channel.
Context {V : Type} (zero : V) (ch : @chan V).
Notation lf := (V * bool)%type.

(* The aggregate of a nonempty list of leaves and the value sent down to a node from what is
   before and after it. *)
Variable agg : list lf -> lf.
Variable G : list lf -> list lf -> V.
Hypothesis agg1 : forall x, agg [x] = x.
Hypothesis agg_app : forall p q, p <> [] -> q <> [] -> agg (p ++ q) = cUp ch (agg p) (agg q).
Hypothesis G_down : forall b p q a, p <> [] -> q <> [] ->
  cDown ch (agg p) (agg q) (G b a) = (G b (q ++ a), G (b ++ p) a).

Definition pairs (P : list (list lf)) : list (list lf) := map2 (@app lf) (evens P) (odds P).

Fixpoint dvals (b : list lf) (P : list (list lf)) (a : list lf) : list V :=
  match P with
  | [] => []
  | p :: P' => G b (concat P' ++ a) :: dvals (b ++ p) P' a
  end.

Definition ne (P : list (list lf)) : Prop := Forall (fun p => p <> []) P.

Lemma dvals_length P : forall b a, length (dvals b P a) = length P.
Proof. induction P as [|p P IH]; intros b a; [reflexivity|]. cbn [dvals length]. rewrite IH. reflexivity. Qed.

Lemma dvals_app P : forall Q b a, dvals b (P ++ Q) a = dvals b P (concat Q ++ a) ++ dvals (b ++ concat P) Q a.
Proof.
  induction P as [|p P IH]; intros Q b a; cbn [dvals app concat]; [rewrite app_nil_r; reflexivity|].
  rewrite concat_app, IH, <- !app_assoc. reflexivity.
Qed.

Lemma pairs_cons2 p q P : pairs (p :: q :: P) = (p ++ q) :: pairs P.
Proof. unfold pairs. rewrite odds_cons2. reflexivity. Qed.

Lemma pairs_length P h : length P = 2 * h -> length (pairs P) = h.
Proof. intros H. destruct (evens_length H) as [H1 H2]. unfold pairs. rewrite map2_length. lia. Qed.

Lemma pairs_concat P h : length P = 2 * h -> concat (pairs P) = concat P.
Proof.
  revert h. induction P as [|p|p q P IH] using list_pair_ind; intros h H; simpl in H; [reflexivity|lia|].
  destruct h as [|h]; [lia|]. rewrite pairs_cons2. cbn [concat]. rewrite (IH h) by lia. rewrite app_assoc. reflexivity.
Qed.

Lemma pairs_ne P : ne P -> ne (pairs P).
Proof.
  induction P as [|p|p q P IH] using list_pair_ind; intros H.
  - constructor.
  - unfold pairs, odds. constructor.
  - inversion H as [|x1 l1 H1 H2 E]. inversion H2 as [|x2 l2 H3 H4 E2]. subst.
    rewrite pairs_cons2. constructor; [|apply IH; exact H4].
    intros E. apply app_eq_nil in E. apply H1, E.
Qed.

Lemma up_ok P h : length P = 2 * h -> ne P ->
  map2 (cUp ch) (evens (map agg P)) (odds (map agg P)) = map agg (pairs P).
Proof.
  revert h. induction P as [|p|p q P IH] using list_pair_ind; intros h H HN; simpl in H; [reflexivity|lia|].
  destruct h as [|h]; [lia|].
  inversion HN as [|x1 l1 H1 H2 E]. inversion H2 as [|x2 l2 H3 H4 E2]. subst.
  rewrite pairs_cons2. cbn [map]. rewrite odds_cons2. cbn [evens map2]. rewrite (IH h) by (auto; lia).
  rewrite agg_app by assumption. reflexivity.
Qed.

Lemma down_ok P h : forall b a, length P = 2 * h -> ne P ->
  map2 (fun (lr : lf * lf) v => cDown ch (fst lr) (snd lr) v) (combine (evens (map agg P)) (odds (map agg P))) (dvals b (pairs P) a)
  = combine (evens (dvals b P a)) (odds (dvals b P a)).
Proof.
  revert h. induction P as [|p|p q P IH] using list_pair_ind; intros h b a H HN; simpl in H; [reflexivity|lia|].
  destruct h as [|h]; [lia|].
  inversion HN as [|x1 l1 H1 H2 E]. inversion H2 as [|x2 l2 H3 H4 E2]. subst.
  rewrite pairs_cons2. cbn [map dvals]. rewrite !odds_cons2. cbn [evens combine map2 fst snd].
  rewrite (app_assoc b p q). rewrite (IH h) by (auto; lia). rewrite (@pairs_concat P h) by lia.
  rewrite G_down by assumption. cbn [concat]. rewrite <- (app_assoc q). reflexivity.
Qed.

Definition singles (X : list lf) : list (list lf) := map (fun x => [x]) X.

Lemma singles_agg X : map agg (singles X) = X.
Proof. unfold singles. rewrite map_map. rewrite <- (map_id X) at 2. apply map_ext. exact agg1. Qed.

Lemma singles_ne X : ne (singles X).
Proof. apply Forall_forall. intros p Hp. apply in_map_iff in Hp. destruct Hp as [x [<- _]]. discriminate. Qed.

Lemma singles_concat X : concat (singles X) = X.
Proof. unfold singles. induction X as [|x X IH]; [reflexivity|]. cbn [map concat app]. rewrite IH. reflexivity. Qed.

Lemma singles_length X : length (singles X) = length X.
Proof. apply map_length. Qed.

Lemma dvals_singles X : forall i b a, i < length X ->
  nth_error (dvals b (singles X) a) i = Some (G (b ++ firstn i X) (skipn (i + 1) X ++ a)).
Proof.
  clear agg1 agg_app G_down ch agg.
  induction X as [|x X IH]; intros i b a Hi; simpl in Hi; [lia|].
  cbn [singles map dvals]. fold (singles X). destruct i as [|i].
  - cbn [nth_error firstn skipn Nat.add]. rewrite app_nil_r, singles_concat. reflexivity.
  - cbn [nth_error firstn skipn Nat.add]. rewrite IH by lia. rewrite <- app_assoc. reflexivity.
Qed.

(* the nodes of level l, each given by its leaves *)
Fixpoint plev (P0 rest : list (list lf)) (l : nat) : list (list lf) :=
  match l with
  | 0 => P0
  | S l' => match l' with 0 => pairs P0 ++ rest | S _ => pairs (plev P0 rest l') end
  end.

Section One.
Variables (sh : shape) (X : list lf) (L0 top : nat).
Let P0 := singles (firstn L0 X).
Let rest := singles (skipn L0 X).
Let restX := skipn L0 X.
Let plv := plev P0 rest.
Let N := sN16 sh.

Hypothesis HX : length X = N.
Hypothesis HG0 : G [] [] = fst (agg X).
Hypothesis Htop : 1 <= top.
Hypothesis Hlen : length (sSizes sh) = top + 1.
Hypothesis Hsize : forall l, l <= top -> nth_error (sSizes sh) l = Some (length (plv l)).
Hypothesis Heven : forall l, l < top -> exists h, length (plv l) = 2 * h /\ 0 < h.
Hypothesis Hroot : length (plv top) = 1.
Hypothesis Hq : 1 < top -> exists h, length (pairs P0) = 2 * h.
Hypothesis HL0 : L0 <= N.
Hypothesis Hc : sComplete sh = true -> L0 = N.
Hypothesis Hi : sComplete sh = false -> 2 <= top /\ exists r m, sR sh = 16 * r /\ L0 = 32 * r /\ N = 16 * m /\ 2 * r <= m /\ length (plv 1) = 16 * (m - r).

Lemma complete_dec : {sComplete sh = true} + {sComplete sh = false}.
Proof. destruct (sComplete sh); [left|right]; reflexivity. Qed.

Lemma plv_ne l : ne (plv l).
Proof.
  unfold plv. induction l as [|l IH]; [apply singles_ne|]. cbn [plev]. destruct l as [|l].
  - apply Forall_app. split; [apply pairs_ne, singles_ne|apply singles_ne].
  - apply pairs_ne, IH.
Qed.

Lemma plv_S l : 1 <= l -> plv (S l) = pairs (plv l).
Proof. intros H. destruct l as [|l]; [lia|]. reflexivity. Qed.

Lemma plv_1 : plv 1 = pairs P0 ++ rest.
Proof. reflexivity. Qed.

Lemma P0_length : length P0 = L0.
Proof. unfold P0. rewrite singles_length, firstn_length. lia. Qed.

Lemma P0_half : exists h, L0 = 2 * h /\ 0 < h.
Proof. destruct (Heven (l := 0)) as [h [Hh Hp]]; [lia|]. change (plv 0) with P0 in Hh. rewrite P0_length in Hh. exists h. auto. Qed.

Lemma restX_complete : sComplete sh = true -> restX = [].
Proof. intros H. unfold restX. apply skipn_all2. rewrite (Hc H). lia. Qed.

Lemma concat_P0 : concat P0 = firstn L0 X.
Proof. apply singles_concat. Qed.

Lemma concat_rest : concat rest = restX.
Proof. apply singles_concat. Qed.

Lemma plv_concat l : 1 <= l <= top -> concat (plv l) = X.
Proof.
  intros Hl. destruct l as [|l]; [lia|]. induction l as [|l IH].
  - rewrite plv_1, concat_app. destruct P0_half as [h [Hh _]].
    rewrite (@pairs_concat P0 h) by (rewrite P0_length; exact Hh).
    rewrite concat_P0, concat_rest. apply firstn_skipn.
  - rewrite plv_S by lia. destruct (Heven (l := S l)) as [h [Hh _]]; [lia|].
    rewrite (pairs_concat Hh). apply IH. lia.
Qed.

Lemma plv_root : 1 < top \/ restX = [] -> pairs (plv (top - 1)) = [X].
Proof.
  intros H. assert (E : exists p, pairs (plv (top - 1)) = [p] /\ concat (pairs (plv (top - 1))) = X).
  { destruct (Nat.eq_dec top 1) as [E|E].
    - destruct H as [H|H]; [lia|]. replace (top - 1) with 0 by lia. change (plv 0) with P0.
      assert (Er : rest = []) by (unfold rest; fold restX; rewrite H; reflexivity).
      pose proof Hroot as HR. rewrite E, plv_1, Er, app_nil_r in HR.
      pose proof (@plv_concat 1 ltac:(lia)) as HC. rewrite plv_1, Er, app_nil_r in HC.
      destruct (pairs P0) as [|p [|q Q]] eqn:EP; simpl in HR; try lia. exists p. split; [reflexivity|]. exact HC.
    - pose proof Hroot as HR. pose proof (@plv_concat top ltac:(lia)) as HC.
      replace top with (S (top - 1)) in HR, HC by lia. rewrite plv_S in HR, HC by lia.
      destruct (pairs (plv (top - 1))) as [|p [|q Q]] eqn:EP; simpl in HR; try lia. exists p. split; [reflexivity|]. exact HC. }
  destruct E as [p [E1 E2]]. rewrite E1 in *. cbn [concat] in E2. rewrite app_nil_r in E2. rewrite E2. reflexivity.
Qed.

Lemma top1_rest : 1 < top \/ restX = [].
Proof.
  destruct (Nat.eq_dec top 1) as [E|E]; [|left; lia]. right.
  destruct complete_dec as [EC|EC]; rewrite ?EC; [apply restX_complete; exact EC|]. destruct (Hi EC) as [H _]. lia.
Qed.

Definition sp (l : nat) : list lf * list lf := (evens (map agg (plv l)), odds (map agg (plv l))).

Lemma sp_length l h : length (plv l) = 2 * h -> length (fst (sp l)) = h /\ length (snd (sp l)) = h.
Proof. intros H. apply evens_length. rewrite map_length. exact H. Qed.

Definition init1 : list lf * list lf :=
  if sComplete sh then ([], [])
  else (repeat (zent zero) (sR sh / 2) ++ evens restX, repeat (zent zero) (sR sh / 2) ++ odds restX).
Definition initlev (l : nat) : list lf * list lf := if l =? 1 then init1 else ([], []).

Definition uinv (lvl : nat) (st : list (list lf * list lf) * list lf) : Prop :=
  length (fst st) = top + 1 /\
  (forall l, l <= lvl -> l < top -> nth_error (fst st) l = Some (sp l)) /\
  (forall l, lvl < l -> l < top -> nth_error (fst st) l = Some (initlev l)) /\
  (0 < lvl -> snd st = map agg (pairs (plv (lvl - 1)))).

Lemma map_agg_P0 : map agg P0 = firstn L0 X.
Proof. apply singles_agg. Qed.
Lemma map_agg_rest : map agg rest = restX.
Proof. apply singles_agg. Qed.

(* the children of the next level are written in place *)
Lemma up_write lvl h1 : lvl + 1 < top -> length (plv (lvl + 1)) = 2 * h1 ->
  let parent := map agg (pairs (plv lvl)) in
  writeN (resize zero h1 (fst (initlev (lvl + 1)))) 0 (evens parent) = Ok (evens (map agg (plv (lvl + 1)))) /\
  writeN (resize zero h1 (snd (initlev (lvl + 1)))) 0 (odds parent) = Ok (odds (map agg (plv (lvl + 1)))).
Proof.
  intros Hl Hh parent.
  assert (Hempty : pairs (plv lvl) = plv (lvl + 1) -> initlev (lvl + 1) = ([], []) ->
    writeN (resize zero h1 (fst (initlev (lvl + 1)))) 0 (evens parent) = Ok (evens (map agg (plv (lvl + 1)))) /\
    writeN (resize zero h1 (snd (initlev (lvl + 1)))) 0 (odds parent) = Ok (odds (map agg (plv (lvl + 1))))).
  { intros EP EI. rewrite EI. unfold parent. rewrite EP. cbn [fst snd]. unfold resize.
    rewrite firstn_nil. cbn [app length]. rewrite Nat.sub_0_r.
    destruct (@evens_length _ (map agg (plv (lvl + 1))) h1) as [E1 E2]; [rewrite map_length; exact Hh|].
    split; apply writeN_whole; assumption. }
  destruct lvl as [|lvl].
  - change (0 + 1) with 1 in *. destruct complete_dec as [EC|EC]; rewrite ?EC.
    + apply Hempty.
      * change (plv 0) with P0. rewrite plv_1. unfold rest. fold restX. rewrite (restX_complete EC). symmetry. apply app_nil_r.
      * unfold initlev, init1. rewrite EC. reflexivity.
    + destruct (Hi EC) as [_ [r [m [Er [EL [EN [Hrm H1]]]]]]].
      unfold initlev. cbn [Nat.eqb]. unfold init1. rewrite EC. cbn [fst snd].
      assert (LR : length restX = 2 * (8 * m - 16 * r)) by (unfold restX; rewrite skipn_length, HX, EN, EL; lia).
      destruct (evens_length LR) as [LE LO].
      assert (ER2 : sR sh / 2 = 8 * r) by (rewrite Er; replace (16 * r) with ((8 * r) * 2) by lia; apply Nat.div_mul; discriminate).
      rewrite ER2.
      assert (Hh1 : h1 = 8 * (m - r)) by (rewrite H1 in Hh; lia).
      assert (RS : forall l : list lf, length l = h1 -> resize zero h1 l = l).
      { intros l Hl'. unfold resize, ent. rewrite firstn_all2 by lia. rewrite Hl', Nat.sub_diag. apply app_nil_r. }
      assert (RP : forall l : list lf, length l = 8 * m - 16 * r -> length (repeat (zent zero) (8 * r) ++ l) = h1).
      { intros l Hl'. unfold ent. rewrite app_length, repeat_length. rewrite Hl'. lia. }
      rewrite (RS _ (RP _ LE)), (RS _ (RP _ LO)).
      assert (LP : length (pairs P0) = 16 * r) by (apply pairs_length; rewrite P0_length, EL; lia).
      unfold parent. change (plv 0) with P0.
      destruct (@evens_length _ (map agg (pairs P0)) (8 * r)) as [E1 E2]; [rewrite map_length; lia|].
      rewrite !writeN_head by (rewrite repeat_length; assumption).
      rewrite plv_1, map_app, map_agg_rest.
      destruct (@evens_app _ (map agg (pairs P0)) restX (8 * r)) as [-> ->]; [rewrite map_length; lia|].
      split; reflexivity.
  - apply Hempty.
    + replace (S lvl + 1) with (S (S lvl)) by lia. symmetry. apply plv_S. lia.
    + unfold initlev. destruct (Nat.eqb_spec (S lvl + 1) 1); [lia|reflexivity].
Qed.

Lemma evens_firstn h : L0 = 2 * h -> firstn h (evens X) = evens (firstn L0 X) /\ firstn h (odds X) = odds (firstn L0 X).
Proof.
  intros H. assert (L : length (firstn L0 X) = 2 * h) by (rewrite firstn_length; lia).
  destruct (@evens_app _ (firstn L0 X) (skipn L0 X) h L) as [EA OA].
  rewrite firstn_skipn in EA, OA. rewrite EA, OA.
  destruct (evens_length L) as [L1 L2].
  split; apply firstn_app_len; assumption.
Qed.

Lemma upstream_ok :
  exists levels, upstream zero ch sh (evens X, odds X) = Ok (levels, [agg X]) /\
    (forall l, l < top -> nth_error levels l = Some (sp l)).
Proof.
  unfold upstream, split, ent. cbv zeta. rewrite Hlen. replace (top + 1 - 1) with top by lia.
  assert (Hinit : exists levels, (if sComplete sh then Ok ((evens X, odds X) :: repeat ([], []) top) else
    do s1 <- get (sSizes sh) 1;
    do s0 <- get (sSizes sh) 0;
    do l1 <- level_copy zero (evens X, odds X) (sR sh * 2) (sR sh) s1;
    do l0 <- level_reshape (evens X, odds X) s0;
    set (l0 :: repeat ([], []) top) 1 l1) = Ok levels /\ uinv 0 (levels, [])).
  { destruct P0_half as [h0 [Hh0 _]].
    assert (Hrep : forall l, 1 <= l <= top -> nth_error (repeat (@nil lf, @nil lf) top) (l - 1) = Some ([], [])).
    { intros l Hl. rewrite nth_error_repeat. destruct (Nat.ltb_spec (l - 1) top); [reflexivity|lia]. }
    destruct complete_dec as [EC|EC]; rewrite ?EC.
    - eexists. split; [reflexivity|]. unfold uinv. cbn [fst snd length]. rewrite repeat_length.
      split; [lia|]. split; [|split; [|lia]].
      + intros l Hl _. assert (l = 0) as -> by lia. unfold sp. change (plv 0) with P0.
        rewrite map_agg_P0. rewrite (Hc EC), <- HX, firstn_all. reflexivity.
      + intros l Hl Hl'. unfold initlev, init1. rewrite EC. destruct l as [|l]; [lia|].
        specialize (Hrep (S l) ltac:(lia)). cbn [nth_error]. replace (S l - 1) with l in Hrep by lia. rewrite Hrep.
        destruct (S l =? 1); reflexivity.
    - destruct (Hi EC) as [Ht [r [m [Er [EL [EN [Hrm H1]]]]]]].
      unfold get. rewrite (Hsize (l := 1)), (Hsize (l := 0)) by lia. cbn [bind].
      change (plv 0) with P0. rewrite P0_length, H1.
      assert (LX : length X = 2 * (8 * m)) by lia.
      destruct (evens_length LX) as [LE LO].
      unfold level_copy, ent, split, zent. cbn [fst snd]. rewrite LE, LO, Er.
      replace (16 * r * 2) with ((2 * r) * 16) by lia.
      assert (M16 : (16 * r) mod 16 = 0) by (rewrite Nat.mul_comm; apply Nat.mod_mul; discriminate).
      rewrite M16, !Nat.mod_mul by discriminate. cbn [Nat.eqb negb throw_if bind].
      replace (8 * m + 8 * m - 2 * r * 16) with ((m - 2 * r) * 16) by lia.
      rewrite !Nat.mod_mul, !Nat.div_mul by discriminate. cbn [Nat.eqb negb throw_if bind].
      destruct (Nat.ltb_spec (16 * (m - r)) ((m - 2 * r) * 16 + 16 * r)) as [L|L]; [lia|]. cbn [throw_if bind].
      assert (LR : length restX = 2 * (8 * (m - 2 * r))) by (unfold restX; rewrite skipn_length, HX, EN, EL; lia).
      destruct (evens_length LR) as [LER LOR].
      assert (L0h : length (firstn L0 X) = 2 * (16 * r)) by (rewrite firstn_length; lia).
      destruct (evens_length L0h) as [LE0 LO0].
      destruct (@evens_app _ (firstn L0 X) restX (16 * r) L0h) as [EA OA].
      unfold restX in EA, OA. rewrite firstn_skipn in EA, OA. fold restX in EA, OA.
      rewrite EA, OA. replace (8 * (2 * r)) with (16 * r) by lia.
      rewrite !readN_last by assumption. cbn [bind].
      replace (16 * r / 16) with r by (rewrite Nat.mul_comm, Nat.div_mul by discriminate; reflexivity).
      replace (16 * (m - r)) with (2 * (8 * (m - r))) by lia.
      destruct (halves (8 * (m - r))) as [-> _]. replace (2 * (8 * (m - r)) - 8 * (m - r)) with (8 * (m - r)) by lia.
      rewrite !writeN_tail by (rewrite repeat_length; lia). cbn [bind].
      rewrite <- EA, <- OA.
      unfold level_reshape, ent, split. cbn [fst snd]. rewrite LE, LO, EL.
      replace (32 * r / 2) with (16 * r) by (replace (32 * r) with ((16 * r) * 2) by lia; rewrite Nat.div_mul by discriminate; reflexivity).
      destruct (Nat.ltb_spec (8 * m) (16 * r)) as [L'|L']; [lia|]. cbn [orb throw_if bind].
      rewrite set_lt by (cbn [length]; rewrite repeat_length; lia).
      eexists. split; [reflexivity|]. unfold uinv. cbn [fst snd]. rewrite upd_length. cbn [length]. rewrite repeat_length.
      split; [lia|]. split; [|split; [|lia]].
      + intros l Hl _. assert (l = 0) as -> by lia. rewrite nth_error_upd_ne by lia. cbn [nth_error].
        unfold sp. change (plv 0) with P0. rewrite map_agg_P0.
        destruct (@evens_firstn (16 * r)) as [-> ->]; [lia|]. reflexivity.
      + intros l Hl Hl'. unfold initlev. destruct (Nat.eqb_spec l 1) as [->|Ne].
        * rewrite nth_error_upd_eq by (cbn [length]; rewrite repeat_length; lia).
          unfold init1. rewrite EC.
          replace (sR sh / 2) with (8 * r) by (rewrite Er; replace (16 * r) with ((8 * r) * 2) by lia; rewrite Nat.div_mul by discriminate; reflexivity).
          assert (FR : firstn (8 * r) (repeat (zero, false) (8 * (m - r))) = repeat (zero, false) (8 * r)).
          { replace (8 * (m - r)) with (8 * r + 8 * (m - 2 * r)) by lia. rewrite repeat_app. apply firstn_app_len, repeat_length. }
          rewrite FR. reflexivity.
        * rewrite nth_error_upd_ne by lia. destruct l as [|l]; [lia|]. cbn [nth_error].
          specialize (Hrep (S l) ltac:(lia)). replace (S l - 1) with l in Hrep by lia. exact Hrep. }
  destruct Hinit as [levels [HE Hinv]]. unfold split, ent in HE. rewrite HE. cbn [bind].
  match goal with |- context [forN 0 top ?f (levels, [])] => destruct (@forN_inv _ uinv f top 0 (levels, []) Hinv) as [[lv par] [Hrun HI]] end.
  - intros lvl [lv par] Hlvl [I1 [I2 [I3 I4]]]. cbn [fst snd] in *.
    assert (Hll : lvl < top) by lia.
    unfold get. rewrite (I2 lvl) by lia. cbn [bind]. rewrite (Hsize (l := lvl)) by lia. cbn [bind].
    destruct (Heven Hll) as [h [Hh Hp]]. rewrite Hh. replace (2 * h / 2) with h by (rewrite Nat.mul_comm, Nat.div_mul by discriminate; reflexivity).
    destruct (sp_length Hh) as [LE LO]. rewrite LE, LO, Nat.eqb_refl. cbn [negb throw_if bind].
    assert (EU : map2 (cUp ch) (fst (sp lvl)) (snd (sp lvl)) = map agg (pairs (plv lvl))) by exact (up_ok Hh (plv_ne lvl)).
    unfold ent in EU. rewrite !EU.
    destruct (Nat.eqb_spec lvl (top - 1)) as [E|E].
    + exists (lv, map agg (pairs (plv lvl))). split; [reflexivity|]. unfold uinv. cbn [fst snd].
      split; [exact I1|]. split; [intros l H1 H2; apply I2; lia|]. split; [intros l H1 H2; lia|].
      intros _. replace (lvl + 1 - 1) with lvl by lia. reflexivity.
    + rewrite (Hsize (l := lvl + 1)) by lia. cbn [bind]. rewrite (I3 (lvl + 1)) by lia. cbn [bind].
      destruct (Heven (l := lvl + 1)) as [h1 [Hh1 Hp1]]; [lia|]. rewrite Hh1.
      replace (2 * h1 / 2) with h1 by (rewrite Nat.mul_comm, Nat.div_mul by discriminate; reflexivity).
      destruct (Nat.eqb_spec h1 0) as [Z|_]; [lia|].
      destruct (@up_write lvl h1 ltac:(lia) Hh1) as [W1 W2]. cbv zeta in W1, W2. unfold ent in W1, W2.
      rewrite W1. cbn [bind]. rewrite W2. cbn [bind]. rewrite set_lt by lia. cbn [bind].
      eexists. split; [reflexivity|]. unfold uinv. cbn [fst snd]. rewrite upd_length.
      split; [exact I1|]. split; [|split].
      * intros l H1 H2. destruct (Nat.eq_dec l (lvl + 1)) as [->|Ne].
        -- rewrite nth_error_upd_eq by lia. reflexivity.
        -- rewrite nth_error_upd_ne by lia. apply I2; lia.
      * intros l H1 H2. rewrite nth_error_upd_ne by lia. apply I3; lia.
      * intros _. replace (lvl + 1 - 1) with lvl by lia. reflexivity.
  - rewrite Hrun. rewrite Nat.add_0_l in HI. destruct HI as [I1 [I2 [_ I4]]]. cbn [fst snd] in *.
    exists lv. split; [|intros l Hl; apply I2; lia].
    rewrite I4 by lia. rewrite (plv_root top1_rest). reflexivity.
Qed.

(* ---------------- downstream ---------------- *)

Let D := dvals [] (singles X) [].
Let Drest := dvals (firstn L0 X) rest [].

Lemma D_split : D = dvals [] P0 restX ++ Drest.
Proof.
  unfold D, Drest. rewrite <- (firstn_skipn L0 X) at 1. unfold singles at 1. rewrite map_app.
  change (map (fun x => [x]) (firstn L0 X)) with P0. change (map (fun x => [x]) (skipn L0 X)) with rest.
  rewrite dvals_app, concat_rest, concat_P0, app_nil_r. reflexivity.
Qed.

Definition aft (l : nat) : list lf := if l =? 0 then restX else [].

Definition dinv (k : nat) (st : list V * (list V * list V)) : Prop :=
  (k < top -> fst st = dvals [] (pairs (plv (top - k - 1))) (aft (top - k - 1))) /\
  (sComplete sh = false -> k = top - 1 -> snd st = (repeat zero (L0 / 2) ++ evens Drest, repeat zero (L0 / 2) ++ odds Drest)) /\
  (k = top -> snd st = (evens D, odds D)).

Lemma downstream_ok levels : (forall l, l < top -> nth_error levels l = Some (sp l)) ->
  downstream zero ch sh levels [fst (agg X)] = Ok (evens D, odds D).
Proof.
  intros Hlv. unfold downstream, split, ent. cbv zeta. rewrite Hlen. replace (top + 1 - 1) with top by lia.
  destruct P0_half as [h0 [Hh0 Hh0p]].
  match goal with |- context [forN 0 top ?f ?s] => destruct (@forN_inv _ dinv f top 0 s) as [[par nv] [Hrun HI]] end.
  - split; [|split].
    + intros _. cbn [fst]. replace (top - 0 - 1) with (top - 1) by lia. rewrite (plv_root top1_rest).
      cbn [dvals concat app]. rewrite <- HG0. f_equal. f_equal.
      unfold aft. destruct (Nat.eqb_spec (top - 1) 0) as [E|E]; [|reflexivity].
      destruct top1_rest as [H|H]; [lia|]. symmetry. exact H.
    + intros EC E. destruct (Hi EC) as [H _]. lia.
    + intros E. lia.
  - intros k [par nv] Hk [I1 [I2 I3]]. cbn [fst snd] in *. specialize (I1 ltac:(lia)). specialize (fun e => I2 e).
    set (c := top - k - 1) in *. assert (Hcl : c < top) by lia.
    unfold get at 1. rewrite (Hlv c Hcl). cbn [bind]. unfold get at 1. rewrite (Hsize (l := c)) by lia. cbn [bind].
    destruct (Heven Hcl) as [h [Hh Hp]]. rewrite Hh. replace (2 * h / 2) with h by (rewrite Nat.mul_comm, Nat.div_mul by discriminate; reflexivity).
    destruct (sp_length Hh) as [LE LO]. rewrite LE, LO.
    assert (LP : length par = h) by (rewrite I1, dvals_length; apply pairs_length; exact Hh).
    rewrite LP, Nat.eqb_refl. cbn [negb throw_if bind].
    rewrite I1.
    assert (ED : map2 (fun (lr : lf * lf) v => cDown ch (fst lr) (snd lr) v) (combine (fst (sp c)) (snd (sp c))) (dvals [] (pairs (plv c)) (aft c))
      = combine (evens (dvals [] (plv c) (aft c))) (odds (dvals [] (plv c) (aft c)))) by exact (down_ok _ _ Hh (plv_ne c)).
    unfold ent in ED. rewrite !ED. clear ED.
    set (Dc := dvals [] (plv c) (aft c)).
    assert (LD : length Dc = 2 * h) by (unfold Dc; rewrite dvals_length; exact Hh).
    destruct (evens_length LD) as [LDE LDO].
    destruct (@map_fst_combine _ _ (evens Dc) (odds Dc)) as [EF ES]; [congruence|].
    rewrite EF, ES.
    (* the parents of the next round *)
    assert (HP : exists p', (if c =? 0 then Ok (dvals [] (pairs (plv c)) (aft c)) else
       do nc <- get levels (c - 1);
       (if Nat.odd (length (fst nc)) then UB else
        do a <- readN (evens Dc) 0 (length (fst nc) / 2);
        do b <- readN (odds Dc) 0 (length (fst nc) / 2); Ok (interleave a b))) = Ok p' /\
       (0 < c -> p' = dvals [] (pairs (plv (c - 1))) (aft (c - 1)))).
    { destruct (Nat.eqb_spec c 0) as [E|E]; [eexists; split; [reflexivity|lia]|].
      unfold get. rewrite (Hlv (c - 1)) by lia. cbn [bind].
      destruct (Heven (l := c - 1)) as [hc [Hhc _]]; [lia|]. destruct (sp_length Hhc) as [LEc _]. rewrite LEc.
      destruct (Nat.eq_dec c 1) as [E1|E1].
      - (* next parents: the first part of level 1 *)
        destruct (Hq ltac:(lia)) as [q Hqq]. rewrite E1 in *. change (plv (1 - 1)) with P0 in *.
        rewrite P0_length in Hhc.
        assert (Lpp : length (pairs P0) = hc) by (apply pairs_length; rewrite P0_length; lia).
        assert (hc = 2 * q) as -> by lia.
        replace (Nat.odd (2 * q)) with false by (rewrite Nat.odd_mul; reflexivity).
        replace (2 * q / 2) with q by (rewrite Nat.mul_comm, Nat.div_mul by discriminate; reflexivity).
        assert (EDc : Dc = dvals [] (pairs P0) restX ++ dvals (concat (pairs P0)) rest []).
        { unfold Dc. rewrite E1. unfold aft. cbn [Nat.eqb]. rewrite plv_1, dvals_app, concat_rest, app_nil_r. reflexivity. }
        assert (Lh : length (dvals [] (pairs P0) restX) = 2 * q) by (rewrite dvals_length; exact Hqq).
        destruct (evens_length Lh) as [Le Lo].
        destruct (@evens_app _ (dvals [] (pairs P0) restX) (dvals (concat (pairs P0)) rest []) q Lh) as [EA OA].
        rewrite EDc, EA, OA. rewrite (readN_head _ Le). cbn [bind]. rewrite (readN_head _ Lo). cbn [bind].
        rewrite (interleave_evens Lh). eexists. split; [reflexivity|]. intros _. reflexivity.
      - assert (EP : plv c = pairs (plv (c - 1))) by (replace c with (S (c - 1)) at 1 by lia; apply plv_S; lia).
        assert (Ehc : hc = 2 * h) by (rewrite EP in Hh; rewrite (pairs_length Hhc) in Hh; exact Hh).
        rewrite Ehc. replace (Nat.odd (2 * h)) with false by (rewrite Nat.odd_mul; reflexivity).
        replace (2 * h / 2) with h by (rewrite Nat.mul_comm, Nat.div_mul by discriminate; reflexivity).
        rewrite (readN_all LDE). cbn [bind]. rewrite (readN_all LDO). cbn [bind].
        rewrite (interleave_evens LD). eexists. split; [reflexivity|]. intros _.
        unfold Dc. rewrite EP. f_equal. unfold aft.
        destruct (Nat.eqb_spec c 0), (Nat.eqb_spec (c - 1) 0); try lia; reflexivity. }
    destruct HP as [p' [-> HP']]. cbn [bind].
    unfold get. rewrite (Hsize (l := 0)), (Hsize (l := 1)) by lia. cbn [bind]. change (plv 0) with P0. rewrite P0_length.
    assert (Hpar : k + 1 < top -> p' = dvals [] (pairs (plv (top - (k + 1) - 1))) (aft (top - (k + 1) - 1))).
    { intros Hk1. replace (top - (k + 1) - 1) with (c - 1) by lia. apply HP'. lia. }
    destruct complete_dec as [EC|EC]; rewrite ?EC; cbn [negb andb].
    + destruct (Nat.eqb_spec c 0) as [E|E]; cbn [bind].
      * exists (p', (evens Dc, odds Dc)). split; [reflexivity|]. split; [exact Hpar|]. split; [congruence|].
        intros _. cbn [snd]. assert (ED : Dc = D).
        { unfold Dc. rewrite E. change (plv 0) with P0. unfold aft. cbn [Nat.eqb].
          rewrite (restX_complete EC). unfold D, P0. rewrite (Hc EC), <- HX, firstn_all. reflexivity. }
        rewrite ED. reflexivity.
      * exists (p', nv). split; [reflexivity|]. split; [exact Hpar|]. split; [congruence|]. intros E2. exfalso. lia.
    + destruct (Hi EC) as [Ht [r [m [Er [EL [EN [Hrm H1]]]]]]].
      assert (LR : length restX = 2 * (8 * (m - 2 * r))) by (unfold restX; rewrite skipn_length, HX, EN, EL; lia).
      assert (LDr : length Drest = 2 * (8 * (m - 2 * r))) by (unfold Drest; rewrite dvals_length; unfold rest; rewrite singles_length; exact LR).
      destruct (evens_length LDr) as [LDrE LDrO].
      assert (EL2 : L0 / 2 = 16 * r) by (rewrite EL; replace (32 * r) with ((16 * r) * 2) by lia; apply Nat.div_mul; discriminate).
      assert (EL16 : 8 * (L0 / 16) = 16 * r) by (rewrite EL; replace (32 * r) with ((2 * r) * 16) by lia; rewrite Nat.div_mul by discriminate; lia).
      destruct (Nat.eqb_spec c 1) as [E|E].
      * (* first partial level *)
        rewrite H1, Er. replace (16 * r * 2 =? L0) with true by (symmetry; apply Nat.eqb_eq; lia). cbn [bind].
        replace (8 * ((16 * (m - r) - 16 * r) / 16)) with (8 * (m - 2 * r)).
        2:{ replace (16 * (m - r) - 16 * r) with ((m - 2 * r) * 16) by lia. rewrite Nat.div_mul by discriminate. reflexivity. }
        replace (8 * (16 * r / 16)) with (8 * r) by (rewrite (Nat.mul_comm 16 r), Nat.div_mul by discriminate; reflexivity).
        assert (LPP : length (pairs P0) = 16 * r) by (apply pairs_length; rewrite P0_length, EL; lia).
        assert (EDc : Dc = dvals [] (pairs P0) restX ++ Drest).
        { unfold Dc, aft, Drest. rewrite E. cbn [Nat.eqb]. rewrite plv_1, dvals_app, concat_rest, app_nil_r.
          rewrite (@pairs_concat P0 (16 * r)) by (rewrite P0_length; lia). rewrite concat_P0. reflexivity. }
        assert (Lh : length (dvals [] (pairs P0) restX) = 2 * (8 * r)) by (rewrite dvals_length; lia).
        destruct (evens_length Lh) as [Le Lo].
        destruct (@evens_app _ (dvals [] (pairs P0) restX) Drest (8 * r) Lh) as [EA OA].
        rewrite EDc, EA, OA. rewrite !readN_last by assumption. cbn [bind].
        rewrite EL16. fold N. rewrite EN.
        replace (16 * m / 2) with (8 * m) by (replace (16 * m) with ((8 * m) * 2) by lia; rewrite Nat.div_mul by discriminate; reflexivity).
        rewrite !writeN_tail by (rewrite repeat_length; lia). cbn [bind].
        assert (FR : firstn (16 * r) (repeat zero (8 * m)) = repeat zero (16 * r)).
        { replace (8 * m) with (16 * r + (8 * m - 16 * r)) by lia. rewrite repeat_app. apply firstn_app_len, repeat_length. }
        rewrite FR. eexists. split; [reflexivity|]. split; [exact Hpar|]. split.
        -- intros _ _. cbn [snd]. rewrite EL2. reflexivity.
        -- intros E2. exfalso. lia.
      * destruct (Nat.eqb_spec c 0) as [E0|E0].
        -- (* second partial level *)
           specialize (I2 EC ltac:(lia)). rewrite I2. cbn [fst snd].
           assert (ED : Dc = dvals [] P0 restX) by (unfold Dc, aft; rewrite E0; reflexivity).
           rewrite EL16. assert (Hh' : h = 16 * r).
           { rewrite E0 in Hh. change (plv 0) with P0 in Hh. rewrite P0_length in Hh. lia. }
           rewrite <- Hh'. rewrite (readN_all LDE). cbn [bind]. rewrite (readN_all LDO). cbn [bind].
           rewrite EL2. rewrite !writeN_head by (rewrite repeat_length; lia). cbn [bind].
           eexists. split; [reflexivity|]. split; [exact Hpar|]. split; [intros _ E2; exfalso; lia|].
           intros _. cbn [snd]. rewrite D_split, <- ED.
           destruct (@evens_app _ Dc Drest h LD) as [-> ->]. reflexivity.
        -- exists (p', nv). split; [reflexivity|]. split; [exact Hpar|]. split; [intros _ E2; exfalso; lia|].
           intros E2. exfalso. lia.
  - rewrite Hrun. cbn [bind snd]. rewrite Nat.add_0_l in HI. destruct HI as [_ [_ I3]]. cbn [snd] in I3.
    rewrite I3 by reflexivity. reflexivity.
Qed.

Lemma channel_one : channel zero ch sh (evens X, odds X) = Ok (evens D, odds D).
Proof.
  unfold channel. destruct upstream_ok as [levels [-> Hlv]]. cbn [bind fst snd map].
  apply downstream_ok. exact Hlv.
Qed.

End One.

End Channel.
