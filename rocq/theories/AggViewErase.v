(* Without its messages agg_msg is agg_gmw of AggRunModel. *)
From Verif Require Import Base GmwModel AggModel AggCirModel AggTwoModel AggTwoTree AggRunModel AggRunProofs AggViewModel AggViewSpec AggViewHide AggViewLanes AggViewFull.

(* two computations with the same failures and related results *)
Definition sim {A B} (Q : A -> B -> Prop) (x : outcome A) (y : outcome B) : Prop :=
  match x with Ok a => exists b, y = Ok b /\ Q a b | Throw => y = Throw | UB => y = UB | Hang => y = Hang end.
Lemma sim_bind {A B C D} (Q : A -> B -> Prop) (T : C -> D -> Prop) x y (f : A -> outcome C) (g : B -> outcome D) :
  sim Q x y -> (forall a b, Q a b -> sim T (f a) (g b)) -> sim T (bind x f) (bind y g).
Proof. unfold sim at 1. intros H K. destruct x as [a| | |]; [destruct H as (b & -> & HQ); exact (K a b HQ)| | |]; rewrite H; reflexivity. Qed.
Lemma sim_refl {A} (x : outcome A) : sim eq x x.
Proof. destruct x; unfold sim; eauto. Qed.

Lemma exchange_sim {P Q} (send : P -> outcome (list lane_in)) (recv : P -> list lane_in -> outcome Q) (run : mrun) (gr : grun) s : (forall x0 x1, gr x0 x1 = do y <- run x0 x1; Ok (fst y)) ->
  sim (fun w u => w = fst u) (do x0 <- send (fst s); do x1 <- send (snd s); do y <- gr x0 x1; do p0 <- recv (fst s) (fst y); do p1 <- recv (snd s) (snd y); Ok (p0, p1)) (exchange send recv run s).
Proof.
  intros H. unfold exchange. apply (sim_bind (sim_refl _)). intros x0 ? <-. apply (sim_bind (sim_refl _)). intros x1 ? <-. rewrite H.
  apply (@sim_bind _ _ _ _ (fun y (r : _ * messages) => y = fst r)).
  { destruct (run x0 x1) as [r| | |]; unfold sim; cbn [bind]; eauto. }
  intros y r ->. apply (sim_bind (sim_refl _)). intros p0 ? <-. apply (sim_bind (sim_refl _)). intros p1 ? <-. unfold sim. eexists. split; reflexivity.
Qed.
Lemma steps_sim {S' P R} (Q : S' -> P -> Prop) (f : nat -> S' -> outcome S') (body : nat -> R -> P -> outcome (P * messages)) : forall rs i s p,
  (forall j r, nth_error rs j = Some r -> forall s p, Q s p -> sim (fun a u => Q a (fst u)) (f (i + j) s) (body (i + j) r p)) -> Q s p ->
  sim (fun a u => Q a (fst u)) (forN i (length rs) f s) (steps body i rs p).
Proof.
  induction rs as [|r rs IH]; intros i s p H HQ; cbn [length forN steps]; [unfold sim; eauto|].
  pose proof (H 0 r eq_refl s p HQ) as H0. rewrite Nat.add_0_r in H0. refine (sim_bind H0 _). intros a u HA.
  assert (HT : sim (fun a u => Q a (fst u)) (forN (i + 1) (length rs) f a) (steps body (i + 1) rs (fst u))).
  { apply IH; [|exact HA]. intros j r' Hj s' p' HQ'. replace (i + 1 + j) with (i + S j) by lia. exact (H (S j) r' Hj s' p' HQ'). }
  unfold sim in *. destruct (forN (i + 1) (length rs) f a) as [w| | |]; [destruct HT as (z & -> & HZ); cbn [bind]; eauto| | |]; rewrite HT; reflexivity.
Qed.
Lemma run_nth mapped (size : nat -> nat) c lvs (t0 t1 : list tape) m j run : length t0 = m -> length t1 = m ->
  nth_error (map (fun p => gmw_lanes_msg mapped (size (fst p)) c lvs (fst (snd p)) (snd (snd p))) (combine (seq 0 m) (combine t0 t1))) j = Some run ->
  j < m /\ run = gmw_lanes_msg mapped (size j) c lvs (nth j t0 no_tape) (nth j t1 no_tape).
Proof.
  intros L0 L1 E. rewrite nth_error_map in E. destruct (nth_error (combine (seq 0 m) (combine t0 t1)) j) as [p|] eqn:Ep; [|discriminate].
  assert (run = gmw_lanes_msg mapped (size (fst p)) c lvs (fst (snd p)) (snd (snd p))) as -> by (cbn [option_map] in E; congruence). clear E.
  apply combine_nth_error in Ep. destruct Ep as [E1 E2]. pose proof (nth_error_lt E1) as L. rewrite seq_length in L.
  rewrite (nth_error_nth' _ 0) in E1 by (rewrite seq_length; exact L). rewrite seq_nth in E1 by exact L. assert (Ej : fst p = j) by (assert (0 + j = fst p) by congruence; lia).
  apply combine_nth_error in E2. destruct E2 as [E2 E3]. rewrite (nth_error_nth _ _ no_tape E2), (nth_error_nth _ _ no_tape E3), Ej. auto.
Qed.

Theorem agg_erase ty zero cu cd cl lu ld ll up0 up1 dn0 dn1 lf0 lf1 src0 src1 ctrl0 ctrl1 sh : tree_sizes (length src0) = Ok sh ->
  let top := length (sSizes sh) - 1 in
  length up0 = top -> length up1 = top -> length dn0 = top -> length dn1 = top ->
  agg_gmw ty zero cu cd cl lu ld ll (fun l => nth l up0 no_tape) (fun l => nth l up1 no_tape) (fun l => nth (top - l - 1) dn0 no_tape) (fun l => nth (top - l - 1) dn1 no_tape) lf0 lf1 src0 src1 ctrl0 ctrl1 =
  do r <- agg_msg ty zero cu cd cl lu ld ll up0 up1 dn0 dn1 lf0 lf1 src0 src1 ctrl0 ctrl1; Ok (fst r).
Proof.
  intros Es top U0 U1 D0 D1. unfold agg_gmw, agg_msg. rewrite Es. cbn [bind]. cbv zeta. fold top. unfold agg_two. rewrite Es. cbn [bind].
  destruct (throw_if (negb (length src0 =? length ctrl0))) as [[]| | |]; try reflexivity. cbn [bind]. destruct (throw_if (negb (length src1 =? length ctrl1))) as [[]| | |]; try reflexivity. cbn [bind].
  destruct (two_load zero ty sh src0 ctrl0) as [l0| | |]; try reflexivity. cbn [bind]. destruct (two_load zero ty sh src1 ctrl1) as [l1| | |]; try reflexivity. cbn [bind]. cbv zeta.
  match goal with |- bind (two_up _ _ _ ?gu _) (fun u => bind (two_down _ _ _ ?gd _ _ _) _) = bind (tree_msg _ _ _ ?ru ?rd _ _) _ => set (gus := gu); set (gds := gd); set (rus := ru); set (rds := rd) end.
  assert (LU : length rus = top) by (unfold rus; rewrite map_length, !combine_length, seq_length; lia). assert (LD : length rds = top) by (unfold rds; rewrite map_length, !combine_length, seq_length; lia).
  match goal with |- ?L = ?R => assert (X : sim eq L R) end.
  2:{ revert X. unfold sim. match goal with |- match ?L with _ => _ end -> _ => destruct L end; [intros (b & -> & ->); reflexivity| | |]; intros ->; reflexivity. }
  unfold tree_msg.
  set (QU := fun (s : (side * side) * (side * side)) (p : ((@split (list bool) * @split (list bool)) * (side * side)) * ((@split (list bool) * @split (list bool)) * (side * side))) => p = ((fst l0, fst s), (fst l1, snd s))).
  match goal with |- sim _ _ (bind (bind ?a ?f) ?g) => assert (AS : bind (bind a f) g = bind a (fun x => bind (f x) g)) by (destruct a; reflexivity); rewrite AS; clear AS end.
  apply (@sim_bind _ _ _ _ (fun a u => QU a (fst u))).
  { unfold two_up. fold top. rewrite <- LU. apply (steps_sim (Q := QU)); [|unfold QU; cbn [fst snd]; rewrite <- !surjective_pairing; reflexivity].
    intros j run Hj s p ->. cbn [Nat.add]. unfold rus in Hj. apply (@run_nth true (fun l => nth l (sSizes sh) 0 / 2) cu lu up0 up1 top j run U0 U1) in Hj. destruct Hj as [Lj ->].
    unfold up_msg.
    pose proof (@exchange_sim _ _ (fun p => up_send ty sh j (snd p)) (fun p y => do q <- up_recv zero ty sh j (snd p) y; Ok (fst p, q)) _ (gus j) ((fst l0, fst s), (fst l1, snd s)) (lanes_erase true _ cu lu (nth j up0 no_tape) (nth j up1 no_tape))) as X. cbn [fst snd] in X.
    unfold sim in *. destruct (up_send ty sh j (fst s)) as [x0| | |]; try exact X; cbn [bind] in *; try exact X. destruct (up_send ty sh j (snd s)) as [x1| | |]; cbn [bind] in *; try exact X.
    destruct (gus j x0 x1) as [y| | |]; cbn [bind] in *; try exact X. destruct (up_recv zero ty sh j (fst s) (fst y)) as [q0| | |]; cbn [bind] in *; try exact X.
    destruct (up_recv zero ty sh j (snd s) (snd y)) as [q1| | |]; cbn [bind] in *; try exact X. destruct X as (b & E & Eb). exists b. split; [exact E|]. unfold QU. cbn [fst snd]. congruence. }
  intros u r HU. unfold QU in HU. rewrite HU. clear HU. cbn [fst snd].
  set (lv := fun p : side * side => (fst (fst p), fst (snd p))).
  set (QD := fun (s : (dside * dside) * (dside * dside)) (p : ((@split (list bool) * @split (list bool)) * ((list (@split (list bool)) * list (@split (list bool))) * (dside * dside))) * ((@split (list bool) * @split (list bool)) * ((list (@split (list bool)) * list (@split (list bool))) * (dside * dside)))) =>
    p = ((fst l0, (lv (fst u), fst s)), (fst l1, (lv (snd u), snd s)))).
  match goal with |- sim _ _ (bind (bind ?a ?f) ?g) => assert (AS : bind (bind a f) g = bind a (fun x => bind (f x) g)) by (destruct a; reflexivity); rewrite AS; clear AS end.
  apply (@sim_bind _ _ _ _ (fun a u => QD a (fst u))).
  { unfold two_down. fold top. rewrite <- LD at 1. cbv zeta. apply (steps_sim (Q := QD)); [|reflexivity].
    intros j run Hj s p ->. cbn [Nat.add]. unfold rds in Hj. apply (@run_nth true (fun l => nth (top - l - 1) (sSizes sh) 0 / 2) cd ld dn0 dn1 top j run D0 D1) in Hj. destruct Hj as [Lj ->].
    unfold down_msg. fold top. cbv zeta. set (c := top - j - 1).
    assert (EG : forall x0 x1, gds c x0 x1 = do y <- gmw_lanes_msg true (nth c (sSizes sh) 0 / 2) cd ld (nth j dn0 no_tape) (nth j dn1 no_tape) x0 x1; Ok (fst y)).
    { intros x0 x1. rewrite <- lanes_erase. unfold gds, c. replace (top - (top - j - 1) - 1) with j by lia. reflexivity. }
    pose proof (@exchange_sim _ _ (fun p => down_send ty sh (fst (snd p)) c (snd (snd p))) (fun p y => do q <- down_recv zero ty sh (fst (snd p)) c (snd (snd p)) y; Ok (fst p, (fst (snd p), q))) _ (gds c) ((fst l0, (lv (fst u), fst s)), (fst l1, (lv (snd u), snd s))) EG) as X. cbn [fst snd] in X.
    unfold sim, lv in *. destruct (down_send ty sh (fst (fst (fst u)), fst (snd (fst u))) c (fst s)) as [x0| | |]; cbn [bind] in *; try exact X. destruct (down_send ty sh (fst (fst (snd u)), fst (snd (snd u))) c (snd s)) as [x1| | |]; cbn [bind] in *; try exact X.
    destruct (gds c x0 x1) as [y| | |]; cbn [bind] in *; try exact X. destruct (down_recv zero ty sh (fst (fst (fst u)), fst (snd (fst u))) c (fst s) (fst y)) as [q0| | |]; cbn [bind] in *; try exact X.
    destruct (down_recv zero ty sh (fst (fst (snd u)), fst (snd (snd u))) c (snd s) (snd y)) as [q1| | |]; cbn [bind] in *; try exact X. destruct X as (b & E & Eb). exists b. split; [exact E|]. unfold QD. cbn [fst snd] in *. congruence. }
  intros d r2 HD. unfold QD in HD. rewrite HD. clear HD. unfold leaf_msg.
  match goal with |- sim _ _ (bind (bind ?a ?f) ?g) => assert (AS : bind (bind a f) g = bind a (fun x => bind (f x) g)) by (destruct a; reflexivity); rewrite AS; clear AS end. cbn [bind].
  pose proof (@exchange_sim _ _ (fun p : ((@split (list bool) * @split (list bool)) * ((list (@split (list bool)) * list (@split (list bool))) * (dside * dside))) => leaf_send ty sh (fst p) (snd (snd p))) (fun p y => leaf_rows zero (sN sh) (lane_out 0 y) (lane_out 1 y)) _ _
     ((fst l0, (lv (fst u), fst d)), (fst l1, (lv (snd u), snd d))) (lanes_erase false (sN16 sh / 2) cl ll lf0 lf1)) as X. cbn [fst snd] in X.
  unfold sim in *. match goal with |- match ?L with _ => _ end => destruct L end; [destruct X as (b & -> & Eb); cbn [bind fst]; exists (fst b); auto| | |]; rewrite X; reflexivity.
Qed.
