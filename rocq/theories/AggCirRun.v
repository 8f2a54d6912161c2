From Verif Require Import Base GmwModel GmwSpec GmwIoModel GmwIoSpec ShuffleSpec AggModel AggCirModel AggCirSpec AggCirProofs GmwPrivacy PropsGmwIo.

(* a circuit whose bundles are consecutive, and the values of its bundles *)
Lemma bundles_at (ls : list (list nat)) : forall s n rest, concat ls ++ rest = seq s n -> forall i b j v,
  nth_error ls i = Some b -> nth_error b j = Some v -> v = s + length (concat (firstn i ls)) + j.
Proof.
  induction ls as [|l ls IH]; intros s n rest E i b j v Hi Hj; [destruct i; discriminate|].
  cbn [concat] in E. rewrite <- app_assoc in E.
  assert (L : length l + length (concat ls ++ rest) = n) by (rewrite <- (seq_length n s), <- E, !app_length; reflexivity).
  assert (E2 : l = seq s (length l) /\ concat ls ++ rest = seq (s + length l) (length (concat ls ++ rest))).
  { rewrite <- L, seq_app in E. apply app_inj_len in E; [exact E|rewrite seq_length; reflexivity]. }
  destruct E2 as (E1 & E2). destruct i as [|i]; cbn [nth_error firstn concat] in *.
  - injection Hi as <-. cbn [length]. rewrite Nat.add_0_r. rewrite E1 in Hj. pose proof (nth_error_lt Hj) as B. rewrite seq_length in B.
    apply (nth_error_nth _ _ 0) in Hj. rewrite seq_nth in Hj by exact B. symmetry. exact Hj.
  - rewrite (IH _ _ _ E2 i b j v Hi Hj), app_length. lia.
Qed.
Lemma bundles_seq (ls : list (list nat)) : forall s n rest, concat ls ++ rest = seq s n -> forall i b,
  nth_error ls i = Some b -> b = seq (s + length (concat (firstn i ls))) (length b) /\ length (concat (firstn i ls)) + length b + length rest <= n.
Proof.
  induction ls as [|l ls IH]; intros s n rest E i b Hi; [destruct i; discriminate|].
  cbn [concat] in E. rewrite <- app_assoc in E.
  assert (L : length l + length (concat ls ++ rest) = n) by (rewrite <- (seq_length n s), <- E, !app_length; reflexivity).
  assert (E2 : l = seq s (length l) /\ concat ls ++ rest = seq (s + length l) (length (concat ls ++ rest))).
  { rewrite <- L, seq_app in E. apply app_inj_len in E; [exact E|rewrite seq_length; reflexivity]. }
  destruct E2 as (E1 & E2). destruct i as [|i]; cbn [nth_error firstn concat] in *.
  - injection Hi as <-. cbn [length]. rewrite Nat.add_0_r. split; [exact E1|]. rewrite app_length in L. lia.
  - destruct (IH _ _ _ E2 i b Hi) as (K1 & K2). rewrite app_length. rewrite Nat.add_assoc. split; [exact K1|]. lia.
Qed.
Lemma concat_at {A} (d : A) (ls : list (list A)) : forall i l j, nth_error ls i = Some l -> j < length l ->
  nth (length (concat (firstn i ls)) + j) (concat ls) d = nth j l d.
Proof.
  induction ls as [|m ls IH]; intros i l j Hi Hj; [destruct i; discriminate|]. destruct i as [|i]; cbn [nth_error firstn concat length] in *.
  - injection Hi as ->. cbn [Nat.add]. apply app_nth1. exact Hj.
  - rewrite app_length, <- Nat.add_assoc, app_nth2 by lia. replace (length m + _ - length m) with (length (concat (firstn i ls)) + j) by lia. apply IH; assumption.
Qed.
Lemma concat_len {A B} (ls : list (list A)) : forall (ms : list (list B)) i, map (@length A) ls = map (@length B) ms ->
  length (concat (firstn i ls)) = length (concat (firstn i ms)).
Proof.
  induction ls as [|l ls IH]; intros [|m ms] i E; cbn [map] in E; try discriminate; [destruct i; reflexivity|].
  injection E as E1 E2. destruct i; [reflexivity|]. cbn [firstn concat]. rewrite !app_length, E1, (IH ms i E2). reflexivity.
Qed.

Lemma runnable_io c ins outs : runnable c ins outs -> Forall (fun n => 0 < n) ins -> Forall (fun n => 0 < n) outs ->
  fold_right plus 0 ins + fold_right plus 0 outs <= cWires c -> io_ok (cWires c) (cIns c) (cOuts c).
Proof.
  intros (L1 & L2 & E & _) P1 P2 HW. pose proof E as E0. rewrite <- concat_app in E.
  assert (ND : NoDup (concat (cIns c) ++ concat (cOuts c))) by (rewrite E0; apply seq_NoDup).
  assert (B : forall b, In b (cIns c ++ cOuts c) -> 0 < length b -> bundle_ok (cWires c) b).
  { intros b Hb P. apply In_nth_error in Hb. destruct Hb as (i & Hi).
    assert (E' : concat (cIns c ++ cOuts c) ++ [] = seq 0 (fold_right plus 0 ins + fold_right plus 0 outs)) by (rewrite app_nil_r; exact E).
    destruct (@bundles_seq _ _ _ _ E' _ _ Hi) as (K1 & K2). eexists. split; [exact K1|]. split; [exact P|]. cbn [length] in K2. lia. }
  split; [|split; [|split]].
  - apply Forall_forall. intros b Hb. apply B; [apply in_or_app; left; exact Hb|]. rewrite <- L1 in P1. rewrite Forall_forall in P1. apply P1. apply in_map. exact Hb.
  - exact (nodup_app_l ND).
  - apply Forall_forall. intros b Hb. apply B; [apply in_or_app; right; exact Hb|]. rewrite <- L2 in P2. rewrite Forall_forall in P2. apply P2. apply in_map. exact Hb.
  - intros w H1 H2. exact (nodup_app_apart ND H2 H1).
Qed.

Lemma runnable_wires c ins outs : runnable c ins outs -> Forall (fun n => 0 < n) outs -> outs <> [] -> fold_right plus 0 ins + fold_right plus 0 outs <= cWires c.
Proof.
  intros (L1 & L2 & E & _ & HG & HO) P NE.
  assert (S0 : 0 < fold_right plus 0 outs) by (destruct outs as [|o outs]; [congruence|]; apply Forall_inv in P; cbn [fold_right]; lia).
  set (a := fold_right plus 0 ins) in *. set (b := fold_right plus 0 outs) in *.
  assert (LI : length (concat (cIns c)) = a) by (subst a; rewrite <- L1; clear; induction (cIns c) as [|l ls IH]; [reflexivity|]; cbn [concat map fold_right]; rewrite app_length, IH; reflexivity).
  rewrite seq_app in E. apply app_inj_len in E; [|rewrite seq_length; exact LI]. destruct E as (_ & E).
  destruct (HO (a + b - 1)) as (g & Hg & Eg); [rewrite E; apply in_seq; lia|]. destruct (HG g Hg) as (_ & _ & _ & K). lia.
Qed.

(* the values that two parties give for row r of every input bundle *)
Definition row_vals (r : nat) (bs : list (list nat)) (xs0 xs1 : list given) : list (list bool) :=
  map (fun p => map (fun j => xorb (given_bit (fst (snd p)) r j) (given_bit (snd (snd p)) r j)) (seq 0 (length (fst p)))) (combine bs (combine xs0 xs1)).

Lemma row_vals_nth r bs : forall xs0 xs1 i b x y, length xs0 = length bs -> length xs1 = length bs ->
  nth_error bs i = Some b -> nth_error xs0 i = Some x -> nth_error xs1 i = Some y ->
  nth_error (row_vals r bs xs0 xs1) i = Some (map (fun j => xorb (given_bit x r j) (given_bit y r j)) (seq 0 (length b))).
Proof.
  unfold row_vals. induction bs as [|b' bs IH]; intros [|x' xs0] [|y' xs1] i b x y L0 L1 Hb Hx Hy; try (destruct i; discriminate).
  destruct i as [|i]; cbn [nth_error combine map fst snd] in *; [injection Hb as ->; injection Hx as ->; injection Hy as ->; reflexivity|]. apply IH; cbn [length] in *; auto; lia.
Qed.
Lemma row_vals_len r bs : forall xs0 xs1, length xs0 = length bs -> length xs1 = length bs -> map (@length bool) (row_vals r bs xs0 xs1) = map (@length nat) bs.
Proof.
  unfold row_vals. induction bs as [|b' bs IH]; intros [|x' xs0] [|y' xs1] L0 L1; try discriminate; [reflexivity|].
  cbn [combine map fst snd length] in *. rewrite map_length, seq_length. f_equal. apply IH; lia.
Qed.

(* an environment with given values of the input bundles *)
Definition env_of (vs : list (list bool)) : env := fun w => nth w (concat vs) false.
Lemma env_of_ins c ins outs vs : runnable c ins outs -> map (@length bool) vs = ins -> map (map (env_of vs)) (cIns c) = vs.
Proof.
  intros (L1 & _ & E & _) L. rewrite <- L1 in L.
  assert (H : forall i b v, nth_error (cIns c) i = Some b -> nth_error vs i = Some v -> map (env_of vs) b = v).
  { intros i b v Hb Hv. assert (LL : length v = length b).
    { apply (map_nth_error (@length nat)) in Hb. apply (map_nth_error (@length bool)) in Hv. rewrite L in Hv. congruence. }
    apply (@list_eq_nth _ false); rewrite map_length; [lia|]. intros j Hj. rewrite (@nth_map' _ _ _ b j 0) by exact Hj.
    destruct (nth_error b j) as [w|] eqn:Ej; [|apply nth_error_None in Ej; lia].
    rewrite (nth_error_nth _ _ 0 Ej). rewrite (@bundles_at _ _ _ _ E _ _ _ _ Hb Ej). cbn [Nat.add]. unfold env_of.
    rewrite (@concat_len _ _ (cIns c) vs i) by (symmetry; exact L). apply concat_at; [exact Hv|lia]. }
  assert (LV : length vs = length (cIns c)) by (rewrite <- (map_length (@length bool) vs), L, map_length; reflexivity).
  apply (@list_eq_nth _ []); rewrite map_length; [lia|]. intros i Hi. rewrite (@nth_map' _ _ _ (cIns c) i []) by exact Hi.
  apply (H i); apply nth_error_nth'; lia.
Qed.

(* lvs is an order of the gates in levels that computes the same *)
Definition levels_of (c : circuit) (lvs : list level) : Prop :=
  Forall (level_ok (cWires c)) lvs /\ concat (map fst lvs) <> [] /\
  well_def (concat (cIns c)) (concat (cIns c)) (concat (map fst lvs)) /\
  (forall v, In v (concat (cOuts c)) -> exists h, In h (concat (map fst lvs)) /\ gOut h = v) /\
  (forall e v, In v (concat (cOuts c)) -> eval (concat (map fst lvs)) e v = eval (cGates c) e v).

Lemma run_rows c ins outs F lvs n junk0 junk1 junk0' junk1' pad0 pad1 xs0 xs1 ys0 ys1 s0 s1 :
  runnable c ins outs -> computes c F -> Forall (fun n => 0 < n) ins -> Forall (fun n => 0 < n) outs -> outs <> [] ->
  levels_of c lvs -> 0 < n -> length xs0 = length ins -> length xs1 = length ins ->
  (forall i b x, nth_error (cIns c) i = Some b -> nth_error xs0 i = Some x -> given_ok n (length b) x) ->
  (forall i b x, nth_error (cIns c) i = Some b -> nth_error xs1 i = Some x -> given_ok n (length b) x) ->
  take_ok n (cOuts c) ys0 -> take_ok n (cOuts c) ys1 ->
  ole_segs s0 s1 -> even_segs s0 -> demand ((n + 127) / 128) lvs <= length (concat s0) ->
  exists g0 g1 ids0 ids1 h0 h1,
    prepare junk0 pad0 xs0 ys0 (gmw_init n (cWires c) (cIns c) (cOuts c)) = Ok (g0, ids0) /\
    prepare junk1 pad1 xs1 ys1 (gmw_init n (cWires c) (cIns c) (cOuts c)) = Ok (g1, ids1) /\
    gmw_exec lvs junk0' junk1' s0 s1 g0 g1 = Ok (h0, h1) /\
    forall i k al cols jk0 jk1 pd0 pd1, nth_error outs i = Some k -> 0 < al -> (k + al * 8 - 1) / (al * 8) = cols / al ->
      exists o0 o1, get_output jk0 pd0 i al n cols h0 = Ok (h0, o0) /\ get_output jk1 pd1 i al n cols h1 = Ok (h1, o1) /\
        length o0 = n /\ length o1 = n /\ Forall (fun l => length l = cols) o0 /\ Forall (fun l => length l = cols) o1 /\
        (forall r, r < n -> map (fun j => xorb (sbit (nth r o0 []) j) (sbit (nth r o1 []) j)) (seq 0 k) = nth i (F (row_vals r (cIns c) xs0 xs1)) []) /\
        (forall q, nth_error ids0 i = Some (Some q) -> exists rg, nth_error (gHeap h0) q = Some rg /\
          forall r j, r < n -> j < k -> lane (rgRows rg) r j = sbit (nth r o0 []) j) /\
        (forall q, nth_error ids1 i = Some (Some q) -> exists rg, nth_error (gHeap h1) q = Some rg /\
          forall r j, r < n -> j < k -> lane (rgRows rg) r j = sbit (nth r o1 []) j).
Proof.
  intros HR HF P1 P2 NE (HL1 & HL2 & HL3 & HL4 & HL5) Hn L0 L1 X0 X1 T0 T1 HS He Hd.
  pose proof (runnable_io HR P1 P2 (runnable_wires HR P2 NE)) as IO. pose proof HR as (EI & EO & EC & _).
  assert (LI : length ins = length (cIns c)) by (rewrite <- EI, map_length; reflexivity).
  destruct (@C57_end_to_end n (cWires c) (cIns c) (cOuts c) lvs junk0 junk1 junk0' junk1' pad0 pad1 xs0 xs1 ys0 ys1 s0 s1) as (g0 & g1 & ids0 & ids1 & h0 & h1 & E0 & E1 & EX & H); auto; try lia.
  exists g0, g1, ids0, ids1, h0, h1. split; [exact E0|]. split; [exact E1|]. split; [exact EX|].
  intros i k al cols jk0 jk1 pd0 pd1 Hi Hal Hc.
  rewrite <- EO in Hi. rewrite nth_error_map in Hi. destruct (nth_error (cOuts c) i) as [b|] eqn:Eb; [|discriminate]. injection Hi as Hk.
  destruct (H i b al cols jk0 jk1 pd0 pd1 Eb Hal) as (o0 & o1 & G0 & G1 & LO0 & LO1 & W0 & W1 & HB & HM0 & HM1); [rewrite Hk; exact Hc|].
  rewrite Hk in *. exists o0, o1. repeat (split; [assumption|]). split; [|split; [exact HM0|exact HM1]].
  intros r Hr. set (vs := row_vals r (cIns c) xs0 xs1).
  assert (LV : map (@length bool) vs = ins) by (unfold vs; rewrite row_vals_len by lia; exact EI).
  pose proof (env_of_ins HR LV) as EE. specialize (HF (env_of vs)). rewrite EE in HF. rewrite <- HF.
  assert (Hi : i < length (cOuts c)) by (exact (nth_error_lt Eb)). rewrite (@nth_map' _ _ _ (cOuts c) i []) by exact Hi. rewrite (nth_error_nth _ _ [] Eb).
  apply (@list_eq_nth _ false); rewrite !map_length, seq_length; [lia|]. intros j Hj.
  rewrite (@nth_map' _ _ _ (seq 0 k) j 0) by (rewrite seq_length; exact Hj). rewrite seq_nth by exact Hj. cbn [Nat.add]. rewrite (@nth_map' _ _ _ b j 0) by lia.
  destruct (nth_error b j) as [v|] eqn:Ej; [|apply nth_error_None in Ej; lia]. rewrite (nth_error_nth _ _ 0 Ej).
  rewrite <- HL5 by (apply in_concat; exists b; split; [eapply nth_error_In; exact Eb|eapply nth_error_In; exact Ej]).
  apply (HB r j v (env_of vs) Hr Ej).
  intros i' b' x y j' v' Hb' Hx Hy Hj'.
  pose proof (@row_vals_nth r (cIns c) xs0 xs1 i' b' x y ltac:(lia) ltac:(lia) Hb' Hx Hy) as RV. fold vs in RV.
  assert (K : map (env_of vs) b' = map (fun j => xorb (given_bit x r j) (given_bit y r j)) (seq 0 (length b'))).
  { rewrite <- EE in RV. rewrite nth_error_map, Hb' in RV. injection RV as RV. exact RV. }
  pose proof (nth_error_lt Hj') as BJ. apply (f_equal (fun l => nth j' l false)) in K. rewrite (@nth_map' _ _ _ b' j' 0) in K by exact BJ.
  rewrite (@nth_map' _ _ _ (seq 0 (length b')) j' 0) in K by (rewrite seq_length; exact BJ). rewrite seq_nth in K by exact BJ. rewrite (nth_error_nth _ _ 0 Hj') in K. exact K.
Qed.
