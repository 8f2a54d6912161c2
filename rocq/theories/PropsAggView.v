(* Property C73: what a party receives in the whole aggregation tree hides the other party's shares. *)
From Verif Require Import Base ShuffleModel GmwProofs GmwModel GmwSpec GmwPrivSpec GmwIoModel GmwIoSpec AggModel AggSpec AggCirModel AggCirSpec AggCirProofs AggCirBuild AggCirAdd AggCirExamples AggCirRun AggTwoModel AggTwoSpec AggTwoRel AggTwoTree AggRunModel AggRunProofs AggTwoScan AggViewModel AggViewSpec AggViewHide AggViewRun AggViewLanes AggViewTree AggViewFull AggViewErase AggViewEnd PropsGmw PropsGmwIo PropsAggCir PropsAggTwo.

(* the protocol with its messages is the protocol of C72 *)
Theorem C73_same ty zero cu cd cl lu ld ll up0 up1 dn0 dn1 lf0 lf1 src0 src1 ctrl0 ctrl1 sh : tree_sizes (length src0) = Ok sh ->
  let top := length (sSizes sh) - 1 in
  length up0 = top -> length up1 = top -> length dn0 = top -> length dn1 = top ->
  agg_gmw ty zero cu cd cl lu ld ll (fun l => nth l up0 no_tape) (fun l => nth l up1 no_tape) (fun l => nth (top - l - 1) dn0 no_tape) (fun l => nth (top - l - 1) dn1 no_tape) lf0 lf1 src0 src1 ctrl0 ctrl1 =
  do r <- agg_msg ty zero cu cd cl lu ld ll up0 up1 dn0 dn1 lf0 lf1 src0 src1 ctrl0 ctrl1; Ok (fst r).
Proof. apply agg_erase. Qed.
Print Assumptions C73_same.

(* Party 0 looks: whatever party 1's shares of the rows and control bits are, for every choice of its
   correlations there is exactly one choice of correlations for any other shares of the same length
   under which party 0 receives the same messages in every Gmw run of the tree; it then also sends
   the same and ends with the same shares, and both runs give shares of the aggregates *)
Theorem C73_hides_party1 k f op mux ty cu cd cl lu ld ll up0 up1 dn0 dn1 lf0 lf1 src0 src1 src1' src src' ctrl0 ctrl1 ctrl1' ctrl ctrl' sh :
  0 < k -> operator_ok k f op -> multiplexer_ok k mux -> word_op k f ->
  upstream_cir op mux k ty = Ok cu -> downstream_cir op k ty = Ok cd -> leaf_cir op mux k ty = Ok cl -> levels_of cu lu -> levels_of cd ld -> levels_of cl ll ->
  2 <= length src -> length src = length ctrl -> (ty = Suffix \/ nth_error ctrl 0 = Some false /\ nth_error ctrl' 0 = Some false) ->
  F3 (word_shares k) src0 src1 src -> F3 (word_shares k) src0 src1' src' -> F3 bit_shares ctrl0 ctrl1 ctrl -> F3 bit_shares ctrl0 ctrl1' ctrl' ->
  tree_sizes (length src) = Ok sh ->
  tapes_for lu ld ll sh up0 up1 dn0 dn1 lf0 lf1 -> fits up0 (map tpCor up1) -> fits dn0 (map tpCor dn1) -> triples_for (tpCor lf0) (tpCor lf1) ->
  exists ru rd rl o0 o1 o1' tr, fits up0 ru /\ fits dn0 rd /\ triples_for (tpCor lf0) rl /\
    agg_msg ty (repeat false k) cu cd cl lu ld ll up0 up1 dn0 dn1 lf0 lf1 src0 src1 ctrl0 ctrl1 = Ok ((o0, o1), tr) /\
    agg_msg ty (repeat false k) cu cd cl lu ld ll up0 (map2 with_cor up1 ru) dn0 (map2 with_cor dn1 rd) lf0 (with_cor lf1 rl) src0 src1' ctrl0 ctrl1' = Ok ((o0, o1'), tr) /\
    F3 (word_shares k) o0 o1 (scan ty f (repeat false k) src ctrl) /\
    forall ru2 rd2 rl2 q2 tr2, fits up0 ru2 -> fits dn0 rd2 -> triples_for (tpCor lf0) rl2 ->
      agg_msg ty (repeat false k) cu cd cl lu ld ll up0 (map2 with_cor up1 ru2) dn0 (map2 with_cor dn1 rd2) lf0 (with_cor lf1 rl2) src0 src1' ctrl0 ctrl1' = Ok (q2, tr2) ->
      tree_got true tr2 = tree_got true tr -> ru2 = ru /\ rd2 = rd /\ rl2 = rl.
Proof.
  intros Hk OP MX W Eu Ed El Lu Ld Ll H2 EL HC HS HS' HB HB' Es HT FU FD FL.
  assert (L : loadable k ty true sh src0 src1 ctrl0 ctrl1 src ctrl) by (repeat split; try assumption; tauto).
  assert (LS : length src' = length src) by (destruct (f3_len HS), (f3_len HS'); congruence). assert (LC : length ctrl' = length ctrl) by (destruct (f3_len HB), (f3_len HB'); congruence).
  assert (L' : loadable k ty true sh src0 src1' ctrl0 ctrl1' src' ctrl') by (repeat split; try assumption; try tauto; try congruence; rewrite LS; assumption).
  destruct (@side_hides k f op mux ty cu cd cl lu ld ll Hk OP MX W Eu Ed El Lu Ld Ll true sh up0 up1 dn0 dn1 lf0 lf1 _ _ _ _ _ _ _ _ _ _ L L' HT FU FD FL) as (ru & rd & rl & (o0 & o1) & (o0' & o1') & tr & V1 & V2 & V3 & E & E' & EO & U).
  cbn [own fst] in EO. subst o0'.
  destruct (@side_shares k f op mux ty cu cd cl lu ld ll Hk OP MX W Eu Ed El Lu Ld Ll true sh up0 up1 dn0 dn1 lf0 lf1 _ _ _ _ _ _ L HT FU FD FL) as (q & tr' & E2 & HR). rewrite E in E2.
  assert (q = (o0, o1)) as -> by congruence. exists ru, rd, rl, o0, o1, o1', tr. repeat (split; [assumption|]). exact U.
Qed.
Print Assumptions C73_hides_party1.

(* the same with party 1 looking *)
Theorem C73_hides_party0 k f op mux ty cu cd cl lu ld ll up0 up1 dn0 dn1 lf0 lf1 src0 src0' src1 src src' ctrl0 ctrl0' ctrl1 ctrl ctrl' sh :
  0 < k -> operator_ok k f op -> multiplexer_ok k mux -> word_op k f ->
  upstream_cir op mux k ty = Ok cu -> downstream_cir op k ty = Ok cd -> leaf_cir op mux k ty = Ok cl -> levels_of cu lu -> levels_of cd ld -> levels_of cl ll ->
  2 <= length src -> length src = length ctrl -> (ty = Suffix \/ nth_error ctrl 0 = Some false /\ nth_error ctrl' 0 = Some false) ->
  F3 (word_shares k) src0 src1 src -> F3 (word_shares k) src0' src1 src' -> F3 bit_shares ctrl0 ctrl1 ctrl -> F3 bit_shares ctrl0' ctrl1 ctrl' ->
  tree_sizes (length src) = Ok sh ->
  tapes_for lu ld ll sh up1 up0 dn1 dn0 lf1 lf0 -> fits up1 (map tpCor up0) -> fits dn1 (map tpCor dn0) -> triples_for (tpCor lf1) (tpCor lf0) ->
  exists ru rd rl o0 o0' o1 tr, fits up1 ru /\ fits dn1 rd /\ triples_for (tpCor lf1) rl /\
    agg_msg ty (repeat false k) cu cd cl lu ld ll up0 up1 dn0 dn1 lf0 lf1 src0 src1 ctrl0 ctrl1 = Ok ((o0, o1), tr) /\
    agg_msg ty (repeat false k) cu cd cl lu ld ll (map2 with_cor up0 ru) up1 (map2 with_cor dn0 rd) dn1 (with_cor lf0 rl) lf1 src0' src1 ctrl0' ctrl1 = Ok ((o0', o1), tr) /\
    F3 (word_shares k) o0 o1 (scan ty f (repeat false k) src ctrl) /\
    forall ru2 rd2 rl2 q2 tr2, fits up1 ru2 -> fits dn1 rd2 -> triples_for (tpCor lf1) rl2 ->
      agg_msg ty (repeat false k) cu cd cl lu ld ll (map2 with_cor up0 ru2) up1 (map2 with_cor dn0 rd2) dn1 (with_cor lf0 rl2) lf1 src0' src1 ctrl0' ctrl1 = Ok (q2, tr2) ->
      tree_got false tr2 = tree_got false tr -> ru2 = ru /\ rd2 = rd /\ rl2 = rl.
Proof.
  intros Hk OP MX W Eu Ed El Lu Ld Ll H2 EL HC HS HS' HB HB' Es HT FU FD FL.
  assert (L : loadable k ty false sh src1 src0 ctrl1 ctrl0 src ctrl) by (repeat split; try assumption; tauto).
  assert (LS : length src' = length src) by (destruct (f3_len HS), (f3_len HS'); congruence). assert (LC : length ctrl' = length ctrl) by (destruct (f3_len HB), (f3_len HB'); congruence).
  assert (L' : loadable k ty false sh src1 src0' ctrl1 ctrl0' src' ctrl') by (repeat split; try assumption; try tauto; try congruence; rewrite LS; assumption).
  destruct (@side_hides k f op mux ty cu cd cl lu ld ll Hk OP MX W Eu Ed El Lu Ld Ll false sh up1 up0 dn1 dn0 lf1 lf0 _ _ _ _ _ _ _ _ _ _ L L' HT FU FD FL) as (ru & rd & rl & (o0 & o1) & (o0' & o1') & tr & V1 & V2 & V3 & E & E' & EO & U).
  cbn [own snd] in EO. subst o1'.
  destruct (@side_shares k f op mux ty cu cd cl lu ld ll Hk OP MX W Eu Ed El Lu Ld Ll false sh up1 up0 dn1 dn0 lf1 lf0 _ _ _ _ _ _ L HT FU FD FL) as (q & tr' & E2 & HR). rewrite E in E2.
  assert (q = (o0, o1)) as -> by congruence. exists ru, rd, rl, o0, o0', o1, tr. repeat (split; [assumption|]). exact U.
Qed.
Print Assumptions C73_hides_party0.

(* One Gmw run through setInput, mapInput, mapOutput and run: party 0 ends with the same memory and
   the same messages for any other input of party 1 *)
Theorem C73_run_party1 n wires ins outs lvs junk0 junk1 junk0' junk1' pad0 pad1 xs0 xs1 xs1' ys0 ys1 s0 s1 :
  0 < n -> io_ok wires ins outs -> Forall (level_ok wires) lvs -> concat (map fst lvs) <> [] ->
  brings n ins outs junk0 junk0' xs0 ys0 -> brings n ins outs junk1 junk1' xs1 ys1 -> brings n ins outs junk1 junk1' xs1' ys1 ->
  blocks_segs s0 -> triples_for s0 s1 -> even_segs s0 -> demand (div_ceil n 128) lvs = length (concat s0) ->
  exists g0 g1 g1' id0 id1 id1' s1' h0 h1 h1' tr,
    prepare junk0 pad0 xs0 ys0 (gmw_init n wires ins outs) = Ok (g0, id0) /\
    prepare junk1 pad1 xs1 ys1 (gmw_init n wires ins outs) = Ok (g1, id1) /\
    prepare junk1 pad1 xs1' ys1 (gmw_init n wires ins outs) = Ok (g1', id1') /\ triples_for s0 s1' /\
    gmw_exec_msg lvs junk0' junk1' s0 s1 g0 g1 = Ok ((h0, h1), tr) /\ gmw_exec_msg lvs junk0' junk1' s0 s1' g0 g1' = Ok ((h0, h1'), tr) /\
    forall s2 h2 tr2, triples_for s0 s2 -> gmw_exec_msg lvs junk0' junk1' s0 s2 g0 g1' = Ok (h2, tr2) -> map snd tr2 = map snd tr -> s2 = s1'.
Proof. intros Hn HIO HL NE. exact (@exec_hides1 n wires ins outs lvs Hn HIO HL NE junk0 junk1 junk0' junk1' pad0 pad1 xs0 xs1 xs1' ys0 ys1 s0 s1). Qed.
Print Assumptions C73_run_party1.
Theorem C73_run_party0 n wires ins outs lvs junk0 junk1 junk0' junk1' pad0 pad1 xs0 xs0' xs1 ys0 ys1 s0 s1 :
  0 < n -> io_ok wires ins outs -> Forall (level_ok wires) lvs -> concat (map fst lvs) <> [] ->
  brings n ins outs junk0 junk0' xs0 ys0 -> brings n ins outs junk0 junk0' xs0' ys0 -> brings n ins outs junk1 junk1' xs1 ys1 ->
  blocks_segs s1 -> triples_for s1 s0 -> even_segs s1 -> demand (div_ceil n 128) lvs = length (concat s1) ->
  exists g0 g0' g1 id0 id0' id1 s0' h0 h0' h1 tr,
    prepare junk0 pad0 xs0 ys0 (gmw_init n wires ins outs) = Ok (g0, id0) /\
    prepare junk0 pad0 xs0' ys0 (gmw_init n wires ins outs) = Ok (g0', id0') /\
    prepare junk1 pad1 xs1 ys1 (gmw_init n wires ins outs) = Ok (g1, id1) /\ triples_for s1 s0' /\
    gmw_exec_msg lvs junk0' junk1' s0 s1 g0 g1 = Ok ((h0, h1), tr) /\ gmw_exec_msg lvs junk0' junk1' s0' s1 g0' g1 = Ok ((h0', h1), tr) /\
    forall s2 h2 tr2, triples_for s1 s2 -> gmw_exec_msg lvs junk0' junk1' s2 s1 g0' g1 = Ok (h2, tr2) -> map fst tr2 = map fst tr -> s2 = s0'.
Proof. intros Hn HIO HL NE. exact (@exec_hides0 n wires ins outs lvs Hn HIO HL NE junk0 junk1 junk0' junk1' pad0 pad1 xs0 xs0' xs1 ys0 ys1 s0 s1). Qed.
Print Assumptions C73_run_party0.

(* two rows of one bit and the join's operator; party 0's correlations, and for a list of
   multipliers the correlations of party 1 that fit them *)
Definition v_junk : nat -> nat -> nat -> N := fun r i j => if Nat.odd (r + i + j) then 7%N else 9%N.
Definition v_tape (past : bool) (s : list triple) : tape := Tape v_junk v_junk (fun _ _ _ => past) io_pad [s].
Definition v_cor (s : list triple) (xs : list N) : list triple := map2 (fun p x => (x, N.lxor (N.land (fst p) x) (snd p))) s xs.
Definition v_up : list triple := [(5, 1); (3, 2); (6, 7); (1, 1)]%N.
Definition v_dn : list triple := [(2, 3); (7, 0)]%N.
Definition v_lf : list triple := [(1, 4); (5, 2); (3, 3); (4, 6)]%N.
Definition v_run (xu xd xl : list N) (src1 : list (list bool)) (ctrl1 : list bool) :=
  agg_msg Prefix [false] w_u w_d w_l (w_lvs w_u) (w_lvs w_d) (w_lvs w_l) [v_tape true v_up] [v_tape false (v_cor v_up xu)] [v_tape true v_dn] [v_tape false (v_cor v_dn xd)]
    (v_tape true v_lf) (v_tape false (v_cor v_lf xl)) [[false]; [true]] src1 [true; false] ctrl1.
Definition v_got (b : bool) (x : outcome ((list (list bool) * list (list bool)) * (list messages * list messages * messages))) :=
  match x with Ok r => Some (own b (fst r), tree_got b (snd r)) | _ => None end.
Lemma v_junk_ok : junk_blocks v_junk.
Proof. intros r j c. unfold v_junk, block128. destruct (Nat.odd (r + j + c)); reflexivity. Qed.
Lemma v_looks p p' s s' n lvs : forallb (fun t => (fst t <? 8)%N && (snd t <? 8)%N) s = true -> Nat.even (length s) = true -> demand ((n + 127) / 128) lvs = length s -> looks n lvs (v_tape p s) (v_tape p' s').
Proof.
  intros B E D. split; [split; exact v_junk_ok|]. split; [split; exact v_junk_ok|]. unfold v_tape. cbn [tpCor]. split; [|split; [constructor; [exact E|constructor]|cbn [concat]; rewrite app_nil_r; exact D]].
  constructor; [|constructor]. rewrite forallb_forall in B. apply Forall_forall. intros t Ht. apply B, andb_true_iff in Ht. destruct Ht as [H1 H2]. apply N.ltb_lt in H1, H2. split; (eapply N.lt_trans; [eassumption|reflexivity]).
Qed.
Definition v_u : list N := [6; 1; 4; 7]%N.
Definition v_d : list N := [3; 5]%N.
Definition v_l : list N := [2; 6; 1; 0]%N.
(* Rows 1, 0 in one block and rows 0, 0 in blocks of their own look the same to party 0, which ends
   with 0, 0 in both, if party 1 holds other correlations. If it holds the same, they do not. *)
Example C73_hides_party1_ex :
  (exists sh, tree_sizes 2 = Ok sh /\
    tapes_for (w_lvs w_u) (w_lvs w_d) (w_lvs w_l) sh [v_tape true v_up] [v_tape false (v_cor v_up v_u)] [v_tape true v_dn] [v_tape false (v_cor v_dn v_d)] (v_tape true v_lf) (v_tape false (v_cor v_lf v_l))) /\
  fits [v_tape true v_up] (map tpCor [v_tape false (v_cor v_up v_u)]) /\ fits [v_tape true v_dn] (map tpCor [v_tape false (v_cor v_dn v_d)]) /\ triples_for [v_lf] [v_cor v_lf v_l] /\
  v_got true (v_run v_u v_d v_l [[true]; [true]] [true; true]) = v_got true (v_run [7; 0; 4; 6]%N v_d [2; 6; 0; 1]%N [[false]; [true]] [true; false]) /\
  v_got true (v_run v_u v_d v_l [[true]; [true]] [true; true]) <> v_got true (v_run v_u v_d v_l [[false]; [true]] [true; false]) /\
  v_got true (v_run v_u v_d v_l [[true]; [true]] [true; true]) <> None.
Proof.
  split; [|split; [|split; [|split]]].
  - eexists. split; [vm_compute; reflexivity|]. split; [reflexivity|]. split; [reflexivity|]. split; [reflexivity|]. split; [reflexivity|]. split; [|split].
    + intros [|l] m o Hm Ho; [|destruct l; discriminate]. assert (m = v_tape true v_up) as -> by (cbn [nth_error] in Hm; congruence). assert (o = v_tape false (v_cor v_up v_u)) as -> by (cbn [nth_error] in Ho; congruence).
      apply v_looks; vm_compute; reflexivity.
    + intros [|l] m o Hm Ho; [|destruct l; discriminate]. assert (m = v_tape true v_dn) as -> by (cbn [nth_error] in Hm; congruence). assert (o = v_tape false (v_cor v_dn v_d)) as -> by (cbn [nth_error] in Ho; congruence).
      apply v_looks; vm_compute; reflexivity.
    + apply v_looks; vm_compute; reflexivity.
  - repeat constructor.
  - repeat constructor.
  - repeat constructor.
  - vm_compute. repeat split; discriminate.
Qed.
(* the same tapes with the parties' roles exchanged *)
Definition v_flip (xu xd xl : list N) (src1 : list (list bool)) (ctrl1 : list bool) :=
  agg_msg Prefix [false] w_u w_d w_l (w_lvs w_u) (w_lvs w_d) (w_lvs w_l) [v_tape false (v_cor v_up xu)] [v_tape true v_up] [v_tape false (v_cor v_dn xd)] [v_tape true v_dn]
    (v_tape false (v_cor v_lf xl)) (v_tape true v_lf) src1 [[false]; [true]] ctrl1 [true; false].
Example C73_hides_party0_ex :
  v_got false (v_flip v_u v_d v_l [[true]; [true]] [true; true]) = v_got false (v_flip [7; 0; 5; 7]%N v_d [2; 6; 0; 1]%N [[false]; [true]] [true; false]) /\
  v_got false (v_flip v_u v_d v_l [[true]; [true]] [true; true]) <> v_got false (v_flip v_u v_d v_l [[false]; [true]] [true; false]) /\
  v_got false (v_flip v_u v_d v_l [[true]; [true]] [true; true]) <> None.
Proof. vm_compute. repeat split; discriminate. Qed.
Example C73_same_ex : agg_gmw Prefix [false] w_u w_d w_l (w_lvs w_u) (w_lvs w_d) (w_lvs w_l) (fun _ => v_tape true v_up) (fun _ => v_tape false (v_cor v_up v_u)) (fun _ => v_tape true v_dn) (fun _ => v_tape false (v_cor v_dn v_d))
    (v_tape true v_lf) (v_tape false (v_cor v_lf v_l)) [[false]; [true]] [[true]; [true]] [true; false] [true; true] =
  do r <- v_run v_u v_d v_l [[true]; [true]] [true; true]; Ok (fst r).
Proof. vm_compute. reflexivity. Qed.
(* the run of C57's example with exactly the correlations it asks for; party 1 gives input 0 as a
   mapped matrix *)
Lemma v_brings xs ys : length xs = 2 -> Forall given_blocks xs -> (forall i b x, nth_error io_ins i = Some b -> nth_error xs i = Some x -> given_ok 3 (length b) x) ->
  take_ok 3 io_outs ys -> (forall d, In (Some d) ys -> blocks_mem (tmRows d)) -> brings 3 io_ins io_outs v_junk v_junk xs ys.
Proof. intros. split; [exact v_junk_ok|]. split; [exact v_junk_ok|]. auto. Qed.
Definition v_x1' : list given := [GMap (TMat 16 3 [[7]; [0]]%N); GZero].
Example C73_run_ex : io_ok 6 io_ins io_outs /\ Forall (level_ok 6) io_lvs /\ brings 3 io_ins io_outs v_junk v_junk io_x0 io_y0 /\ brings 3 io_ins io_outs v_junk v_junk io_x1 io_y1 /\
  brings 3 io_ins io_outs v_junk v_junk v_x1' io_y1 /\ triples_for ex_s0 ex_s1 /\ triples_for ex_s1 ex_s0 /\ even_segs ex_s0 /\ even_segs ex_s1 /\ demand (div_ceil 3 128) io_lvs = length (concat ex_s0).
Proof.
  destruct io_hyps as (A1 & A2 & _ & _ & A5 & A6 & _ & A8 & A9 & A10 & A11).
  split; [exact A1|]. split; [exact A2|]. split; [|split; [|split; [|split; [|split; [|split; [|split]]]]]].
  - apply v_brings; auto; [repeat constructor|]. intros d [E|[]]. assert (d = TMat 16 3 [[7]; [7]]%N) as -> by congruence. repeat constructor.
  - apply v_brings; auto; [repeat constructor|]. intros d [E|[]]. discriminate.
  - apply v_brings; auto; [repeat constructor| |]; [|intros d [E|[]]; discriminate].
    intros [|[|i]] b x Hb Hx; cbn in Hb, Hx; [| |destruct i; discriminate]; injection Hb as <-; injection Hx as <-; cbn; auto; repeat split; auto; repeat constructor.
  - split; [exact A5|repeat constructor].
  - split; repeat constructor.
  - repeat constructor.
  - repeat constructor.
  - vm_compute. reflexivity.
Qed.
