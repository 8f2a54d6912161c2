(* C70: what a party sees in a whole join. *)
From Verif Require Import Base Words PermModel PermSpec PermCorModel PermCorSpec ShuffleModel ShuffleSpec ExtractSpec KeyMultModel BitInjModel RadixModel RadixSpec PrivSpec SortViewModel PermPrivSpec SortPrivSpec GenPermViewModel GenPermPrivSpec.
From Verif Require Import TableModel TableSpec OmJoinModel OmJoinSpec JoinViewModel JoinPrivSpec.
From Verif Require Import RoundHides GenPermPrivacy JoinHides JoinLeak PropsRadix PropsOmJoin PropsRoundPriv PropsSortPriv.

(* long keys are compressed by a linear code (OmJoin.cpp:39-57) *)
Definition enc_ok (enc : list N -> list N) (kb nL nR : nat) : Prop := comp_size nL nR < kb -> linear_enc (div_ceil kb 8) (div_ceil (comp_size nL nR) 8) enc.

(* The messages belong to the run of om_join (C32): the sort by the real sorting protocol and the permutations by the
   real composed permutation, with what they leave party 0 as its shares. *)
Theorem C70_run : forall L capS cap nL nR kb enc q0 q1 rd, enc_ok enc kb nL nR -> join_sizes L capS cap nL nR kb q0 -> queries_ok nL nR kb q0 q1 ->
  join_fits L (key_bits kb nL nR) (nL + nR) capS cap (om_width q0 + div_ceil kb 8) rd ->
  Forall (fun x => (le_num x < 2 ^ N.of_nat (key_bits kb nL nR))%N) (all_keys enc kb nL nR q0 q1) ->
  exists tr, om_join_v L enc q0 q1 rd = Ok tr /\
    om_join enc q0 q1 (OmR (fst (ctZ (jtChain tr))) (jmCtrl (jrMasks rd)) (jmDup (jrMasks rd)) (jmFlag (jrMasks rd)) (fst (ctW (jtChain tr)))) = Ok (jtOut tr).
Proof. intros L capS cap nL nR kb enc q0 q1 rd HE. apply (join_run HE). Qed.
Print Assumptions C70_run.

(* the check of validate never fails on a correlation as generated *)
Theorem C70_validate_ok : forall n c c0 c1, comp_rel n c c0 c1 -> comp_validate c0 c1 = Ok tt.
Proof. exact validate_good. Qed.
Print Assumptions C70_validate_ok.

(* the bytes that init asks for per row are enough for derandomize and both permutations *)
Theorem C70_perm_bytes : forall sel kb ks, ks <= 8 * div_ceil kb 8 -> 4 + div_ceil (om_data_bits sel kb) 8 + (left_bits sel / 8 + 1) <= om_perm_bytes sel kb ks.
Proof. exact perm_bytes_enough. Qed.
Print Assumptions C70_perm_bytes.

(* With validate, party 1 reads all keys of the join, in order, from the messages it gets and its own keys. *)
Theorem C70_party1_reads_keys : forall L capS cap nL nR kb enc q0 q1 rd, enc_ok enc kb nL nR -> join_sizes L capS cap nL nR kb q0 -> queries_ok nL nR kb q0 q1 ->
  join_fits L (key_bits kb nL nR) (nL + nR) capS cap (om_width q0 + div_ceil kb 8) rd ->
  exists v, join_view1 true L enc q0 q1 rd = Ok v /\
    read1 (nL + nR) (om_width q0 + div_ceil kb 8) cap (om_width q0) (div_ceil (key_bits kb nL nR) 8) (own_keys enc kb nL nR q1) v = all_keys enc kb nL nR q0 q1.
Proof. intros L capS cap nL nR kb enc q0 q1 rd HE. apply (reads1 HE). Qed.
Print Assumptions C70_party1_reads_keys.

(* and party 0 reads all keys, in the order of party 1's permutation *)
Theorem C70_party0_reads_keys : forall L capS cap nL nR kb enc q0 q1 rd, enc_ok enc kb nL nR -> join_sizes L capS cap nL nR kb q0 -> queries_ok nL nR kb q0 q1 ->
  join_fits L (key_bits kb nL nR) (nL + nR) capS cap (om_width q0 + div_ceil kb 8) rd ->
  exists v, join_view0 true L enc q0 q1 rd = Ok v /\
    Permutation (read0 (nL + nR) (om_width q0 + div_ceil kb 8) cap (om_width q0) (div_ceil (key_bits kb nL nR) 8) (dat (crA (cpR (fst (jrPerm rd))))) v) (all_keys enc kb nL nR q0 q1).
Proof. intros L capS cap nL nR kb enc q0 q1 rd HE. apply (reads0 HE). Qed.
Print Assumptions C70_party0_reads_keys.

Lemma same_sort1_refl R : same_sort1 R R.
Proof. split; [repeat split|]. induction (snd R) as [|x l IH]; constructor; [repeat split|exact IH]. Qed.
Lemma same_sort0_refl R : same_sort0 R R.
Proof. split; [repeat split|]. induction (snd R) as [|x l IH]; constructor; [repeat split|exact IH]. Qed.

(* So the join as it is does not hide them. *)
Theorem C70_party1_refuted : forall L capS cap nL nR kb enc q0 q0' q1 R0, enc_ok enc kb nL nR -> join_sizes L capS cap nL nR kb q0 -> queries_ok nL nR kb q0 q1 -> queries_ok nL nR kb q0' q1 ->
  join_fits L (key_bits kb nL nR) (nL + nR) capS cap (om_width q0 + div_ceil kb 8) R0 -> all_keys enc kb nL nR q0 q1 <> all_keys enc kb nL nR q0' q1 ->
  ~ hides (fun rd => join_fits L (key_bits kb nL nR) (nL + nR) capS cap (om_width q0 + div_ceil kb 8) rd /\ same_join1 R0 rd) (fun q rd => join_view1 true L enc q q1 rd) q0 q0'.
Proof.
  intros L capS cap nL nR kb enc q0 q0' q1 R0 HE HS HQ HQ' HF Ne (f & g & H & _). destruct (H R0) as ((HF' & _) & _ & HV).
  { split; [exact HF|]. split; [apply same_sort1_refl|reflexivity]. }
  destruct (same_width HQ HQ') as [_ Ew]. change (om_width q0' + div_ceil kb 8 = om_width q0 + div_ceil kb 8) in Ew. assert (Eo : om_width q0' = om_width q0) by (clear - Ew; lia).
  destruct (reads1 HE HS HQ HF) as (v & V & RV). destruct (@reads1 L capS cap nL nR kb enc HE q0' q1 (f R0) (same_sizes HQ HQ' HS) HQ') as (v' & V' & RV').
  { change (jw kb q0') with (om_width q0' + div_ceil kb 8). rewrite Ew. exact HF'. }
  rewrite V, V' in HV. apply Ok_inj' in HV. subst v'. apply Ne. unfold all_keys. rewrite <- RV, <- RV'. change (jw kb q0') with (om_width q0' + div_ceil kb 8). change (jflag q0' + 1) with (om_width q0'). rewrite Ew, Eo. reflexivity.
Qed.
Print Assumptions C70_party1_refuted.

Theorem C70_party0_refuted : forall L capS cap nL nR kb enc q0 q1 q1' R0, enc_ok enc kb nL nR -> join_sizes L capS cap nL nR kb q0 -> queries_ok nL nR kb q0 q1 -> queries_ok nL nR kb q0 q1' ->
  join_fits L (key_bits kb nL nR) (nL + nR) capS cap (om_width q0 + div_ceil kb 8) R0 -> ~ Permutation (all_keys enc kb nL nR q0 q1) (all_keys enc kb nL nR q0 q1') ->
  ~ hides (fun rd => join_fits L (key_bits kb nL nR) (nL + nR) capS cap (om_width q0 + div_ceil kb 8) rd /\ same_join0 R0 rd) (fun q rd => join_view0 true L enc q0 q rd) q1 q1'.
Proof.
  intros L capS cap nL nR kb enc q0 q1 q1' R0 HE HS HQ HQ' HF Ne (f & g & H & _). destruct (H R0) as ((HF' & (_ & HP & _)) & _ & HV).
  { split; [exact HF|]. split; [apply same_sort0_refl|split; reflexivity]. }
  destruct (reads0 HE HS HQ HF) as (v & V & RV). destruct (reads0 HE HS HQ' HF') as (v' & V' & RV').
  rewrite V, V' in HV. apply Ok_inj' in HV. subst v'. apply Ne. unfold all_keys. rewrite <- RV, <- RV', HP. apply Permutation_refl.
Qed.
Print Assumptions C70_party0_refuted.

(* Without validate both parties see the same over the other one's randomness for all tables of the other party with
   the same schema: all messages of the sort, of derandomize and both permutations, all shares and the output.
   Partial: the circuits are represented by the shares they return (as in om_join), not by their messages (C54). *)
Theorem C70_party1_partial : forall L capS cap nL nR kb enc q0 q0' q1 R0, enc_ok enc kb nL nR -> join_sizes L capS cap nL nR kb q0 -> queries_ok nL nR kb q0 q1 -> queries_ok nL nR kb q0' q1 ->
  hides (fun rd => join_fits L (key_bits kb nL nR) (nL + nR) capS cap (om_width q0 + div_ceil kb 8) rd /\ same_join1 R0 rd) (fun q rd => join_view1 false L enc q q1 rd) q0 q0'.
Proof.
  intros L capS cap nL nR kb enc q0 q0' q1 R0 HE HS HQ HQ'. destruct (same_width HQ HQ') as [_ Ew]. pose proof (same_sizes HQ HQ' HS) as HS'.
  assert (TR : forall rd rd', same_join1 R0 rd -> same_join1 rd rd' -> same_join1 R0 rd') by (intros rd rd' [A B] [C D]; split; [apply (same_sort1_trans A C)|congruence]).
  exists (Jmv1 L capS cap nL nR kb enc q0 q0' q1), (Jmv1 L capS cap nL nR kb enc q0' q0 q1). split; intros rd [F SM].
  - destruct (join1 HE HS HQ HQ' F) as (F' & SM' & I' & _ & V'). split; [split; [exact F'|apply (TR _ _ SM SM')]|]. split; [exact I'|exact V'].
  - change (om_width q0 + div_ceil kb 8) with (jw kb q0) in F |- *. rewrite <- Ew in F |- *. destruct (join1 HE HS' HQ' HQ F) as (F' & SM' & I' & _ & _). split; [split; [exact F'|apply (TR _ _ SM SM')]|exact I'].
Qed.
Print Assumptions C70_party1_partial.

Theorem C70_party0_partial : forall L capS cap nL nR kb enc q0 q1 q1' R0, enc_ok enc kb nL nR -> join_sizes L capS cap nL nR kb q0 -> queries_ok nL nR kb q0 q1 -> queries_ok nL nR kb q0 q1' ->
  hides (fun rd => join_fits L (key_bits kb nL nR) (nL + nR) capS cap (om_width q0 + div_ceil kb 8) rd /\ same_join0 R0 rd) (fun q rd => join_view0 false L enc q0 q rd) q1 q1'.
Proof.
  intros L capS cap nL nR kb enc q0 q1 q1' R0 HE HS HQ HQ'.
  assert (TR : forall rd rd', same_join0 R0 rd -> same_join0 rd rd' -> same_join0 R0 rd') by (intros rd rd' (A & B & E) (C & D & F); split; [apply (same_sort0_trans A C)|split; congruence]).
  exists (Jmv0 L capS cap nL nR kb enc q0 q1 q1'), (Jmv0 L capS cap nL nR kb enc q0 q1' q1). split; intros rd [F SM].
  - destruct (join0 HE HS HQ HQ' F) as (F' & SM' & I' & V'). split; [split; [exact F'|apply (TR _ _ SM SM')]|]. split; [exact I'|exact V'].
  - destruct (join0 HE HS HQ' HQ F) as (F' & SM' & I' & _). split; [split; [exact F'|apply (TR _ _ SM SM')]|exact I'].
Qed.
Print Assumptions C70_party0_partial.

(* One left row and two right rows with keys of three bits, sorted in two rounds *)
Definition jp_q (l r : list N) : om_query := OmQ (ex_col 1 3 [l]) (ex_col 2 3 [r; r]) [OSel true (ex_col 3 8 [[55]]%N); OSel false (ex_col 2 3 [r; r])].
Definition jp_q0 := jp_q [5]%N [1]%N.   Definition jp_q0' := jp_q [2]%N [7]%N.   Definition jp_q1 := jp_q [3]%N [7]%N.   Definition jp_q1' := jp_q [0]%N [6]%N.
Definition jp_rd : join_rand := JR ex_R (ex_comps 3) (JM [true; false; true] [[1; 2; 3]; [4; 5; 6]; [7; 8; 9]]%N [false; true; true]).
Lemma jp_queries a b c d : (a < 8)%N -> (b < 8)%N -> (c < 8)%N -> (d < 8)%N -> queries_ok 1 2 3 (jp_q [a] [b]) (jp_q [c] [d]).
Proof.
  intros Ha Hb Hc Hd. assert (K : forall x, (x < 8)%N -> bytes [x]) by (intros x Hx; constructor; [|constructor]; apply (N.lt_trans _ 8); [exact Hx|reflexivity]).
  assert (C1 : forall nm x, (x < 8)%N -> col_ok 1 (ex_col nm 3 [[x]])) by (intros nm x Hx; split; [split; [split; [reflexivity|repeat (apply Forall_cons; [split; [reflexivity|apply K, Hx]|]); apply Forall_nil]|reflexivity]|split; [reflexivity|split; [reflexivity|split; [cbn; lia|discriminate]]]]).
  assert (C2 : forall nm x, (x < 8)%N -> col_ok 2 (ex_col nm 3 [[x]; [x]])) by (intros nm x Hx; split; [split; [split; [reflexivity|repeat (apply Forall_cons; [split; [reflexivity|apply K, Hx]|]); apply Forall_nil]|reflexivity]|split; [reflexivity|split; [reflexivity|split; [cbn; lia|discriminate]]]]).
  assert (C3 : col_ok 1 (ex_col 3 8 [[55]]%N)) by col_ok.
  assert (Q : forall x y, (x < 8)%N -> (y < 8)%N -> query_ok 1 2 3 (jp_q [x] [y])).
  { intros x y Hx Hy. split; [apply C1, Hx|]. split; [apply C2, Hy|]. split; [reflexivity|]. split; [reflexivity|]. constructor; [exact C3|]. constructor; [apply C2, Hy|constructor]. }
  split; [apply Q; assumption|]. split; [apply Q; assumption|]. repeat constructor.
Qed.
Example C70_ex : enc_ok (fun x => x) 3 1 2 /\ join_sizes 2 16 16 1 2 3 jp_q0 /\ queries_ok 1 2 3 jp_q0 jp_q1 /\ queries_ok 1 2 3 jp_q0' jp_q1 /\ queries_ok 1 2 3 jp_q0 jp_q1' /\
  join_fits 2 (key_bits 3 1 2) 3 16 16 (om_width jp_q0 + div_ceil 3 8) jp_rd /\
  Forall (fun x => (le_num x < 2 ^ N.of_nat (key_bits 3 1 2))%N) (all_keys (fun x => x) 3 1 2 jp_q0 jp_q1) /\
  all_keys (fun x => x) 3 1 2 jp_q0 jp_q1 = [[6]; [6]; [6]]%N /\ all_keys (fun x => x) 3 1 2 jp_q0' jp_q1 = [[1]; [0]; [0]]%N /\ all_keys (fun x => x) 3 1 2 jp_q0 jp_q1' = [[5]; [7]; [7]]%N /\
  (do v <- join_view1 true 2 (fun x => x) jp_q0 jp_q1 jp_rd; Ok (read1 3 3 16 2 1 (own_keys (fun x => x) 3 1 2 jp_q1) v)) = Ok [[6]; [6]; [6]]%N /\
  (do v <- join_view0 true 2 (fun x => x) jp_q0 jp_q1' jp_rd; Ok (read0 3 3 16 2 1 (dat (crA (cpR (fst (jrPerm jp_rd))))) v)) = Ok [[7]; [7]; [5]]%N /\
  join_view1 false 2 (fun x => x) jp_q0 jp_q1 jp_rd <> join_view1 false 2 (fun x => x) jp_q0' jp_q1 jp_rd.
Proof.
  assert (BT : forall l, forallb (fun x => (x <? 256)%N) l = true -> bytes l) by (intros l H; apply Forall_forall; intros x Hx; apply N.ltb_lt; apply (proj1 (forallb_forall _ _) H x Hx)).
  split; [intros H; exfalso; cbn in H; lia|]. split; [split; [lia|]; split; [lia|]; split; [lia|]; split; [vm_compute; discriminate|]; split; [left; lia|]; split; [lia|]; split; [reflexivity|]; split; [apply Nat.leb_le; vm_compute; reflexivity|reflexivity]|].
  do 3 (split; [apply jp_queries; reflexivity|]).
  split; [split; [apply C68_ex|]; split; [cbn; lia|]; split; [cbn; lia|]; split; [apply ex_comps_ok|]; split; [split; [|split]; apply BT; vm_compute; reflexivity|]; split; [split; [|split]; apply BT; vm_compute; reflexivity|];
    split; [reflexivity|]; split; [split; [reflexivity|repeat constructor]|reflexivity]|].
  split; [repeat constructor|]. split; [reflexivity|]. split; [reflexivity|]. split; [reflexivity|]. split; [vm_compute; reflexivity|]. split; [vm_compute; reflexivity|]. vm_compute. discriminate.
Qed.
