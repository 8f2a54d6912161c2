(* C66: the messages of the permutation correlations and of the composed permutations hide the
   inputs and the permutations. *)
From Verif Require Import Base Words PermModel PermSpec PermProofs PermCorModel PermCorSpec PermCorProofs CompPermProofs ShuffleSpec ExtractSpec ExtractPrivacy PrivSpec PermViewModel PermPrivSpec PermPrivacy CompPrivacy PropsPermCor.

(* A whole history of applies and derandomizations over one correlation: whatever the sender holds,
   over the receiver's parts of the correlation that fit, the messages and the outputs the sender
   gets for one sequence of receiver inputs are those for any other. *)
Theorem C66_input : forall n c s h h', 0 < n -> (N.of_nat c < 2 ^ 64)%N -> Forall2 same_but_recv h h' -> Forall (op_ok n) h -> Forall (op_ok n) h' ->
  bytes (dat (csDelta s)) -> csOff s + widths h <= c ->
  hides (fit_r n c s) (fun h r => cor_view_s s r h) h h'.
Proof. exact hist_hides_recv. Qed.
Print Assumptions C66_input.

(* Whatever the receiver holds, the messages and outputs it gets do not depend on the permutation the
   sender changes to, nor on the sender's inputs, if the correlation is derandomized at most once. *)
Theorem C66_perm : forall n c r h h', 0 < n -> (N.of_nat c < 2 ^ 64)%N -> Forall2 same_but_send h h' -> Forall (op_ok n) h -> Forall (op_ok n) h' ->
  bytes (dat (crA r)) -> bytes (dat (crB r)) -> crOff r + widths h <= c -> derands h <= 1 ->
  hides (fit_s n c r) (fun h s => cor_view_r s r h) h h'.
Proof. exact hist_hides_send. Qed.
Print Assumptions C66_perm.

(* With a second derandomize on the same correlation the receiver learns how the two permutations
   differ: the second difference is p2^-1 o p1 whatever the correlation is. *)
Theorem C66_second_derand : forall n c s r p1 p2, cor_rel n c s r -> is_perm n p1 -> is_perm n p2 ->
  exists d1 d2, cor_view_r s r [ODerand p1; ODerand p2] = Ok [(MPerm d1, []); (MPerm d2, [])] /\
    length d2 = n /\ forall k, k < n -> nth (nth k p2 0) d2 0 = nth k p1 0.
Proof. exact second_derand. Qed.
Print Assumptions C66_second_derand.

Theorem C66_second_derand_refuted : exists r h h', (exists s, fit_s 2 1 r s) /\ Forall2 same_but_send h h' /\ Forall (op_ok 2) h /\ Forall (op_ok 2) h' /\
  bytes (dat (crA r)) /\ bytes (dat (crB r)) /\ crOff r + widths h <= 1 /\ derands h = 2 /\
  ~ hides (fit_s 2 1 r) (fun h s => cor_view_r s r h) h h'.
Proof.
  assert (P1 : is_perm 2 [0; 1]) by (apply (perm_validate_iff [0; 1]); reflexivity). assert (P2 : is_perm 2 [1; 0]) by (apply (perm_validate_iff [1; 0]); reflexivity).
  exists (CorR (Mat 2 1 [3; 7]%N) (Mat 2 1 [1; 2]%N) 0), [ODerand [0; 1]; ODerand [0; 1]], [ODerand [0; 1]; ODerand [1; 0]].
  assert (HS : fit_s 2 1 (CorR (Mat 2 1 [3; 7]%N) (Mat 2 1 [1; 2]%N) 0) (CorS [0; 1] (Mat 2 1 [2; 5]%N) 0)).
  { split; [|repeat constructor]. unfold cor_rel. repeat (split; [first [exact P1|reflexivity]|]). intros [|[|i]] [|j] Hi Hj; try lia; reflexivity. }
  split; [exists (CorS [0; 1] (Mat 2 1 [2; 5]%N) 0); exact HS|]. split; [repeat constructor|].
  split; [repeat (constructor; [assumption|]); constructor|]. split; [repeat (constructor; [assumption|]); constructor|].
  split; [repeat constructor|]. split; [repeat constructor|]. split; [apply Nat.leb_le; reflexivity|]. split; [reflexivity|].
  intros (f & g & H & _). destruct (H _ HS) as (HS' & _ & E).
  destruct (C66_second_derand (proj1 HS) P1 P1) as (d1 & d2 & E1 & _ & D1). destruct (C66_second_derand (proj1 HS') P1 P2) as (e1 & e2 & E2 & _ & D2).
  rewrite E1, E2 in E. injection E as _ E. specialize (D1 0 ltac:(lia)). specialize (D2 1 ltac:(lia)). cbn [nth] in D1, D2. rewrite E in D2. congruence.
Qed.
Print Assumptions C66_second_derand_refuted.

(* A whole history of a composed permutation, applies in both directions and at most one
   derandomization: whatever party 0 holds, over what party 1 may hold, the messages party 0 gets and
   its outputs are the same for all inputs of party 1 and all its shares of the new permutation (so
   for all permutations). *)
Theorem C66_party0 : forall n c c0 h h', 0 < n -> (N.of_nat c < 2 ^ 64)%N -> comp_bytes c0 -> Forall2 same_for0 h h' -> Forall (mop_ok n) h -> Forall (mop_ok n) h' ->
  csOff (cpS c0) + mwidth0 h <= c -> crOff (cpR c0) + mwidth1 h <= c -> mderands h <= 1 ->
  hides (fun c1 => comp_rel n c c0 c1 /\ comp_bytes c1) (fun h c1 => comp_view0 c0 c1 h) h h'.
Proof. exact comp_hides0. Qed.
Print Assumptions C66_party0.

(* The same for party 1. *)
Theorem C66_party1 : forall n c c1 h h', 0 < n -> (N.of_nat c < 2 ^ 64)%N -> comp_bytes c1 -> Forall2 same_for1 h h' -> Forall (mop_ok n) h -> Forall (mop_ok n) h' ->
  crOff (cpR c1) + mwidth0 h <= c -> csOff (cpS c1) + mwidth1 h <= c -> mderands h <= 1 ->
  hides (fun c0 => comp_rel n c c0 c1 /\ comp_bytes c0) (fun h c0 => comp_view1 c0 c1 h) h h'.
Proof. exact comp_hides1. Qed.
Print Assumptions C66_party1.

(* two histories over the correlation of C05_ex: other inputs of the receiver, another permutation *)
Definition ex_h2 : list cop := [OApply Regular 2 (Some [1; 2; 3; 4; 5; 6]%N) [255; 0; 3; 9; 80; 96]%N;
  ODerand [1; 2; 0]; OApply Inverse 1 None [70; 80; 90]%N; OApply Regular 1 (Some [1; 1; 1]%N) [30; 40; 50]%N].
Definition ex_h3 : list cop := [OApply Regular 2 (Some [9; 2; 7; 4; 5; 8]%N) [16; 32; 48; 64; 80; 96]%N;
  ODerand [0; 2; 1]; OApply Inverse 1 None [7; 8; 9]%N; OApply Regular 1 None [3; 4; 5]%N].
(* a history of the composed permutation of C07_ex: apply, derandomize, apply the inverse *)
Definition ex_m : list mop := [MApply Regular 2 [1; 2; 3; 4; 5; 6]%N [16; 32; 48; 64; 80; 96]%N; MDerand ex_a0 ex_a1; MApply Inverse 1 [7; 8; 9]%N [1; 1; 2]%N].
Definition ex_m2 : list mop := [MApply Regular 2 [1; 2; 3; 4; 5; 6]%N [0; 32; 255; 64; 80; 1]%N; MDerand ex_a0 [6; 102; 300]%N; MApply Inverse 1 [7; 8; 9]%N [3; 1; 9]%N].
Definition ex_m3 : list mop := [MApply Regular 2 [0; 2; 0; 4; 0; 6]%N [16; 32; 48; 64; 80; 96]%N; MDerand [4; 102; 301]%N ex_a1; MApply Inverse 1 [70; 8; 90]%N [1; 1; 2]%N].
Ltac isp p := apply (perm_validate_iff p); reflexivity.
Example C66_ex : fit_r 3 4 ex_s ex_r /\ fit_s 3 4 ex_r ex_s /\ Forall2 same_but_recv ex_h ex_h2 /\ Forall2 same_but_send ex_h ex_h3 /\
  Forall (op_ok 3) ex_h2 /\ Forall (op_ok 3) ex_h3 /\ csOff ex_s + widths ex_h = 4 /\ derands ex_h = 1 /\
  cor_view_s ex_s ex_r ex_h2 <> cor_view_s ex_s ex_r ex_h /\ cor_view_r ex_s ex_r ex_h3 <> cor_view_r ex_s ex_r ex_h.
Proof.
  destruct C05_ex as (HR & HO & HW & _). 
  assert (B1 : bytes (dat (crA ex_r))) by (apply Forall_forall; intros x Hx; repeat (destruct Hx as [<-|Hx]; [reflexivity|]); contradiction).
  assert (B2 : bytes (dat (crB ex_r))) by (apply Forall_forall; intros x Hx; repeat (destruct Hx as [<-|Hx]; [reflexivity|]); contradiction).
  assert (B3 : bytes (dat (csDelta ex_s))) by (apply Forall_forall; intros x Hx; repeat (destruct Hx as [<-|Hx]; [reflexivity|]); contradiction).
  split; [split; [exact HR|split; assumption]|]. split; [split; assumption|].
  split; [|split; [|split; [|split; [|split; [exact HW|split; [reflexivity|split]]]]]].
  - repeat constructor.
  - repeat constructor.
  - assert (P : is_perm 3 [1; 2; 0]) by isp [1; 2; 0]. repeat (constructor; [first [exact P|split; [reflexivity|first [reflexivity|exact I]]]|]). constructor.
  - assert (P : is_perm 3 [0; 2; 1]) by isp [0; 2; 1]. repeat (constructor; [first [exact P|split; [reflexivity|first [reflexivity|exact I]]]|]). constructor.
  - vm_compute. discriminate.
  - vm_compute. discriminate.
Qed.

Example C66_comp_ex : comp_rel 3 16 ex_c0 ex_c1 /\ comp_bytes ex_c0 /\ comp_bytes ex_c1 /\ Forall2 same_for0 ex_m ex_m2 /\ Forall2 same_for1 ex_m ex_m3 /\
  Forall (mop_ok 3) ex_m /\ Forall (mop_ok 3) ex_m2 /\ Forall (mop_ok 3) ex_m3 /\ csOff (cpS ex_c0) + mwidth0 ex_m = 3 /\ csOff (cpS ex_c1) + mwidth1 ex_m = 7 /\ mderands ex_m = 1 /\
  comp_view0 ex_c0 ex_c1 ex_m2 <> comp_view0 ex_c0 ex_c1 ex_m /\ comp_view1 ex_c0 ex_c1 ex_m3 <> comp_view1 ex_c0 ex_c1 ex_m.
Proof.
  destruct C07_ex as (HR & _).
  assert (BY : forall l, forallb (fun x => (x <? 256)%N) l = true -> bytes l) by (intros l H; apply Forall_forall; intros x Hx; apply N.ltb_lt; apply (proj1 (forallb_forall _ _) H x Hx)).
  assert (B0 : comp_bytes ex_c0) by (split; [|split]; apply BY; vm_compute; reflexivity).
  assert (B1 : comp_bytes ex_c1) by (split; [|split]; apply BY; vm_compute; reflexivity).
  assert (LT : forall a b, forallb (fun i => (N.lxor (nth i a 0) (nth i b 0) <? 2 ^ 32)%N) (seq 0 3) = true -> forall i, i < 3 -> (N.lxor (nth i a 0) (nth i b 0) < 2 ^ 32)%N).
  { intros a b H i Hi. apply N.ltb_lt. apply (proj1 (forallb_forall _ _) H i). apply in_seq. lia. }
  assert (OK : forall o1 o2 o3 o4 a b o5 o6, map (fun l => length l) [o1; o2; o3; o4; o5; o6] = [6; 6; 3; 3; 3; 3] ->
    forallb (forallb (fun x => (x <? 256)%N)) [o1; o2; o5; o6] = true -> o3 = a -> o4 = b -> forallb (fun i => (N.lxor (nth i a 0) (nth i b 0) <? 2 ^ 32)%N) (seq 0 3) = true ->
    is_perm 3 (map N.to_nat (xors a b)) -> Forall (mop_ok 3) [MApply Regular 2 o1 o2; MDerand a b; MApply Inverse 1 o5 o6]).
  { intros o1 o2 o3 o4 a b o5 o6 HL HB -> -> HX HP. cbn [map] in HL. injection HL as L1 L2 L3 L4 L5 L6. cbn [forallb] in HB. rewrite !andb_true_iff in HB. destruct HB as (b1 & b2 & b5 & b6 & _).
    constructor; [split; [exact L1|split; [exact L2|split; apply BY; assumption]]|]. constructor; [split; [exact L3|split; [exact L4|split; [apply LT; exact HX|exact HP]]]|].
    constructor; [split; [exact L5|split; [exact L6|split; apply BY; assumption]]|]. constructor. }
  split; [exact HR|]. split; [exact B0|]. split; [exact B1|].
  split; [repeat (constructor; [cbn [same_for0]; auto|]); constructor|]. split; [repeat (constructor; [cbn [same_for1]; auto|]); constructor|].
  split; [apply (OK _ _ ex_a0 ex_a1); try reflexivity; isp [2; 0; 1]|].
  split; [apply (OK _ _ ex_a0 [6; 102; 300]%N); try reflexivity; isp [1; 2; 0]|].
  split; [apply (OK _ _ [4; 102; 301]%N ex_a1); try reflexivity; isp [1; 2; 0]|].
  split; [vm_compute; reflexivity|]. split; [vm_compute; reflexivity|]. split; [reflexivity|].
  split; vm_compute; discriminate.
Qed.
