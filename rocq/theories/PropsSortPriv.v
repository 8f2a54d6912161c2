(* C68: everything a party sees in a whole radix sort hides the other party's keys. *)
From Verif Require Import Base Words PermModel PermCorModel PermCorSpec ShuffleModel ShuffleSpec ExtractSpec KeyMultModel BitInjModel RadixModel RadixSpec PrivSpec SortViewModel SortPrivSpec GenPermViewModel GenPermPrivSpec.
From Verif Require Import RoundHides GenPermPrivacy PropsRadix PropsRoundPriv.

(* the messages belong to the run that the model computes, and the run succeeds *)
Theorem C68_run : forall L bits n cap c k0 k1 R, 9 <= cap -> (N.of_nat cap < 2 ^ 64)%N -> (2 <= L <= 8 \/ L = 1 /\ bits = 1) -> 0 < bits <= 8 * c -> 0 < n -> (N.of_nat n <= 2 ^ 32)%N ->
  bytes k0 -> bytes k1 -> length k0 = n * c -> length k1 = n * c -> length (snd R) = div_ceil bits L - 1 -> sort_fits L n cap R ->
  exists t, gen_perm_v L n bits bits n c k0 k1 (fst R) (snd R) = Ok t /\ gen_perm L n bits bits n c k0 k1 (fst R) (snd R) = Ok (snd (snd t)).
Proof.
  intros L bits n cap c k0 k1 R H1 H2 H3 H4 H5 H6 B0 B1 L0 L1 HR F.
  destruct (@sort1 L bits n cap c k0 k0 k1 R (conj H1 (conj H2 (conj H3 (conj H4 (conj H5 H6))))) (conj B0 L0) (conj B0 L0) (conj B1 L1) HR F) as (t & _ & E & _).
  exists t. split; [exact E|apply sort_eq, E].
Qed.
Print Assumptions C68_run.

Lemma same_sort1_trans a b c : same_sort1 a b -> same_sort1 b c -> same_sort1 a c.
Proof.
  intros [A B] [C D]. split; [apply (half1_trans A C)|]. destruct a as [a0 a], b as [b0 b], c as [c0 c]. cbn [fst snd] in *. clear A C. revert c D.
  induction B as [|x y a b [H1 H2] B IH]; intros c D; inversion D; subst; constructor; [|apply IH; assumption].
  match goal with H : _ /\ _ |- _ => destruct H as [G1 G2] end. split; [congruence|apply (half1_trans H2 G2)].
Qed.
Lemma same_sort0_trans a b c : same_sort0 a b -> same_sort0 b c -> same_sort0 a c.
Proof.
  intros [A B] [C D]. split; [apply (half0_trans A C)|]. destruct a as [a0 a], b as [b0 b], c as [c0 c]. cbn [fst snd] in *. clear A C. revert c D.
  induction B as [|x y a b [H1 H2] B IH]; intros c D; inversion D; subst; constructor; [|apply IH; assumption].
  match goal with H : _ /\ _ |- _ => destruct H as [G1 G2] end. split; [congruence|apply (half0_trans H2 G2)].
Qed.
Lemma same_sort1_len a b : same_sort1 a b -> length (snd b) = length (snd a).
Proof. intros [_ B]. induction B; cbn [length]; congruence. Qed.
Lemma same_sort0_len a b : same_sort0 a b -> length (snd b) = length (snd a).
Proof. intros [_ B]. induction B; cbn [length]; congruence. Qed.

(* Whatever keys, permutations and transfers party 1 holds: everything it sees in all rounds - the messages of
   derandomize, of the permutation of the digits, of bit injection, hadamardSum and compose, its shares of all
   intermediate values and of the result - is the same over the randomness of party 0 for all keys of party 0. *)
Theorem C68_party1 : forall L bits n cap c R0 k0 k0' k1, 9 <= cap -> (N.of_nat cap < 2 ^ 64)%N -> (2 <= L <= 8 \/ L = 1 /\ bits = 1) -> 0 < bits <= 8 * c -> 0 < n -> (N.of_nat n <= 2 ^ 32)%N ->
  bytes k0 -> bytes k0' -> bytes k1 -> length k0 = n * c -> length k0' = n * c -> length k1 = n * c -> length (snd R0) = div_ceil bits L - 1 ->
  hides (fun R => sort_fits L n cap R /\ same_sort1 R0 R) (fun k R => sort_view1 L bits n c k k1 R) k0 k0'.
Proof.
  intros L bits n cap c R0 k0 k0' k1 H1 H2 H3 H4 H5 H6 B0 B0' B1 L0 L0' L1 HR.
  assert (SO : sort_ok L bits n cap c) by (split; [exact H1|split; [exact H2|split; [exact H3|split; [exact H4|split; assumption]]]]).
  exists (Gmv1 L n cap c k0 k0' k1), (Gmv1 L n cap c k0' k0 k1). split; intros R [F SM]; pose proof (same_sort1_len SM) as LR; rewrite HR in LR.
  - destruct (sort1 SO (conj B0 L0) (conj B0' L0') (conj B1 L1) LR F) as (t & t' & _ & _ & V & F' & S' & I'). split; [split; [exact F'|apply (same_sort1_trans SM S')]|]. split; [exact I'|exact V].
  - destruct (sort1 SO (conj B0' L0') (conj B0 L0) (conj B1 L1) LR F) as (t & t' & _ & _ & V & F' & S' & I'). split; [split; [exact F'|apply (same_sort1_trans SM S')]|exact I'].
Qed.
Print Assumptions C68_party1.

(* the same for party 0 and the keys of party 1 *)
Theorem C68_party0 : forall L bits n cap c R0 k0 k1 k1', 9 <= cap -> (N.of_nat cap < 2 ^ 64)%N -> (2 <= L <= 8 \/ L = 1 /\ bits = 1) -> 0 < bits <= 8 * c -> 0 < n -> (N.of_nat n <= 2 ^ 32)%N ->
  bytes k0 -> bytes k1 -> bytes k1' -> length k0 = n * c -> length k1 = n * c -> length k1' = n * c -> length (snd R0) = div_ceil bits L - 1 ->
  hides (fun R => sort_fits L n cap R /\ same_sort0 R0 R) (fun k R => sort_view0 L bits n c k0 k R) k1 k1'.
Proof.
  intros L bits n cap c R0 k0 k1 k1' H1 H2 H3 H4 H5 H6 B0 B1 B1' L0 L1 L1' HR.
  assert (SO : sort_ok L bits n cap c) by (split; [exact H1|split; [exact H2|split; [exact H3|split; [exact H4|split; assumption]]]]).
  exists (Gmv0 L n cap c k0 k1 k1'), (Gmv0 L n cap c k0 k1' k1). split; intros R [F SM]; pose proof (same_sort0_len SM) as LR; rewrite HR in LR.
  - destruct (sort0 SO (conj B0 L0) (conj B1 L1) (conj B1' L1') LR F) as (t & t' & _ & _ & V & F' & S' & I'). split; [split; [exact F'|apply (same_sort0_trans SM S')]|]. split; [exact I'|exact V].
  - destruct (sort0 SO (conj B0 L0) (conj B1' L1') (conj B1 L1) LR F) as (t & t' & _ & _ & V & F' & S' & I'). split; [split; [exact F'|apply (same_sort0_trans SM S')]|exact I'].
Qed.
Print Assumptions C68_party0.

(* three keys of three bits in two rounds: with the same randomness other keys of a party give the other party another view *)
Definition ex_R := (ex_rd, [(ex_comps 3, ex_rd)]).
Example C68_ex : sort_fits 2 3 16 ex_R /\ same_sort1 ex_R ex_R /\ same_sort0 ex_R ex_R /\ length (snd ex_R) = div_ceil 3 2 - 1 /\
  sort_view1 2 3 3 1 [7; 1; 0]%N [2; 3; 2]%N ex_R <> sort_view1 2 3 3 1 [5; 1; 7]%N [2; 3; 2]%N ex_R /\
  sort_view0 2 3 3 1 [5; 1; 7]%N [7; 1; 0]%N ex_R <> sort_view0 2 3 3 1 [5; 1; 7]%N [2; 3; 2]%N ex_R.
Proof.
  pose proof (proj1 C67_ex) as RF. fold ex_rd in RF.
  assert (BT : forall l, forallb (fun x => (x <? 256)%N) l = true -> bytes l) by (intros l H; apply Forall_forall; intros x Hx; apply N.ltb_lt; apply (proj1 (forallb_forall _ _) H x Hx)).
  split; [split; [exact RF|constructor; [|constructor]; split; [apply ex_comps_ok|]; split; [|split; [|exact RF]]; (split; [|split]); apply BT; vm_compute; reflexivity]|].
  split; [split; [repeat split|constructor; [repeat split|constructor]]|]. split; [split; [repeat split|constructor; [repeat split|constructor]]|].
  split; [reflexivity|]. split; vm_compute; discriminate.
Qed.
