(* C67: the messages of bit injection, of hadamardSum and of a whole round of the radix sort hide the
   inputs of both parties. *)
From Verif Require Import Base Words PermCorModel PermCorSpec KeyMultModel BitInjModel RadixModel RadixSpec PrivSpec SortViewModel SortPrivSpec.
From Verif Require Import OtPrivacy HsPrivacy RoundPrivacy RoundHides PropsRadix.

(* The differences the receiver of the bit injection sends: whatever strings the sender holds, over the
   receiver's choices they are the same for one input as for any other of that size. *)
Theorem C67_inj_recv : forall total nb c k ss d d', length d' = length d ->
  hides (fit_otr k ss) (fun d rs => do x <- bi_recv1 total nb c d rs 0; Ok (map fst x)) d d'.
Proof.
  intros total nb c k ss d d' H. exists (rflips (ebit nb c d d') 0 ss), (rflips (ebit nb c d' d) 0 ss).
  assert (E : forall rs, rflips (ebit nb c d' d) 0 ss rs = rflips (ebit nb c d d') 0 ss rs) by (intros; apply rflips_ext; intros; unfold ebit; apply xorb_comm).
  split; intros rs F; rewrite E; (split; [apply rflips_ok; exact F|]).
  - split; [apply rflips_inv, F|]. apply orel_same with (f := map fst). eapply orel_mono; [apply bi_recv1_flip; [exact H|apply F]|]. intros x x'. apply rec_rels.
  - apply rflips_inv, F.
Qed.
Print Assumptions C67_inj_recv.

(* The sender's messages, for whatever differences the receiver sends: over the strings that the receiver does
   not hold they are the same for every input.  All widths and masks. *)
Theorem C67_inj_send : forall total nb c w mask k rs diffs d d', length d' = length d ->
  hides (fit_ots k rs) (fun d ss => do y <- bi_send total nb c d w mask ss diffs 0; Ok (snd y)) d d'.
Proof.
  intros total nb c w mask k rs diffs d d' H.
  set (e := fun d d' => chgZ (vbit nb c d) (vbit nb c d') (at_ diffs)).
  exists (sflips (e d d') 0 rs), (sflips (e d' d) 0 rs).
  assert (E : forall d d' k c, (e d d' k c + e d' d k c = 0)%Z) by (intros; apply chgZ_swap).
  split; intros ss F; (split; [apply sflips_ok; exact F|]); pose proof (eq_sym (Forall2_length' (proj1 (proj1 F)))) as L.
  - split; [apply sflips_inv; [apply E|exact L|apply F]|]. apply orel_same with (f := snd). eapply orel_mono; [apply bi_send_flip; [exact H|apply F|reflexivity]|]. intros y y' [A _]. exact A.
  - apply sflips_inv; [apply E|exact L|apply F].
Qed.
Print Assumptions C67_inj_send.

(* hadamardSum: the differences hide the sending party's bits *)
Theorem C67_hs_send : forall rows cols k ss f f', length f' = length f ->
  hides (fit_otr k ss) (fun f rs => do x <- hs_send1 rows cols f rs 0; Ok (fst x)) f f'.
Proof.
  intros rows cols k ss f f' H. exists (rflips (fbit f f') 0 ss), (rflips (fbit f' f) 0 ss).
  assert (E : forall rs, rflips (fbit f' f) 0 ss rs = rflips (fbit f f') 0 ss rs) by (intros; apply rflips_ext; intros; unfold fbit; apply xorb_comm).
  split; intros rs F; rewrite E; (split; [apply rflips_ok; exact F|]).
  - split; [apply rflips_inv, F|]. apply orel_same with (f := fst). eapply orel_mono; [apply (@hs_send1_flip rows cols f f' H ss rs 0); apply F|]. intros x x' [A _]. exact A.
  - apply rflips_inv, F.
Qed.
Print Assumptions C67_hs_send.

(* and the values tt hide the bits and the summands, whatever differences arrived *)
Theorem C67_hs_recv : forall rows cols k rs diffs x x', length (fst x') = length (fst x) -> length (snd x') = length (snd x) ->
  hides (fit_ots k rs) (fun x ss => do y <- hs_recv rows cols (snd x) (fst x) ss diffs 0; Ok (fst y)) x x'.
Proof.
  intros rows cols k rs diffs [f s] [f' s'] H1 H2. cbn [fst snd] in *.
  set (e := fun f s f' s' => chgZ (vsum f s) (vsum f' s') (at_ diffs)).
  exists (sflips (e f s f' s') 0 rs), (sflips (e f' s' f s) 0 rs).
  assert (E : forall f s f' s' k c, (e f s f' s' k c + e f' s' f s k c = 0)%Z) by (intros; apply chgZ_swap).
  split; intros ss F; (split; [apply sflips_ok; exact F|]); pose proof (eq_sym (Forall2_length' (proj1 (proj1 F)))) as L.
  - split; [apply sflips_inv; [apply E|exact L|apply F]|]. cbn [fst snd]. apply orel_same with (f := fst).
    eapply orel_mono; [apply (@hs_recv_flip rows cols f f' s s' (at_ diffs) H1 H2 ss rs diffs 0); [apply F|reflexivity]|]. intros y y' [A _]. exact A.
  - apply sflips_inv; [apply E|exact L|apply F].
Qed.
Print Assumptions C67_hs_recv.

(* the messages belong to the run that the model computes *)
Theorem C67_run : forall mL mSize L n kc k0 k1 rd, gen_bit_perm mL mSize L n kc k0 k1 rd = do t <- gen_bit_perm_v mL mSize L n kc k0 k1 rd; Ok (rvOut t).
Proof. exact gen_bit_perm_v_eq. Qed.
Print Assumptions C67_run.

(* A whole round of the sort.  Whatever keys and transfers party 1 holds, everything it sees - its shares of the
   indicator bits, the messages of the bit injection and of both directions of hadamardSum, its share of the
   result - is the same over the randomness of party 0 for all keys of party 0. *)
Theorem C67_party1 : forall L n kc rd0 k0 k0' k1, 0 < L -> L <= kc * 8 -> (N.of_nat n <= 2 ^ 32)%N -> keys_ok L n k0 -> keys_ok L n k0' -> keys_ok L n k1 ->
  hides (fun rd => round_fits L n rd /\ same_half1 rd0 rd) (fun k rd => round_view1 L n kc k k1 rd) k0 k0'.
Proof. intros L n kc rd0 k0 k0' k1 H1 H2 H3. apply round_hides1; assumption. Qed.
Print Assumptions C67_party1.

(* the same for party 0 and the keys of party 1 *)
Theorem C67_party0 : forall L n kc rd0 k0 k1 k1', 0 < L -> L <= kc * 8 -> (N.of_nat n <= 2 ^ 32)%N -> keys_ok L n k0 -> keys_ok L n k1 -> keys_ok L n k1' ->
  hides (fun rd => round_fits L n rd /\ same_half0 rd0 rd) (fun k rd => round_view0 L n kc k0 k rd) k1 k1'.
Proof. intros L n kc rd0 k0 k1 k1' H1 H2 H3. apply round_hides0; assumption. Qed.
Print Assumptions C67_party0.

(* three keys of two bits: with the same randomness other keys give other messages, with the randomness that
   the bijection finds the same ones *)
Definition ex_rd : radix_round := let rd := ex_round 2 3 [8; 4] in Round (rdInj0 rd) (rdInj1 rd) [5; 10; 15]%N (rdHs rd) (rdA2b rd).
Example C67_ex : let rd := ex_rd in
  round_fits 2 3 rd /\ keys_ok 2 3 [1; 0; 3]%N /\ keys_ok 2 3 [2; 2; 3]%N /\ keys_ok 2 3 [3; 1; 0]%N /\
  round_view1 2 3 1 [2; 2; 3]%N [3; 1; 0]%N rd <> round_view1 2 3 1 [1; 0; 3]%N [3; 1; 0]%N rd /\
  round_view0 2 3 1 [1; 0; 3]%N [2; 2; 3]%N rd <> round_view0 2 3 1 [1; 0; 3]%N [3; 1; 0]%N rd /\
  round_view1 2 3 1 [2; 2; 3]%N [3; 1; 0]%N (Rmv1 2 3 1 [1; 0; 3]%N [2; 2; 3]%N [3; 1; 0]%N rd) = round_view1 2 3 1 [1; 0; 3]%N [3; 1; 0]%N rd.
Proof.
  cbv zeta.
  assert (ST : forall l, forallb (forallb (fun p => (fst p <? 2 ^ 32)%N && (snd p <? 2 ^ 32)%N)) l = true -> str32 l).
  { intros l H. apply Forall_forall. intros s Hs. apply Forall_forall. intros p Hp. pose proof (proj1 (forallb_forall _ _) (proj1 (forallb_forall _ _) H s Hs) p Hp) as Q.
    apply andb_prop in Q. destruct Q as [Q1 Q2]. split; apply N.ltb_lt; assumption. }
  assert (BD : forall m l, forallb (fun x => (x <? m)%N) l = true -> Forall (fun x => (x < m)%N) l) by (intros m l H; apply Forall_forall; intros x Hx; apply N.ltb_lt; apply (proj1 (forallb_forall _ _) H x Hx)).
  split; [split; [split; [apply C27_ex|split; [reflexivity|apply C27_ex]]|]; split; [apply ST; vm_compute; reflexivity|]; split; [apply ST; vm_compute; reflexivity|]; split; [apply ST; vm_compute; reflexivity|apply BD; vm_compute; reflexivity]|].
  do 3 (split; [split; [reflexivity|discriminate]|]).
  split; [vm_compute; discriminate|]. split; [vm_compute; discriminate|]. vm_compute. reflexivity.
Qed.
