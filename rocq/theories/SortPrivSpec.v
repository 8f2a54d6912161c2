(* Which oblivious transfers and which rounds fit what the other party holds. *)
From Verif Require Import Base PermCorModel PermCorSpec KeyMultModel BitInjModel RadixModel RadixSpec PrivSpec ExtractSpec SortViewModel.

(* 32 bit strings *)
Definition u32p (p : N * N) : Prop := (fst p < 2 ^ 32 /\ snd p < 2 ^ 32)%N.
Definition str32 (ss : list ot_send) : Prop := Forall (Forall u32p) ss.

(* the strings the sender may hold, given what the receiver holds, and the other way round; the
   sender's second string of each pair is unknown to the receiver, the receiver's choice to the sender *)
Definition fit_ots (k : nat) (rs : list ot_recv) (ss : list ot_send) : Prop := ots_ok k ss rs /\ str32 ss.
Definition fit_otr (k : nat) (ss : list ot_send) (rs : list ot_recv) : Prop := ots_ok k ss rs.

(* a round of the sort as party 1 (party 0) may imagine it: its own transfers are those of rd0.  The shares that
   party 0 gets from the circuits are party 0's own. *)
Definition round_fits (L n : nat) (rd : radix_round) : Prop :=
  rround_ok L n rd /\ str32 (rdInj0 rd) /\ str32 (h1s (rdHs rd)) /\ str32 (h0s (rdHs rd)) /\
  Forall (fun x => (x < 2 ^ N.of_nat (Nat.min 8 (2 ^ L)))%N) (rdHot rd).
Definition same_half1 (rd0 rd : radix_round) : Prop :=
  rdInj1 rd = rdInj1 rd0 /\ h1s (rdHs rd) = h1s (rdHs rd0) /\ h1r (rdHs rd) = h1r (rdHs rd0).
Definition same_half0 (rd0 rd : radix_round) : Prop :=
  rdInj0 rd = rdInj0 rd0 /\ h0s (rdHs rd) = h0s (rdHs rd0) /\ h0r (rdHs rd) = h0r (rdHs rd0) /\
  rdHot rd = rdHot rd0 /\ rdA2b rd = rdA2b rd0.

(* n keys in one byte each; digits of one bit go without a circuit, so they must be bits *)
Definition keys_ok (L n : nat) (k : list N) : Prop := length k = n /\ (L = 1 -> Forall (fun x => (x < 2)%N) k).
