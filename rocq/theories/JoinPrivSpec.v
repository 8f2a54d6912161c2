(* Which randomness of a whole join fits what the other party holds, and what a party can compute from the messages
   of validate. *)
From Verif Require Import Base ShuffleSpec PermModel PermCorModel PermCorSpec KeyMultModel RadixModel RadixSpec PermPrivSpec ExtractSpec SortPrivSpec GenPermPrivSpec TableModel TableSpec OmJoinModel OmJoinSpec JoinViewModel.

(* the shares the circuits give party 0 have the sizes of the results *)
Definition masks_ok (n w : nat) (m : join_masks) : Prop := length (jmCtrl m) = n /\ rows_ok n w (jmDup m) /\ length (jmFlag m) = n.
(* the randomness of a join of n rows: of a sort of bits bits in digits of L bits, a fresh composed permutation with
   cap bytes per row, the masks *)
Definition join_fits (L bits n capS cap w : nat) (rd : join_rand) : Prop :=
  sort_fits L n capS (jrSort rd) /\ S (length (snd (jrSort rd))) * L < bits + L /\ bits <= S (length (snd (jrSort rd))) * L /\
  comps_ok n cap (jrPerm rd) /\ comp_bytes (fst (jrPerm rd)) /\ comp_bytes (snd (jrPerm rd)) /\ masks_ok n w (jrMasks rd).

(* party 1 (party 0) holds the same as in R0 *)
Definition same_join1 (R0 R : join_rand) : Prop := same_sort1 (jrSort R0) (jrSort R) /\ snd (jrPerm R) = snd (jrPerm R0).
Definition same_join0 (R0 R : join_rand) : Prop := same_sort0 (jrSort R0) (jrSort R) /\ fst (jrPerm R) = fst (jrPerm R0) /\ jrMasks R = jrMasks R0.

(* the digits, the permutation's bytes and the rows of a join *)
Definition join_sizes (L capS cap nL nR kb : nat) (q : om_query) : Prop :=
  0 < nL /\ 0 < nR /\ 0 < kb /\ (N.of_nat (nL + nR) <= 2 ^ 32)%N /\ (2 <= L <= 8 \/ L = 1 /\ kb = 1) /\
  9 <= capS /\ (N.of_nat capS < 2 ^ 64)%N /\ om_perm_bytes (qSel q) kb (key_bits kb nL nR) <= cap /\ (N.of_nat cap < 2 ^ 64)%N.

(* a message of n rows of w bytes, unmasked with the window at off of the n rows of c bytes in m *)
Definition unmask (n w c off : nat) (m msg : list N) : list (list N) :=
  map (fun i => map (fun j => N.lxor (cel w msg i j) (cel c m i (off + j))) (seq 0 w)) (seq 0 n).
(* the window itself *)
Definition window (n w c off : nat) (m : list N) : list (list N) := map (fun i => map (fun j => cel c m i (off + j)) (seq 0 w)) (seq 0 n).

(* What party 1 computes from its own keys (own, of kc bytes at off of a row) and the messages of a join it took part in:
   mB of party 0's receiver (validate) unmasks the message of the first permutation. *)
Definition read1 {A B C D E F G H : Type} (n w cap off kc : nat) (own : list (list N))
  (v : A * option (list N * list N) * (B * list N * list (list N) * C * D * E * F * G) * H) : list (list N) :=
  match v with
  | (_, Some (_, b), (_, msg, _, _, _, _, _, _), _) => xor_rows (map (fun r => slice r off kc) (unmask n w cap 4 b msg)) own
  | _ => []
  end.
(* What party 0 computes from mA of its own receiver and the messages: its share of the rows shuffled by party 1, and
   the one of party 1 *)
Definition read0 {A B C D E F G H : Type} (n w cap off kc : nat) (a : list N)
  (v : A * option (list N * list N) * (B * list N * list (list N) * C * D * E * F * G) * H) : list (list N) :=
  match v with
  | (_, Some (_, b), (_, msg, _, _, _, _, _, _), _) => map (fun r => slice r off kc) (xor_rows (unmask n w cap 0 b msg) (window n w cap 4 a))
  | _ => []
  end.
(* the keys of one party's tables, as sorted and compared (hashed when they are long) *)
Definition own_keys (enc : list N -> list N) (kb nL nR : nat) (q : om_query) : list (list N) := map (seen enc kb nL nR) (bRows (cDat (qLeft q)) ++ bRows (cDat (qRight q))).
(* all keys of a join, as compared *)
Definition all_keys (enc : list N -> list N) (kb nL nR : nat) (q0 q1 : om_query) : list (list N) := map (seen enc kb nL nR) (left_keys q0 q1 ++ right_keys q0 q1).
