(* Specification of the group by protocol. *)
From Verif Require Import Base ShuffleModel ShuffleSpec RadixSpec TableModel TableSpec TableOpsSpec OmJoinModel OmJoinSpec GroupByModel.

(* the parties' arguments: a key column of kb bits, the same columns of one table with n rows, and a
   flag byte per row *)
Definition gb_query_ok (n kb : nat) (q : gb_query) : Prop :=
  col_ok n (gKey q) /\ cBits (gKey q) = kb /\ Forall (fun s => fst s = true /\ col_ok n (snd s)) (gAvg q) /\
  length (gAct q) = n /\ bytes (gAct q).
Definition gb_queries_ok (n kb : nat) (q0 q1 : gb_query) : Prop :=
  gb_query_ok n kb q0 /\ gb_query_ok n kb q1 /\ same_info (gKey q0) (gKey q1) /\
  Forall2 (fun s0 s1 => same_info (snd s0) (snd s1)) (gAvg q0) (gAvg q1).

(* what the parties share: the keys and which rows are active *)
Definition gb_keys (q0 q1 : gb_query) : list (list N) := shared_rows (gKey q0) (gKey q1).
Definition gb_act (q0 q1 : gb_query) (i : nat) : bool := N.odd (N.lxor (nth i (gAct q0) 0%N) (nth i (gAct q1) 0%N)).

(* the masks have the sizes of the results *)
Definition gb_rand_ok (n : nat) (q : gb_query) (rd : gb_rand) : Prop :=
  rows_ok n (gb_width q + div_ceil (cBits (gKey q)) 8 + div_ceil (gb_key_size q) 8 + 1) (bSort rd) /\
  length (bCtrl rd) = n /\ rows_ok n (div_ceil (fold_right Nat.add 0 (gb_sizes q)) 8) (bAgg rd) /\ length (bFlag rd) = n /\
  rows_ok n (gb_width q + div_ceil (cBits (gKey q)) 8 + 1) (bUnsort rd).

Section Groups.
Variables (n kb : nat) (G : list (list N)) (A : nat -> bool).

(* the number of the key of a row with the flag on top *)
Definition gb_num (i : nat) : N := (le_num (nth i G []) + if A i then 2 ^ N.of_nat kb else 0)%N.
(* the number that is sorted and compared: the same, or that of the encoded key *)
Definition gb_seen (enc : list N -> list N) (i : nat) : N :=
  if kb + 1 <=? gb_comp n then gb_num i else le_num (enc (le_bytes (div_ceil (kb + 1) 8) (gb_num i))).
(* the bits compared *)
Definition gb_compared : nat := 2 ^ Nat.log2 (Nat.min (kb + 1) (gb_comp n)).
(* rows whose compared bits agree have the same key and flag, or a row is sorted between them *)
Definition gb_told (enc : list N -> list N) : Prop :=
  forall i j, i < n -> j < n -> (gb_seen enc i mod 2 ^ N.of_nat gb_compared = gb_seen enc j mod 2 ^ N.of_nat gb_compared)%N ->
  gb_num i = gb_num j \/
  exists z, z < n /\ ((gb_seen enc i < gb_seen enc z /\ gb_seen enc z < gb_seen enc j) \/ (gb_seen enc j < gb_seen enc z /\ gb_seen enc z < gb_seen enc i))%N.

Definition same_key (i j : nat) : bool := row_eq (nth i G []) (nth j G []).
(* the active rows with the key of row i *)
Definition gb_members (i : nat) : list nat := filter (fun j => same_key j i && A j) (seq 0 n).
(* the rows from row i on with its key and its flag *)
Definition gb_rest (i : nat) : list nat := filter (fun j => same_key j i && Bool.eqb (A j) (A i)) (seq i (n - i)).
(* is row i the first active row with its key *)
Definition gb_leader (i : nat) : bool := A i && forallb (fun j => negb (same_key j i && A j)) (seq 0 i).
Definition gb_leaders : list nat := filter gb_leader (seq 0 n).
End Groups.

(* the columns of the result for the rows l, where m are the rows added up for a row: the key, the
   sums modulo the width, the number of rows *)
Definition gb_sum_col (m : nat -> list nat) (l : list nat) (s0 s1 : bool * column) : column :=
  let w := div_ceil (cBits (snd s0)) 8 in
  byte_col (cName (snd s0)) (cType (snd s0)) w
    (map (fun i => le_bytes w (total (fun j => le_num (nth j (shared_rows (snd s0) (snd s1)) [])) (m i))) l).
Definition gb_cols (m : nat -> list nat) (l : list nat) (q0 q1 : gb_query) : list column :=
  byte_col (cName (gKey q0)) (cType (gKey q0)) (div_ceil (cBits (gKey q0)) 8) (map (fun i => nth i (gb_keys q0 q1) []) l)
  :: map2 (gb_sum_col m l) (gAvg q0) (gAvg q1)
  ++ [byte_col [67; 111; 117; 110; 116]%N 0 8 (map (fun i => le_bytes 8 (N.of_nat (length (m i)))) l)].
