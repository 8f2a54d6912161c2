(* Specification of trit sampling (the model is used for the type of the sampler state only). *)
From Verif Require Import Base Words Mod3Model.

(* the j-th base 3 digit of b *)
Definition digit3 (b : N) (j : nat) : nat := N.to_nat (b / 3 ^ N.of_nat j mod 3).

(* The 32 trits of the word pair (m, l) are the base-3 digits, five per byte, of the
   accepted bytes acc (newest first), each below 243 = 3^5. *)
Definition trits_of_bytes (m l : N) (acc : list N) : Prop :=
  7 <= length acc /\ (forall b, In b acc -> (b < 243)%N) /\
  forall i, i < 32 -> trit m l (N.of_nat i) = digit3 (nth (i / 5) acc 0%N) (i mod 5).

(* 32-bit word q of a block *)
Definition word32 (x : N) (q : nat) : N := N.land (N.shiftr x (32 * N.of_nat q)) (N.ones 32).

(* pair t (0..63) of a 128-bit seed: bit t of the low and of the high half *)
Definition pair_at (x : N) (t : N) : bool * bool := (N.testbit x (64 + t), N.testbit x t).

(* span results, stated lane by lane *)
Definition span_lanes (n : nat) (r : list N * list N) (Q : nat -> N -> N -> N -> Prop) : Prop :=
  length (fst r) = n /\ length (snd r) = n /\
  forall k m l i, nth_error (fst r) k = Some m -> nth_error (snd r) k = Some l -> Q k m l i.

Definition span_valid (x1 x0 : list N) : Prop :=
  forall k m l i, nth_error x1 k = Some m -> nth_error x0 k = Some l -> tvalid m l i.

(* the i-th block of a span *)
Definition nthN (l : list N) i := nth i l 0%N.

(* a table entry for byte b: (number of trits, lsb bits, msb bits) *)
Definition entry_ok (b : nat) (v lb mb : N) : Prop :=
  (b < 243 /\ v = 5%N /\ (lb < 32)%N /\ (mb < 32)%N /\
    forall j, j < 5 -> trit mb lb (N.of_nat j) = digit3 (N.of_nat b) j) \/
  (243 <= b /\ v = 0%N /\ lb = 0%N /\ mb = 0%N).

(* ---- freshness of the key stream ---- *)

(* The stream position (in blocks) of the next 32-byte unit, and (in bytes) of the next single
   byte, when the call would take them now: a used-up buffer is replaced by the blocks from
   the counter on. *)
Definition next_unit (s : smp) : N := (if 64 <=? sPos1 s then sIdx s else sBase1 s + 2 * sPos1 s)%N.
Definition next_byte (s : smp) : N := (if sPos2 s =? 128 then 16 * sIdx s else 16 * sBase2 s + sPos2 s)%N.

(* the unread parts of the two buffers are below the counter and do not overlap *)
Definition smp_ok (s : smp) : Prop :=
  (64 <= sPos1 s \/ sBase1 s + 128 <= sIdx s)%N /\
  (sPos2 s <= 128)%N /\ (sPos2 s = 128 \/ sBase2 s + 8 <= sIdx s)%N /\
  (64 <= sPos1 s \/ sPos2 s = 128 \/ sBase1 s + 128 <= sBase2 s \/ sBase2 s + 8 <= sBase1 s)%N.
