(* C44, C47, C48: GF(4) arithmetic and the two linear codes of the PRF. *)
From Verif Require Import Base Words PermSpec PermModel PermProofs F2CodeModel F2CodeSpec F2CodeProofs
  F3CodeModel F3CodeSpec F3CodeProofs GF4Model GF4Spec GF4Proofs.

(* ---- C44 ---- *)
Theorem C44_field_spec :
  (forall x y z, gmul x (gmul y z) = gmul (gmul x y) z) /\ (forall x y, gmul x y = gmul y x) /\
  (forall x, gmul x g1 = x) /\ (forall x, x <> g0 -> exists y, gmul x y = g1) /\
  (forall x y z, gmul x (gadd y z) = gadd (gmul x y) (gmul x z)).
Proof. exact gmul_field. Qed.
Print Assumptions C44_field_spec.

(* multiplication of F4 values is the field multiplication *)
Theorem C44_mul : forall x y, (x < 4)%N -> (y < 4)%N ->
  exists r, f4_mul x y = Ok r /\ (r < 4)%N /\ gelem r 0 = gmul (gelem x 0) (gelem y 0).
Proof. exact f4_mul_spec. Qed.
Print Assumptions C44_mul.

(* multiplication of a packed block by an F4 value multiplies each of the 64 elements *)
Theorem C44_mul_block : forall x c, (c < 4)%N -> exists r, f4_mul_block x c = Ok r /\
  forall t, (t < 64)%N -> gelem r t = gmul (gelem x t) (gelem c 0).
Proof. exact f4_mul_block_total. Qed.
Print Assumptions C44_mul_block.

(* the laws on whole blocks: distributive in both arguments, and compatible with the
   product of the scalars *)
Theorem C44_block_laws : forall x y a b, (x < 2 ^ 128)%N -> (y < 2 ^ 128)%N -> (a < 4)%N -> (b < 4)%N ->
  exists xa ya xb ab xab, f4_mul_block x a = Ok xa /\ f4_mul_block y a = Ok ya /\ f4_mul_block x b = Ok xb /\
    f4_mul a b = Ok ab /\ f4_mul_block xa b = Ok xab /\
    f4_mul_block (f4_plus x y) a = Ok (f4_plus xa ya) /\
    f4_mul_block x (f4_plus a b) = Ok (f4_plus xa xb) /\
    f4_mul_block x ab = Ok xab.
Proof. exact f4_block_laws. Qed.
Print Assumptions C44_block_laws.

Example C44_ex : f4_mul_block 0x1B1B000000000000E4000000000000C3 2 = Ok 0x2D2D0000000000007800000000000041%N /\
  f4_mul 2 3 = Ok 1%N /\ f4_mul 2 2 = Ok 3%N.
Proof. repeat split; vm_compute; reflexivity. Qed.

(* ---- C47 ---- *)
(* any 128 x (8*gcols) generator matrix, any input: single encode and batched encode are the
   product; the tables are built without error *)
(* Missing: matrices of 121 to 127 rows, which are accepted and read out of bounds (C47_short_matrix_refuted). *)
Theorem C47_encode_partial : forall gcols G, length G = 128 -> 1 <= gcols <= 16 ->
  exists T, f2_init gcols G = Ok (16, T) /\
    (forall x, f2_encode T x = Ok (f2_mul G x)) /\
    (forall n xs, length xs = n -> n mod 8 = 0 -> f2_encodeN n 16 T xs = Ok (map (f2_mul G) xs)).
Proof.
  exact (fun gcols G HG Hc =>
    match f2_init_ok HG Hc with
    | ex_intro _ T (conj HI _) => ex_intro _ T (conj HI (conj
        (fun x => f2_encode_correct x HG Hc HI)
        (fun n xs HL H8 => f2_encodeN_correct HG Hc HI HL H8)))
    end).
Qed.
Print Assumptions C47_encode_partial.

(* the product is bitwise the sum over GF(2), hence linear *)
Theorem C47_product_bits : forall G x c,
  N.testbit (f2_mul G x) c =
  fold_right xorb false (map (fun r => N.testbit x (N.of_nat r) && N.testbit (nth r G 0%N) c) (seq 0 (length G))).
Proof. exact f2_mul_bits. Qed.
Print Assumptions C47_product_bits.

Theorem C47_linear : forall G x y, f2_mul G (N.lxor x y) = N.lxor (f2_mul G x) (f2_mul G y).
Proof. exact f2_mul_linear. Qed.
Print Assumptions C47_linear.

(* finding: init accepts (by its byte-size check) matrices of 121..127 rows, but the table
   construction then reads past the end of the matrix *)
Theorem C47_short_matrix_refuted : exists gcols G, (length G + 7) / 8 = 16 /\ (gcols + 15) / 16 = 1 /\
  f2_init gcols G = UB.
Proof. exact f2_init_short. Qed.
Print Assumptions C47_short_matrix_refuted.

Definition ex_G : list N := map (fun r => (N.of_nat r * 0x9E3779B97F4A7C15F39CC0605CEDC835 mod 2 ^ 128)%N) (seq 1 128).
Definition ex_G_check {A} (r : outcome (A * list N)) (x : N) : Prop :=
  match r with
  | Ok (_, T) => f2_encode T x = Ok (f2_mul ex_G x) /\ f2_mul ex_G x <> 0%N
  | _ => False end.
Example C47_ex : length ex_G = 128 /\ ex_G_check (f2_init 16 ex_G) 0x8000000000000000000000000000010F.
Proof. split; [reflexivity|]. vm_compute. split; [reflexivity|discriminate]. Qed.

(* ---- C48 ---- *)
(* In every lane of every column the bit-sliced encoder does what the scalar encoder does,
   for every batch size. *)
Theorem C48_bitsliced : forall k n perms batch len msb lsb om ol,
  n < k -> perms <> [] /\ (forall P, In P perms -> is_perm k P) -> 0 < batch ->
  dims msb k len -> dims lsb k len -> dims om n len -> dims ol n len -> all_valid msb lsb ->
  exists io om' ol', f3_encode_span k n perms batch len len len len msb lsb om ol = Ok (io, (om', ol')) /\
    dims om' n len /\ dims ol' n len /\
    forall c i, c < len -> exists x' y, f3_encode k n perms (lane_col msb lsb c i) n = Ok (x', y) /\
      length y = n /\
      forall r, r < n -> tvalid (cell om' r c) (cell ol' r c) i /\ trit (cell om' r c) (cell ol' r c) i = nth r y 0.
Proof. exact f3_encode_span_correct. Qed.
Print Assumptions C48_bitsliced.

(* The scalar encoder is the product with the matrix of getMatrix, mod 3. *)
Theorem C48_matrix : forall k n perms,
  n < k -> perms <> [] /\ (forall P, In P perms -> is_perm k P) ->
  exists M, f3_getMatrix k n perms = Ok M /\ dims M n k /\
   forall x, length x = k -> (forall v, In v x -> v < 3) ->
     exists x', f3_encode k n perms x n = Ok (x', matvec3 M x).
Proof. exact f3_matrix_correct. Qed.
Print Assumptions C48_matrix.

Theorem C48_linear : forall k n perms x y,
  n < k -> perms <> [] /\ (forall P, In P perms -> is_perm k P) ->
  length x = k -> length y = k -> (forall v, In v x -> v < 3) -> (forall v, In v y -> v < 3) ->
  exists x' y' z' ox oy, f3_encode k n perms x n = Ok (x', ox) /\ f3_encode k n perms y n = Ok (y', oy) /\
    f3_encode k n perms (map2 (fun u v => (u + v) mod 3) x y) n = Ok (z', map2 (fun u v => (u + v) mod 3) ox oy).
Proof. exact f3_linear. Qed.
Print Assumptions C48_linear.

(* what is encoded: one accumulation, then one accumulation along each permutation except
   the last, then the first n of the last permutation *)
Theorem C48_accumulate : forall k n P x, n < k -> is_perm k P -> length x = k -> (forall v, In v x -> v < 3) ->
  exists x', f3_encode k n [P] x n = Ok (x', map (fun p => list_sum (firstn (S p) x) mod 3) (firstn n P)).
Proof. exact f3_encode_one. Qed.
Print Assumptions C48_accumulate.

Example C48_ex :
  let P1 := [2; 0; 3; 1] in let P2 := [1; 3; 0; 2] in
  is_perm 4 P1 /\ is_perm 4 P2 /\
  f3_encode 4 2 [P1; P2] [1; 2; 2; 0] 2 = Ok ([0; 2; 2; 2], [2; 2]) /\
  f3_getMatrix 4 2 [P1; P2] = Ok [[1; 0; 2; 1]; [0; 2; 2; 1]] /\
  f3_encode_span 4 2 [P1; P2] 2 3 3 3 3
    [[0;1;2];[1;0;0];[1;0;4];[0;0;8]]%N [[1;2;1];[0;1;2];[0;4;3];[0;1;1]]%N
    [[0;0;0];[0;0;0]]%N [[0;0;0];[0;0;0]]%N =
  Ok ([[0;3;4];[1;4;8];[1;0;5];[1;4;8]], [[0;4;0];[0;2;7];[0;6;2];[0;0;6]],
      ([[1;4;8];[1;4;8]], [[0;2;7];[0;0;6]]))%N.
Proof.
  split; [apply (perm_validate_iff [2; 0; 3; 1]); reflexivity|].
  split; [apply (perm_validate_iff [1; 3; 0; 2]); reflexivity|]. vm_compute. auto.
Qed.
