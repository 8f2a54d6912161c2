(* Model of secure-join/CorGenerator/F4Vole/F4CoeffCtx.h: F4 (8-22), plus/minus (33-41), mul
   on packed blocks (43-81), mul on F4 (83-121), mulConst (123-133).  A failing assert
   (134: rhs.mVal >= 4) is UB.  A block is an N below 2^128. *)
From Verif Require Import Base Words.

(* F4::operator^, F4CoeffCtx.h:12-15, and plus/minus on blocks, 33-41 *)
Definition f4_plus (x y : N) : N := N.lxor x y.

(* block >> 1 and block << 1 of cryptoTools shift the two 64-bit halves separately
   (_mm_srli_epi64 / _mm_slli_epi64); library code, by its documentation *)
Definition lo64 (x : N) : N := N.land x (N.ones 64).
(* the two 64-bit halves of a block, F4CoeffCtx.h:43-121 *)
Definition hi64 (x : N) : N := N.land (N.shiftr x 64) (N.ones 64).
(* the two 64-bit halves of a block, F4CoeffCtx.h:43-121 *)
Definition join64 (lo hi : N) : N := N.lor lo (N.shiftl hi 64).
(* the two 64-bit halves of a block, F4CoeffCtx.h:43-121 *)
Definition shr1_64 (x : N) : N := join64 (N.shiftr (lo64 x) 1) (N.shiftr (hi64 x) 1).
(* the two 64-bit halves of a block, F4CoeffCtx.h:43-121 *)
Definition shl1_64 (x : N) : N :=
  join64 (N.land (N.shiftl (lo64 x) 1) (N.ones 64)) (N.land (N.shiftl (hi64 x) 1) (N.ones 64)).

(* block::allSame<u8>(0b01010101), F4CoeffCtx.h:57 *)
Definition mask5555 : N := 0x55555555555555555555555555555555.

(* mul(F& ret, const F& lhs, const G& rhs), F4CoeffCtx.h:43-81 *)
Definition f4_mul_block (lhs : N) (rhs : N) : outcome N :=
  let lsb := N.land lhs mask5555 in
  let msb := N.land (shr1_64 lhs) mask5555 in
  match rhs with
  | 0 => Ok 0
  | 1 => Ok lhs
  | 2 => Ok (N.lor msb (shl1_64 (N.lxor lsb msb)))
  | 3 => Ok (N.lor (N.lxor lsb msb) (shl1_64 lsb))
  | _ => UB
  end%N.

(* mul(G& ret, const G& lhs, const G& rhs), F4CoeffCtx.h:83-121 *)
Definition f4_mul (lhs rhs : N) : outcome N :=
  let lsb := N.land lhs 1 in
  let msb := N.land (N.shiftr lhs 1) 1 in
  match rhs with
  | 0 => Ok 0
  | 1 => Ok lhs
  | 2 => Ok (N.lor msb (N.shiftl (N.lxor lsb msb) 1))
  | 3 => Ok (N.lor (N.lxor lsb msb) (N.shiftl lsb 1))
  | _ => UB
  end%N.

(* mulConst, F4CoeffCtx.h:123-133 *)
Definition f4_mulConst_block (x : N) : outcome N := f4_mul_block x 3.
(* mulConst for F4, F4CoeffCtx.h:123-133 *)
Definition f4_mulConst (x : N) : outcome N := f4_mul x 3.

(* fromBlock, F4CoeffCtx.h:163-181, for F = block (block(hi, lo) with lo = ~0 << 2) and G = F4 *)
Definition f4_fromBlock_F (b : N) : N :=
  N.land b (join64 (N.ldiff (N.ones 64) 3) (N.ones 64)).
(* fromBlock for G = F4, F4CoeffCtx.h:163-181 *)
Definition f4_fromBlock_G (b : N) : N := N.land (N.land b 255) 3.
