(* Model of the helpers of secure-join/Defines.h: divCeil, getSign, fillInplace and signExtend.
   A u64 is an N below 2^64, an i64 a Z (all operations used are exact on the infinite two's
   complement representation that Z's bit operations see), a span of u8 a list of N. *)
From Verif Require Import Base.

(* divCeil, Defines.h:35-38: u64 arithmetic, so the sum wraps *)
Definition d_div_ceil (x y : N) : outcome N :=
  if (y =? 0)%N then UB else Ok ((((x + y) mod 2 ^ 64 + 2 ^ 64 - 1) mod 2 ^ 64) / y)%N.

(* getSign, Defines.h:40-45 *)
Definition get_sign (val : list N) (index : nat) : outcome bool :=
  do x <- get val (index / 8);
  Ok (N.odd (N.shiftr x (N.of_nat (index mod 8)))).

(* fillInplace, Defines.h:47-66: mask keeps the low 8 bits of ~0 << (o+1); bit * -1 stored in a
   u8 is 255 *)
Definition fill_inplace (val : list N) (index : nat) (bit : bool) : outcome (list N) :=
  let i := index / 8 in
  let o := index mod 8 in
  do st <- (if o =? 0 then Ok (i, val) else
    let mask := N.ldiff 255 (N.ones (N.of_nat (o + 1))) in
    do x <- get val i;
    do v <- set val i (if bit then N.lor x mask else N.ldiff x mask);
    Ok (i + 1, v));
  forN (fst st) (length val - fst st) (fun i v => set v i (if bit then 255 else 0)%N) (snd st).

(* signExtend, Defines.h:71-82: a shift by 64 or more is undefined *)
Definition sign_extend (val : Z) (bit : nat) : outcome Z :=
  if 64 <=? bit then UB else
  let sign := negb (Z.land val (Z.shiftl 1 (Z.of_nat bit)) =? 0)%Z in
  if 64 <=? bit + 1 then UB else
  let mask := Z.shiftl (Z.lnot 0) (Z.of_nat (bit + 1)) in
  Ok (if sign then Z.lor val mask else Z.land val (Z.lnot mask)).
