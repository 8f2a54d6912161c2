(* C56: the integer helpers of Defines.h. *)
From Verif Require Import Base Words ShuffleModel ShuffleSpec TrimProofs DefinesModel DefinesProofs.

(* divCeil is the least q with q*y >= x, as long as the sum x+y does not wrap; dividing by 0 is UB. *)
Theorem C56_div_ceil x y : (0 < y)%N -> (x + y <= 2 ^ 64)%N ->
  exists q, d_div_ceil x y = Ok q /\ (x <= q * y)%N /\ (q * y < x + y)%N.
Proof. apply d_div_ceil_ok. Qed.
Theorem C56_div_ceil_zero x : d_div_ceil x 0 = UB.
Proof. reflexivity. Qed.
(* The sum wraps for large x: the quotient is then far too small. *)
Theorem C56_div_ceil_refuted : exists x y q, (x < 2 ^ 64)%N /\ (0 < y < 2 ^ 64)%N /\ d_div_ceil x y = Ok q /\ (q * y < x)%N.
Proof. exists (2 ^ 64 - 1)%N, 8%N, 0%N. repeat split; vm_compute; reflexivity. Qed.
Print Assumptions C56_div_ceil.
Print Assumptions C56_div_ceil_zero.
Print Assumptions C56_div_ceil_refuted.
Example C56_div_ceil_ex : d_div_ceil 17 8 = Ok 3%N /\ d_div_ceil 16 8 = Ok 2%N /\ d_div_ceil 0 8 = Ok 0%N /\ d_div_ceil (2 ^ 64 - 8) 8 = Ok (2 ^ 61 - 1)%N.
Proof. repeat split; vm_compute; reflexivity. Qed.

(* getSign reads one bit of the array, and nothing outside of it. *)
Theorem C56_sign val k : k < 8 * length val -> get_sign val k = Ok (sbit val k).
Proof. apply get_sign_ok. Qed.
Theorem C56_sign_ub val k : 8 * length val <= k -> get_sign val k = UB.
Proof.
  intros H. unfold get_sign, get. rewrite (proj2 (nth_error_None _ _)); [reflexivity|]. apply Nat.div_le_lower_bound; lia.
Qed.
Print Assumptions C56_sign.
Print Assumptions C56_sign_ub.

(* Sign extension: filling with the bit at the index keeps the bits up to it and copies it to all above. *)
Theorem C56_fill_sign val k b : k < 8 * length val -> bytes val -> get_sign val k = Ok b ->
  exists v, fill_inplace val k b = Ok v /\ length v = length val /\ bytes v /\
    forall j, j < 8 * length val -> sbit v j = sbit val (Nat.min j k).
Proof.
  intros Hk Bv Hb. rewrite (get_sign_ok Hk) in Hb. injection Hb as <-.
  destruct (fill_ok (sbit val k) Hk Bv) as (v & E & L & B & H). exists v. repeat split; try assumption.
  intros j Hj. rewrite (H j Hj). unfold fill_from. destruct (k mod 8 =? 0).
  - destruct (Nat.ltb_spec j k); [rewrite Nat.min_l by lia|rewrite Nat.min_r by lia]; reflexivity.
  - destruct (Nat.ltb_spec j (k + 1)); [|rewrite Nat.min_r by lia; reflexivity].
    rewrite Nat.min_l by lia. reflexivity.
Qed.
(* Filling with any bit: the bits above the index are set, those below kept. *)
Theorem C56_fill val k b : k < 8 * length val -> bytes val ->
  exists v, fill_inplace val k b = Ok v /\ length v = length val /\ bytes v /\
    (forall j, j < k -> sbit v j = sbit val j) /\ (forall j, k < j < 8 * length val -> sbit v j = b).
Proof.
  intros Hk Bv. destruct (fill_ok b Hk Bv) as (v & E & L & B & H). exists v. repeat split; try assumption.
  - intros j Hj. rewrite (H j) by lia. unfold fill_from. destruct (k mod 8 =? 0); [rewrite (proj2 (Nat.ltb_lt _ _)) by lia|rewrite (proj2 (Nat.ltb_lt _ _)) by lia]; reflexivity.
  - intros j Hj. rewrite (H j) by lia. unfold fill_from. destruct (k mod 8 =? 0); rewrite (proj2 (Nat.ltb_ge _ _)) by lia; reflexivity.
Qed.
(* The bit at the index itself is kept, except when the index starts a byte: there it is overwritten. *)
Theorem C56_fill_index val k b v : k < 8 * length val -> bytes val -> fill_inplace val k b = Ok v ->
  sbit v k = if k mod 8 =? 0 then b else sbit val k.
Proof.
  intros Hk Bv E. destruct (fill_ok b Hk Bv) as (v' & E' & _ & _ & H). assert (v' = v) as <- by congruence. rewrite (H k Hk). unfold fill_from.
  destruct (k mod 8 =? 0); [rewrite Nat.ltb_irrefl; reflexivity|]. rewrite (proj2 (Nat.ltb_lt _ _)) by lia. reflexivity.
Qed.
(* An index behind the array is UB inside a byte and ignored at the start of one. *)
Theorem C56_fill_outside val k b : 8 * length val <= k -> fill_inplace val k b = if k mod 8 =? 0 then Ok val else UB.
Proof.
  intros H. destruct (Nat.eqb_spec (k mod 8) 0) as [E|E]; [|exact (fill_ub b E H)].
  unfold fill_inplace. cbv zeta. rewrite E. cbn [Nat.eqb bind fst snd].
  assert (L : length val <= k / 8) by (apply Nat.div_le_lower_bound; lia). replace (length val - k / 8) with 0 by lia. reflexivity.
Qed.
Print Assumptions C56_fill_sign.
Print Assumptions C56_fill.
Print Assumptions C56_fill_index.
Print Assumptions C56_fill_outside.
Example C56_fill_ex :
  get_sign [16; 33; 7]%N 13 = Ok true /\ fill_inplace [16; 33; 7]%N 13 true = Ok [16; 225; 255]%N /\
  get_sign [16; 33; 7]%N 4 = Ok true /\ fill_inplace [16; 33; 7]%N 4 true = Ok [240; 255; 255]%N /\
  get_sign [16; 33; 7]%N 12 = Ok false /\ fill_inplace [16; 33; 7]%N 12 false = Ok [16; 1; 0]%N /\
  fill_inplace [16; 33; 7]%N 8 false = Ok [16; 0; 0]%N /\ fill_inplace [16; 33; 7]%N 25 true = UB /\ get_sign [16; 33; 7]%N 24 = UB.
Proof. repeat split; vm_compute; reflexivity. Qed.

(* signExtend below bit 63: the representative of val modulo 2^(bit+1) in [-2^bit, 2^bit). *)
Theorem C56_sign_extend v b : b < 63 ->
  exists r, sign_extend v b = Ok r /\ (- 2 ^ Z.of_nat b <= r < 2 ^ Z.of_nat b)%Z /\ (r mod 2 ^ (Z.of_nat b + 1) = v mod 2 ^ (Z.of_nat b + 1))%Z.
Proof. apply sign_extend_ok. Qed.
Theorem C56_sign_extend_id v b : b < 63 -> (- 2 ^ Z.of_nat b <= v < 2 ^ Z.of_nat b)%Z -> sign_extend v b = Ok v.
Proof.
  intros Hb Hv. destruct (sign_extend_ok v Hb) as (r & E & _). rewrite E. f_equal. exact (sign_extend_id Hb E Hv).
Qed.
(* Extending from bit 63 should be the identity; the mask shifts by 64, which is UB. *)
Theorem C56_sign_extend_refuted v b : 63 <= b -> sign_extend v b = UB.
Proof.
  intros Hb. unfold sign_extend. destruct (Nat.leb_spec 64 b); [reflexivity|]. destruct (Nat.leb_spec 64 (b + 1)); [reflexivity|lia].
Qed.
Print Assumptions C56_sign_extend.
Print Assumptions C56_sign_extend_id.
Print Assumptions C56_sign_extend_refuted.
Example C56_sign_extend_ex : sign_extend 13 3 = Ok (-3)%Z /\ sign_extend 5 3 = Ok 5%Z /\ sign_extend (-7) 3 = Ok (-7)%Z /\
  sign_extend (2 ^ 62) 62 = Ok (- 2 ^ 62)%Z /\ sign_extend 7 63 = UB.
Proof. repeat split; vm_compute; reflexivity. Qed.
