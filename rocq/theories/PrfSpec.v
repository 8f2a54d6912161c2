(* Specification of the alternating moduli PRF on one input:
     e = (x, G0 x, G1 x, G2 x) over GF(2), u = A (e . k) mod 3, v = u mod 2, w = (I | B) v.  *)
From Verif Require Import Base Words PermSpec F2CodeSpec F3CodeSpec ConvSpec KeyMultModel KeyMultSpec PrfModel.

(* the 128 * (1 + |G|) bits of e *)
Definition e_bit (G : list (list N)) (x : N) (r : nat) : bool :=
  match r / 128 with
  | 0 => N.testbit x (N.of_nat r)
  | S q => N.testbit (f2_mul (nth q G []) x) (N.of_nat (r mod 128))
  end.
Definition ek_vec (G : list (list N)) (key : list bool) (x : N) : list nat :=
  map (fun r => b2n (e_bit G x r && nth r key false)) (seq 0 512).

Definition v_bit (M : list (list nat)) (ek : list nat) (r : nat) : bool := Nat.odd (nth r (matvec3 M ek) 0).

(* bit c of the result: v_c + sum_r B[c][r] v_{128+r} *)
Definition w_bit (B : list N) (v : nat -> bool) (c : nat) : bool :=
  xorb (v c) (fold_right xorb false
    (map (fun r => N.testbit (nth c B 0%N) (N.of_nat r) && v (128 + r)) (seq 0 128))).

(* y is the PRF output for key and x *)
Definition is_prf (G : list (list N)) (M : list (list nat)) (B : list N) (key : list bool) (x y : N) : Prop :=
  forall c, N.testbit y c =
    if (c <? 128)%N then w_bit B (v_bit M (ek_vec G key x)) (N.to_nat c) else false.

(* the public matrices: three 128x128 code matrices, B, and a non-empty list of permutations *)
Definition params_ok (G : list (list N)) (A : list (list nat)) : Prop :=
  length G = 3 /\ (forall g, In g G -> length g = 128) /\ A <> [] /\ (forall P, In P A -> is_perm 512 P).

(* the mod 2 correlation is good and has exactly the size evaluate asks for; OLE segments
   hold an even number of blocks *)
Definition cor_ok (c : mod2_cor) (n : nat) : Prop :=
  match c with
  | CorF4 ss rs => segs_rel f4_ot ss rs /\ total rs = blocks128 n * MidSize
  | CorOle ss rs => segs_rel bin_ole ss rs /\ total rs = blocks128 n * MidSize * 2 /\
                    Forall (fun s => Nat.even (length s) = true) rs
  end.

(* the XOR of an optional key share and a key *)
Definition joint_key (share : option (list bool)) (key : list bool) : list bool :=
  map (fun i => xorb (share_bit share i) (nth i key false)) (seq 0 512).

(* the two parties' keys match: each party's key in the key multiplication is its share, and the
   OTs of the two multiplications correspond *)
Definition keys_ok (ks kr : pkeys) : Prop :=
  pkShare ks = Some (pkKey ks) /\ pkShare kr = Some (pkKey kr) /\
  ots_ok (pkSend kr) (pkRecv ks) (pkKey ks) /\ ots_ok (pkSend ks) (pkRecv kr) (pkKey kr).
