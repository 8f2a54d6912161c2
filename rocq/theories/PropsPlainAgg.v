(* C55: the plaintext aggregation tree, the reference of the tests of AggTree. *)
From Verif Require Import Base GmwModel ShuffleModel ShuffleSpec AggModel AggSpec TableModel TableSpec PlainAggModel AggProofs PlainAggProofs PlainShareProofs.

(* For an associative operator and two rows or more of which the first starts a block, init neither
   throws nor leaves its arrays, and mPre, mSuf and mFull are the segmented scans of the input. *)
Theorem C55_scans V (op : V -> V -> V) zero eqb s c : assoc_op op -> (forall x, eqb x x = true) ->
  2 <= length s -> length s = length c -> nth_error c 0 = Some false ->
  pt_init op zero eqb s c = Ok (
    map (fun i => agg_range op zero s (blk_start c i) (i + 1)) (seq 0 (length s)),
    map (fun i => agg_range op zero s i (blk_end c i)) (seq 0 (length s)),
    map (fun i => agg_range op zero s (blk_start c i) (blk_end c i)) (seq 0 (length s))).
Proof. intros H1 H2. apply init_ok; assumption. Qed.
Print Assumptions C55_scans.

(* An associative operator that does not commute, and addition. *)
Example C55_scans_ex :
  let op := fun _ y : nat => y in
  assoc_op op /\
  pt_init op 0 Nat.eqb [7; 8; 9; 4; 5] [false; true; false; true; true]
  = Ok ([7; 8; 9; 4; 5], [8; 8; 5; 5; 5], [8; 8; 5; 5; 5]) /\
  pt_init Nat.add 0 Nat.eqb [7; 8; 9; 4; 5] [false; true; false; true; true]
  = Ok ([7; 15; 9; 13; 18], [15; 8; 18; 9; 5], [15; 15; 18; 18; 18]).
Proof. split; [intros a b c; reflexivity|]. split; vm_compute; reflexivity. Qed.

(* A tree that is not complete: 33 rows, 48 leaves, the rows from 32 on are leaves of level 1. *)
Example C55_incomplete_ex :
  let s := seq 1 33 in let c := map (fun i => negb (i mod 11 =? 0)) (seq 0 33) in
  option_map (fun r => (nth 32 (fst (fst r)) 0, nth 0 (snd (fst r)) 0, nth 20 (snd r) 0))
    (match pt_init Nat.add 0 Nat.eqb s c with Ok r => Some r | _ => None end) = Some (308, 66, 187).
Proof. vm_compute. reflexivity. Qed.

(* It therefore agrees with the tree that is run on shares. *)
Theorem C55_agrees V (op : V -> V -> V) zero eqb s c : assoc_op op -> (forall x, eqb x x = true) ->
  2 <= length s -> length s = length c -> nth_error c 0 = Some false ->
  exists pre suf full, pt_init op zero eqb s c = Ok (pre, suf, full) /\
    agg_apply Prefix op zero s c = Ok pre /\ agg_apply Suffix op zero s c = Ok suf /\ agg_apply Full op zero s c = Ok full.
Proof.
  intros H1 H2 H3 H4 H5. do 3 eexists. split; [apply init_ok; assumption|].
  split; [apply agg_prefix_ok; assumption|]. split; [apply agg_suffix_ok; assumption|apply agg_full_ok; assumption].
Qed.
Print Assumptions C55_agrees.

Example C55_agrees_ex :
  agg_apply Full Nat.add 0 [7; 8; 9; 4; 5] [false; true; false; true; true] = Ok [15; 15; 18; 18; 18].
Proof. vm_compute. reflexivity. Qed.

(* The first control bit set: leaves reads expPre[-1], where the tree on shares has no such read. *)
Theorem C55_first_bit_refuted V (op : V -> V -> V) zero eqb s c : assoc_op op ->
  2 <= length s -> length s = length c -> nth_error c 0 = Some true ->
  pt_init op zero eqb s c = UB.
Proof. intros H1. apply init_ub; assumption. Qed.
Print Assumptions C55_first_bit_refuted.

Example C55_first_bit_refuted_ex :
  pt_init Nat.add 0 Nat.eqb [7; 8; 9] [true; true; false] = UB /\
  agg_apply Suffix Nat.add 0 [7; 8; 9] [true; true; false] = Ok [15; 8; 9].
Proof. split; vm_compute; reflexivity. Qed.

(* Associativity is needed: for subtraction the check of leaves fails. *)
Example C55_assoc_needed : pt_init Z.sub 0%Z Z.eqb [1; 1; 1; 1; 1]%Z [false; true; true; true; true] = Throw.
Proof. vm_compute. reflexivity. Qed.

(* Without rows s[0] is read; one row makes a tree of one level, whose size vector has one element. *)
Theorem C55_small_refuted V (op : V -> V -> V) zero eqb x c :
  pt_init op zero eqb [] c = UB /\ pt_init op zero eqb [x] c = UB.
Proof. split; reflexivity. Qed.
Print Assumptions C55_small_refuted.

(* share: the two shares have the dimensions of the data and add up to it, and the first is the
   bytes of the generator with the bits from bits on cleared. *)
Theorem C55_share bits n d rnd : rows_ok n (div_ceil bits 8) d -> rows_ok n (div_ceil bits 8) rnd ->
  exists x0 x1, pt_share bits d rnd = Ok (BM bits (div_ceil bits 8) x0, BM bits (div_ceil bits 8) x1) /\
    rows_ok n (div_ceil bits 8) x0 /\ Forall2 (trim_rel bits) rnd x0 /\ map2 (map2 N.lxor) x0 x1 = d.
Proof.
  intros Hd Hr. destruct (share_ok Hd Hr) as [x0 [HF [Hx E]]]. exists x0, (map2 xrow d x0).
  split; [exact E|]. split; [exact Hx|]. split; [exact HF|]. exact (xrows_inv Hd Hx).
Qed.
Print Assumptions C55_share.

Example C55_share_ex :
  pt_share 12 [[0xab; 0x0c]; [1; 2]]%N [[0xff; 0xff]; [0x10; 0x31]]%N
  = Ok (BM 12 2 [[0xff; 0x0f]; [0x10; 0x01]]%N, BM 12 2 [[0x54; 0x03]; [0x11; 0x03]]%N).
Proof. vm_compute. reflexivity. Qed.

(* The second share says nothing of the data: whatever the data (with no bit set from bits on), each
   value y of that share comes from exactly one choice of the random bits. *)
Theorem C55_share_hides bits n d y : let c := div_ceil bits 8 in
  rows_ok n c d -> rows_ok n c y -> Forall (trimmed bits) d -> Forall (trimmed bits) y ->
  exists rnd, rows_ok n c rnd /\ Forall (trimmed bits) rnd /\ (exists x0, pt_share bits d rnd = Ok (x0, BM bits c y)) /\
    forall rnd' x0', rows_ok n c rnd' -> Forall (trimmed bits) rnd' -> pt_share bits d rnd' = Ok (x0', BM bits c y) -> rnd' = rnd.
Proof. apply share_hides. Qed.
Print Assumptions C55_share_hides.

(* Data with a bit set from bits on shows that bit in the second share whatever the generator says. *)
Theorem C55_share_untrimmed_refuted : forall r, (r < 256)%N ->
  exists x0 a, pt_share 4 [[0x83]]%N [[r]] = Ok (x0, BM 4 1 [[a]]%N) /\ N.testbit a 7 = true.
Proof.
  intros r Hr. destruct (@share_ok 4 1 [[0x83]]%N [[r]]) as [x0 [HF [Hx E]]].
  - split; [reflexivity|]. repeat constructor.
  - split; [reflexivity|]. constructor; [|constructor]. split; [reflexivity|]. constructor; [exact Hr|constructor].
  - inversion HF as [|u v l l' Huv HF' E1 E2]. subst. inversion HF'. subst.
    destruct Huv as [L [B Hs]]. destruct v as [|b [|? ?]]; cbn in L; try discriminate L.
    eexists. eexists. split; [exact E|]. rewrite N.lxor_spec.
    specialize (Hs 7). unfold sbit in Hs. change (7 / 8) with 0 in Hs. change (N.of_nat (7 mod 8)) with 7%N in Hs. cbn [nth Nat.ltb Nat.leb andb] in Hs.
    rewrite Hs. reflexivity.
Qed.
Print Assumptions C55_share_untrimmed_refuted.

Example C55_share_hides_ex :
  pt_share 12 [[0xab; 0x0c]]%N [[0xb9; 0x08]]%N = Ok (BM 12 2 [[0xb9; 0x08]]%N, BM 12 2 [[0x12; 0x04]]%N) /\
  pt_share 12 [[0; 1]]%N [[0x12; 0x05]]%N = Ok (BM 12 2 [[0x12; 0x05]]%N, BM 12 2 [[0x12; 0x04]]%N).
Proof. split; vm_compute; reflexivity. Qed.
