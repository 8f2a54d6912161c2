(* Property C57: the inputs and outputs of Gmw. *)
From Verif Require Import Base ConvModel ShuffleModel ShuffleSpec GmwModel GmwSpec GmwProofs PrfModel CircuitProofs GmwIoModel GmwIoSpec GmwIoProofs GmwEndProofs PropsGmw.

(* C57: both parties set every input (a matrix, a mapped transposed matrix or zero), map some
   outputs, and run.  Then getOutput gives, for every output, every row and every bit, shares of
   the circuit's value on the xor of what was given; a mapped matrix holds the same shares.  What
   uninitialised memory held (junk, also in wires nobody reads) and what transpose leaves in the
   padding (pad) does not matter. *)
Theorem C57_end_to_end n wires ins outs lvs junk0 junk1 junk0' junk1' pad0 pad1 xs0 xs1 ys0 ys1 s0 s1 :
  0 < n -> io_ok wires ins outs -> Forall (level_ok wires) lvs -> concat (map fst lvs) <> [] ->
  length xs0 = length ins -> length xs1 = length ins ->
  (forall i b x, nth_error ins i = Some b -> nth_error xs0 i = Some x -> given_ok n (length b) x) ->
  (forall i b x, nth_error ins i = Some b -> nth_error xs1 i = Some x -> given_ok n (length b) x) ->
  take_ok n outs ys0 -> take_ok n outs ys1 ->
  well_def (concat ins) (concat ins) (concat (map fst lvs)) ->
  (forall v, In v (concat outs) -> exists h, In h (concat (map fst lvs)) /\ gOut h = v) ->
  ole_segs s0 s1 -> even_segs s0 -> demand ((n + 127) / 128) lvs <= length (concat s0) ->
  exists g0 g1 ids0 ids1 h0 h1,
    prepare junk0 pad0 xs0 ys0 (gmw_init n wires ins outs) = Ok (g0, ids0) /\
    prepare junk1 pad1 xs1 ys1 (gmw_init n wires ins outs) = Ok (g1, ids1) /\
    gmw_exec lvs junk0' junk1' s0 s1 g0 g1 = Ok (h0, h1) /\
    forall i b al cols jk0 jk1 pd0 pd1, nth_error outs i = Some b -> 0 < al -> (length b + al * 8 - 1) / (al * 8) = cols / al ->
      exists o0 o1, get_output jk0 pd0 i al n cols h0 = Ok (h0, o0) /\ get_output jk1 pd1 i al n cols h1 = Ok (h1, o1) /\
        length o0 = n /\ length o1 = n /\ Forall (fun l => length l = cols) o0 /\ Forall (fun l => length l = cols) o1 /\
        (forall r j v e, r < n -> nth_error b j = Some v ->
          (forall i' b' x y j' v', nth_error ins i' = Some b' -> nth_error xs0 i' = Some x -> nth_error xs1 i' = Some y -> nth_error b' j' = Some v' ->
             e v' = xorb (given_bit x r j') (given_bit y r j')) ->
          xorb (sbit (nth r o0 []) j) (sbit (nth r o1 []) j) = eval (concat (map fst lvs)) e v) /\
        (forall q, nth_error ids0 i = Some (Some q) -> exists rg, nth_error (gHeap h0) q = Some rg /\
          forall r j, r < n -> j < length b -> lane (rgRows rg) r j = sbit (nth r o0 []) j) /\
        (forall q, nth_error ids1 i = Some (Some q) -> exists rg, nth_error (gHeap h1) q = Some rg /\
          forall r j, r < n -> j < length b -> lane (rgRows rg) r j = sbit (nth r o1 []) j).
Proof.
  intros Hn HIO HL Hne L0 L1 X0 X1 T0 T1 HW HO HS He Hd.
  assert (ED : div_ceil n 128 = (n + 127) / 128) by (unfold div_ceil; f_equal; lia). rewrite <- ED in Hd.
  exact (@end_to_end n wires ins outs lvs Hn HIO HL Hne junk0 junk1 junk0' junk1' pad0 pad1 xs0 xs1 ys0 ys1 s0 s1 L0 L1 X0 X1 T0 T1 HW HO HS He Hd).
Qed.
Print Assumptions C57_end_to_end.

(* (a & b) | c and (a & b) ^ c for three rows; the parties give input 0 as rows and as a mapped
   matrix, input 1 is given by the second party only *)
Definition io_ins : list (list nat) := [[0; 1]; [2]].
Definition io_outs : list (list nat) := [[4; 5]].
Definition io_lvs : list level := [([Gate 0 1 GAnd 3], 1); ([Gate 3 2 GOr 4; Gate 3 2 GXor 5], 1)].
Definition io_x0 : list given := [GRows 1 1 [[1]; [2]; [3]]%N; GZero].
Definition io_x1 : list given := [GMap (TMat 16 3 [[2]; [5]]%N); GRows 2 2 [[1; 0]; [0; 0]; [1; 0]]%N].
Definition io_y0 : list (option tmat) := [Some (TMat 16 3 [[7]; [7]]%N)].
Definition io_y1 : list (option tmat) := [None].
Definition io_junk : nat -> nat -> nat -> N := fun r i j => N.of_nat (7 * r + 3 * i + j).
Definition io_pad : nat -> nat -> nat -> bool := fun i j k => Nat.odd (i + k).
Lemma io_hyps : io_ok 6 io_ins io_outs /\ Forall (level_ok 6) io_lvs /\ well_def (concat io_ins) (concat io_ins) (concat (map fst io_lvs)) /\
  (forall v, In v (concat io_outs) -> exists h, In h (concat (map fst io_lvs)) /\ gOut h = v) /\
  ole_segs ex_s0 ex_s1 /\ even_segs ex_s0 /\ demand 1 io_lvs <= length (concat ex_s0) /\
  (forall i b x, nth_error io_ins i = Some b -> nth_error io_x0 i = Some x -> given_ok 3 (length b) x) /\
  (forall i b x, nth_error io_ins i = Some b -> nth_error io_x1 i = Some x -> given_ok 3 (length b) x) /\
  take_ok 3 io_outs io_y0 /\ take_ok 3 io_outs io_y1.
Proof.
  split; [|split; [apply level_okb_ok; reflexivity|split; [|split; [|split; [repeat constructor|split; [repeat constructor|split; [cbn; lia|split; [|split; [|split]]]]]]]]].
  - split; [|split; [|split]].
    + repeat constructor; [exists 0|exists 2]; repeat split; cbn; lia.
    + repeat constructor; cbn; intuition lia.
    + repeat constructor. exists 4; repeat split; cbn; lia.
    + cbn. intuition lia.
  - cbn. unfold reads. cbn. intuition (subst; auto; try lia).
  - cbn. intros v [<-|[<-|[]]]; [exists (Gate 3 2 GOr 4)|exists (Gate 3 2 GXor 5)]; (split; [|reflexivity]); auto.
  - intros [|[|i]] b x Hb Hx; cbn in Hb, Hx; [| |destruct i; discriminate]; injection Hb as <-; injection Hx as <-; cbn; auto; repeat split; lia.
  - intros [|[|i]] b x Hb Hx; cbn in Hb, Hx; [| |destruct i; discriminate]; injection Hb as <-; injection Hx as <-; cbn; repeat split; auto; repeat constructor.
  - split; [reflexivity|]. intros [|i] b d Hb Hd; cbn in Hb, Hd; [|destruct i; discriminate]. injection Hb as <-. injection Hd as <-. split; [repeat split; repeat constructor|].
    intros [|i'] b' w Hb'; cbn in Hb'; [reflexivity|destruct i'; discriminate].
  - split; [reflexivity|]. intros [|i] b d Hb Hd; cbn in Hd; [discriminate|destruct i; discriminate].
Qed.
(* rows of a, b, c: 1 1 1, 1 1 0, 1 0 1 *)
Definition io_run : outcome (list (list N) * list (list N) * option (list (list N))) :=
  do p0 <- prepare io_junk io_pad io_x0 io_y0 (gmw_init 3 6 io_ins io_outs);
  do p1 <- prepare io_junk io_pad io_x1 io_y1 (gmw_init 3 6 io_ins io_outs);
  do h <- gmw_exec io_lvs io_junk io_junk ex_s0 ex_s1 (fst p0) (fst p1);
  do o0 <- get_output io_junk (io_pad 0) 0 1 3 1 (fst h);
  do o1 <- get_output io_junk (io_pad 0) 0 1 3 1 (snd h);
  Ok (snd o0, snd o1, match nth 0 (snd p0) None with Some q => option_map rgRows (nth_error (gHeap (fst h)) q) | None => None end).
Example C57_ex :
  match io_run with
  | Ok (o0, o1, Some rows) =>
    map (fun r => (xorb (sbit (nth r o0 []) 0) (sbit (nth r o1 []) 0), xorb (sbit (nth r o0 []) 1) (sbit (nth r o1 []) 1))) [0; 1; 2] =
      [(true, false); (true, true); (true, true)] /\
    map (fun r => (lane rows r 0, lane rows r 1)) [0; 1; 2] = map (fun r => (sbit (nth r o0 []) 0, sbit (nth r o0 []) 1)) [0; 1; 2]
  | _ => False
  end.
Proof. vm_compute. split; reflexivity. Qed.

(* in the state in which run starts every wire has memory of its own *)
Theorem C57_wires_apart n wires ins outs junk junk' pad xs ys : 0 < n -> io_ok wires ins outs ->
  length xs = length ins ->
  (forall i b x, nth_error ins i = Some b -> nth_error xs i = Some x -> given_ok n (length b) x) -> take_ok n outs ys ->
  exists g ids g', prepare junk pad xs ys (gmw_init n wires ins outs) = Ok (g, ids) /\ finalize junk' g = Ok g' /\
    length (gWords g') = wires /\
    (forall v, v < wires -> exists r o rg row, nth_error (gWords g') v = Some (Some (r, o)) /\ nth_error (gHeap g') r = Some rg /\
       nth_error (rgRows rg) o = Some row /\ length row = (n + 127) / 128) /\
    forall v v' p, nth_error (gWords g') v = Some (Some p) -> nth_error (gWords g') v' = Some (Some p) -> v = v'.
Proof.
  intros Hn HIO HL HX HT.
  destruct (@party_ready n wires ins outs Hn HIO junk junk' pad xs ys HL HX HT) as (g & ids & g' & E1 & E2 & I & A & N1 & _ & N3 & _).
  exists g, ids, g'. split; [exact E1|]. split; [exact E2|]. split; [exact N3|]. split.
  - intros v Hv. destruct (A v) as [[r o] Hp]; [lia|]. destruct (inv_ptr I Hp) as (rg & row & P1 & P2 & P3 & _). exists r, o, rg, row. split; [exact Hp|]. split; [exact P1|]. split; [exact P2|].
    rewrite P3. unfold gW, div_ceil. rewrite N1. f_equal. lia.
  - intros v v' p. apply (inv_inj I).
Qed.
Print Assumptions C57_wires_apart.

Example C57_ex_apart :
  match prepare io_junk io_pad io_x0 io_y0 (gmw_init 3 6 io_ins io_outs) with
  | Ok (g, ids) => (gWords g, ids) = ([Some (0, 0); Some (0, 1); Some (1, 0); None; Some (2, 0); Some (2, 1)], [Some 2]) /\
    match finalize io_junk g with Ok g' => gWords g' = [Some (0, 0); Some (0, 1); Some (1, 0); Some (3, 0); Some (2, 0); Some (2, 1)] | _ => False end
  | _ => False
  end.
Proof. vm_compute. split; reflexivity. Qed.

(* wrong sizes are rejected: an index, a number of columns or rows that does not fit *)
Theorem C57_set_rejects junk pad n wires ins outs i al cols x :
  length ins <= i \/ (exists b, nth_error ins i = Some b /\ bundle_ok wires b /\ 0 < al /\
    ((length b + al * 8 - 1) / (al * 8) <> cols / al \/ length x <> n)) ->
  set_input junk pad i al cols x (gmw_init n wires ins outs) = Throw.
Proof.
  intros [H|(b & Hb & OK & Hal & H)]; [|exact (@set_shape junk pad n wires ins outs i b al cols x Hb OK Hal H)].
  unfold set_input, bundle_view, throw_if. cbn [gmw_init gIns]. rewrite (proj2 (Nat.leb_le _ _) H). reflexivity.
Qed.
Print Assumptions C57_set_rejects.

(* so are transposed matrices of another shape, and mapping a bundle whose first wire already
   has memory *)
Theorem C57_map_rejects bs i d g :
  length bs <= i \/ (exists b, nth_error bs i = Some b /\ (length b <> length (tmRows d) \/ gN g <> tmEntries d \/ tmBytes d mod 16 <> 0 \/
    exists v p, nth_error b 0 = Some v /\ nth_error (gWords g) v = Some (Some p))) ->
  map_bundle bs i d g = Throw.
Proof. apply map_rejects. Qed.
Print Assumptions C57_map_rejects.

(* run rejects an object that has an input wire without a value *)
Theorem C57_unset_rejected lvs junk0 junk1 s0 s1 g0 g1 v :
  (forall u, In u (concat (gIns g0)) -> u < length (gWords g0)) -> In v (concat (gIns g0)) -> nth_error (gWords g0) v = Some None ->
  finalize junk0 g0 = Throw /\ gmw_exec lvs junk0 junk1 s0 s1 g0 g1 = Throw.
Proof. intros H1 H2 H3. pose proof (unset_throws junk0 H1 H2 H3) as E. split; [exact E|]. unfold gmw_exec. rewrite E. reflexivity. Qed.
Print Assumptions C57_unset_rejected.

Example C57_ex_rejects :
  set_input io_junk (io_pad 0) 0 1 2 [[1; 0]; [2; 0]; [3; 0]]%N (gmw_init 3 6 io_ins io_outs) = Throw /\
  set_input io_junk (io_pad 0) 0 1 1 [[1]; [2]]%N (gmw_init 3 6 io_ins io_outs) = Throw /\
  set_input io_junk (io_pad 0) 2 1 1 [[1]; [2]; [3]]%N (gmw_init 3 6 io_ins io_outs) = Throw /\
  map_bundle io_ins 0 (TMat 8 3 [[1]; [2]]%N) (gmw_init 3 6 io_ins io_outs) = Throw /\
  match prepare io_junk io_pad [nth 0 io_x0 GZero] io_y0 (gmw_init 3 6 io_ins io_outs) with
  | Ok (g, _) => nth_error (gWords g) 2 = Some None /\ finalize io_junk g = Throw /\ map_bundle io_ins 0 (TMat 16 3 [[2]; [1]]%N) g = Throw
  | _ => False
  end.
Proof. vm_compute. repeat split; reflexivity. Qed.

(* Refuted: "getOutput rejects an output index that does not exist".  The BinMatrix overload
   (Gmw.h:185) lets the number of outputs through and reads past mOutputs. *)
Theorem C57_output_index_refuted junk pad rows bits g :
  get_output_bm junk pad (length (gOuts g)) rows bits g = UB /\
  forall i, length (gOuts g) < i -> get_output_bm junk pad i rows bits g = Throw.
Proof.
  unfold get_output_bm, throw_if. split.
  - rewrite Nat.ltb_irrefl. cbn [bind]. unfold get. rewrite (proj2 (nth_error_None _ _)) by lia. reflexivity.
  - intros i Hi. rewrite (proj2 (Nat.ltb_lt _ _) Hi). reflexivity.
Qed.
Print Assumptions C57_output_index_refuted.
(* below that the overload asks for the exact number of bits *)
Theorem C57_output_bits junk pad i rows bits g b : nth_error (gOuts g) i = Some b ->
  get_output_bm junk pad i rows bits g = if bits =? length b then get_output junk pad i 1 rows (div_ceil bits 8) g else Throw.
Proof.
  intros Hb. unfold get_output_bm, throw_if. pose proof (nth_error_lt Hb) as L. rewrite (proj2 (Nat.ltb_ge _ _)) by lia. cbn [bind]. unfold get. rewrite Hb. cbn [bind].
  destruct (bits =? length b); reflexivity.
Qed.
Print Assumptions C57_output_bits.
Example C57_ex_output :
  get_output_bm io_junk (io_pad 0) 1 3 2 (gmw_init 3 6 io_ins io_outs) = UB /\
  get_output_bm io_junk (io_pad 0) 2 3 2 (gmw_init 3 6 io_ins io_outs) = Throw /\
  get_output_bm io_junk (io_pad 0) 0 3 3 (gmw_init 3 6 io_ins io_outs) = Throw.
Proof. vm_compute. repeat split; reflexivity. Qed.

(* Refuted: "an empty bundle is harmless": getMemView reads wires[0] of an empty array
   (Gmw.cpp:123).  Refuted: "every output can be read": an output bundle of a wire that is an
   input and one that is not has its wires in different matrices (Gmw.cpp:126-131). *)
Theorem C57_empty_bundle_refuted junk pad i al cols x g : nth_error (gIns g) i = Some [] ->
  set_input junk pad i al cols x g = UB /\ set_zero_input junk i g = UB.
Proof.
  intros H. unfold set_input, set_zero_input, bundle_view, throw_if. rewrite (proj2 (Nat.leb_gt _ _) (nth_error_lt H)). cbn [bind]. assert (EG : get (gIns g) i = Ok []) by (unfold get; rewrite H; reflexivity). rewrite EG. split; reflexivity.
Qed.
Print Assumptions C57_empty_bundle_refuted.
Theorem C57_mixed_output_refuted : exists ins outs xs,
  Forall (bundle_ok 2) ins /\ Forall (bundle_ok 2) outs /\
  match prepare io_junk io_pad xs [None] (gmw_init 1 2 ins outs) with
  | Ok (g, _) =>
    match finalize io_junk g with Ok g' => forall junk pad al cols, get_output junk pad 0 al 1 cols g' = Throw | _ => False end
  | _ => False
  end.
Proof.
  exists [[0]], [[0; 1]], [GZero]. split; [repeat constructor; exists 0; repeat split; cbn; lia|]. split; [repeat constructor; exists 0; repeat split; cbn; lia|].
  vm_compute. reflexivity.
Qed.
Print Assumptions C57_mixed_output_refuted.
