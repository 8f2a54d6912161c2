(* C05 - C08: permutation correlations, composed permutations and their generation. *)
From Verif Require Import Base Words PermModel PermSpec PermProofs PermCorModel PermCorSpec PermCorProofs CompPermProofs
  Mod3Model ConvModel ConvSpec KeyMultModel KeyMultSpec PrfModel PrfSpec F3CodeModel PrfProtoProofs PropsPrf.

(* ---- C05 ---- *)
(* any history of Regular/Inverse applications and derandomizations that fits: every call's
   outputs share the permuted input, and the correlation stays good *)
Theorem C05_history : forall n c, 0 < n -> (N.of_nat c < 2 ^ 64)%N -> forall h s r, cor_rel n c s r ->
  Forall (op_ok n) h -> csOff s + widths h <= c ->
  exists outs s1 r1, cor_hist (s, r) h = Ok (outs, (s1, r1)) /\ hist_spec n (csPerm s) h outs /\
    cor_rel n c s1 r1 /\ csOff s1 = csOff s + widths h /\ csPerm s1 = last_perm (csPerm s) h.
Proof. exact hist_ok. Qed.
Print Assumptions C05_history.

(* caller supplied output buffers are overwritten whatever they hold *)
Theorem C05_apply : forall n c s r op w xs xr so ro, 0 < n -> (N.of_nat c < 2 ^ 64)%N -> cor_rel n c s r -> csOff s + w <= c ->
  rows xr = n -> cols xr = w -> length (dat xr) = n * w ->
  rows ro = n -> cols ro = w -> length (dat ro) = n * w ->
  rows so = n -> cols so = w -> length (dat so) = n * w ->
  match xs with Some x => rows x = n /\ cols x = w /\ length (dat x) = n * w | None => True end ->
  exists msg yr ys, cor_recv_apply r op xr ro = Ok (msg, (Mat n w yr, CorR (crA r) (crB r) (crOff r + w))) /\
    match xs with Some x => cor_send_apply_in s op x so msg | None => cor_send_apply s op so msg end
      = Ok (Mat n w ys, CorS (csPerm s) (csDelta s) (csOff s + w)) /\
    length ys = n * w /\ length yr = n * w /\
    permuted op w (csPerm s) (xors (in_or_zero (n * w) (option_map dat xs)) (dat xr)) (xors ys yr).
Proof. exact round_ok. Qed.
Print Assumptions C05_apply.

(* validate accepts exactly the good correlations *)
Theorem C05_validate : forall n c s r, length (csPerm s) = n ->
  rows (csDelta s) = n -> cols (csDelta s) = c -> length (dat (csDelta s)) = n * c ->
  rows (crA r) = n -> cols (crA r) = c -> length (dat (crA r)) = n * c ->
  rows (crB r) = n -> cols (crB r) = c -> length (dat (crB r)) = n * c -> csOff s = crOff r ->
  (cor_rel n c s r -> cor_validate s (dat (crA r)) (dat (crB r)) = Ok tt) /\
  (~ cor_rel n c s r -> cor_validate s (dat (crA r)) (dat (crB r)) = Throw).
Proof. exact validate_iff. Qed.
Print Assumptions C05_validate.

(* the trusted generator makes good correlations *)
Theorem C05_genPerm : forall n c p d b, is_perm n p -> length d = n * c -> length b = n * c ->
  exists s r, gen_cor p c d b = Ok (s, r) /\ cor_rel n c s r /\ csPerm s = p /\ csOff s = 0 /\ dat (csDelta s) = d /\ dat (crB r) = b.
Proof. exact gen_cor_ok. Qed.
Print Assumptions C05_genPerm.

(* three rows of four bytes, a history with both operations, a derandomization and no bytes left *)
Definition ex_s : cor_s := CorS [2; 0; 1] (Mat 3 4 [10; 20; 30; 40; 50; 60; 70; 80; 90; 100; 110; 120]%N) 0.
Definition ex_b : list N := [1; 2; 3; 4; 5; 6; 7; 8; 9; 10; 11; 12]%N.
Definition ex_r : cor_r := CorR (Mat 3 4 [55; 58; 65; 88; 83; 110; 101; 116; 11; 22; 29; 44]%N) (Mat 3 4 ex_b) 0.
Definition ex_h : list cop := [OApply Regular 2 (Some [1; 2; 3; 4; 5; 6]%N) [16; 32; 48; 64; 80; 96]%N;
  ODerand [1; 2; 0]; OApply Inverse 1 None [7; 8; 9]%N; OApply Regular 1 (Some [1; 1; 1]%N) [3; 4; 5]%N].
Example C05_ex : cor_rel 3 4 ex_s ex_r /\ Forall (op_ok 3) ex_h /\ csOff ex_s + widths ex_h = 4 /\
  cor_validate ex_s (dat (crA ex_r)) (dat (crB ex_r)) = Ok tt /\
  (do x <- cor_hist (ex_s, ex_r) ex_h; Ok (map (fun o => xors (fst o) (snd o)) (fst x))) =
    Ok [[85; 102; 17; 34; 51; 68]; []; [9; 7; 8]; [5; 4; 2]]%N.
Proof.
  split; [|split; [|split; [reflexivity|split; reflexivity]]].
  - assert (P : is_perm 3 [2; 0; 1]) by (apply (perm_validate_iff [2; 0; 1]); reflexivity).
    unfold cor_rel. repeat (split; [first [exact P|reflexivity]|]).
    intros [|[|[|i]]] [|[|[|[|j]]]] Hi Hj; try lia; reflexivity.
  - assert (P : is_perm 3 [1; 2; 0]) by (apply (perm_validate_iff [1; 2; 0]); reflexivity).
    repeat constructor; exact P.
Qed.

(* ---- C06 ---- *)
(* a call only looks at the mask columns from its offset to its offset plus width: any two
   correlations that agree there give the same message and outputs; both offsets move to the
   end of the window *)
(* Missing from C06: a correlation object generated again keeps its old offset (C06_stale_offset_refuted). *)
Theorem C06_window_partial : forall n c s s' r r' op w xs xr so ro, 0 < n -> (N.of_nat c < 2 ^ 64)%N -> cor_rel n c s r -> cor_rel n c s' r' ->
  csPerm s = csPerm s' -> csOff s = csOff s' -> csOff s + w <= c -> same_masks n c (csOff s) (csOff s + w) s s' r r' ->
  rows xr = n -> cols xr = w -> length (dat xr) = n * w -> rows ro = n -> cols ro = w -> length (dat ro) = n * w ->
  rows so = n -> cols so = w -> length (dat so) = n * w -> rows xs = n -> cols xs = w -> length (dat xs) = n * w ->
  exists msg yr ys r1 r1' s1 s1',
    cor_recv_apply r op xr ro = Ok (msg, (yr, r1)) /\ cor_recv_apply r' op xr ro = Ok (msg, (yr, r1')) /\
    cor_send_apply_in s op xs so msg = Ok (ys, s1) /\ cor_send_apply_in s' op xs so msg = Ok (ys, s1') /\
    csOff s1 = csOff s + w /\ crOff r1 = crOff r + w.
Proof. exact window_ok. Qed.
Print Assumptions C06_window_partial.

(* so in a history the windows of two different calls do not overlap and stay inside *)
(* Missing: re-use after a second generate (C06_stale_offset_refuted). *)
Theorem C06_disjoint_partial : forall n c, 0 < n -> (N.of_nat c < 2 ^ 64)%N -> forall h1 o h2 o' h3 s r, cor_rel n c s r ->
  Forall (op_ok n) (h1 ++ o :: h2 ++ o' :: h3) -> csOff s + widths (h1 ++ o :: h2 ++ o' :: h3) <= c ->
  exists outs s1 r1 outs' s2 r2,
    cor_hist (s, r) h1 = Ok (outs, (s1, r1)) /\ cor_hist (s, r) (h1 ++ o :: h2) = Ok (outs', (s2, r2)) /\
    csOff s1 = crOff r1 /\ csOff s2 = crOff r2 /\ csOff s1 + op_width o <= csOff s2 /\ csOff s2 + op_width o' <= c.
Proof. exact hist_windows. Qed.
Print Assumptions C06_disjoint_partial.

(* the message is the input under the masks of the window *)
Theorem C06_masked : forall n c r op w x sout, 0 < n -> (N.of_nat c < 2 ^ 64)%N -> crOff r + w <= c ->
  rows (crA r) = n -> cols (crA r) = c -> length (dat (crA r)) = n * c ->
  rows (crB r) = n -> cols (crB r) = c -> length (dat (crB r)) = n * c ->
  rows x = n -> cols x = w -> length (dat x) = n * w ->
  rows sout = n -> cols sout = w -> length (dat sout) = n * w ->
  exists msg d, cor_recv_apply r op x sout = Ok (msg, (Mat n w d, CorR (crA r) (crB r) (crOff r + w))) /\
    length msg = n * w /\ length d = n * w /\
    forall i j, i < n -> j < w ->
      cel w msg i j = N.lxor (cel c (dat (match op with Regular => crA r | Inverse => crB r end)) i (crOff r + j)) (cel w (dat x) i j) /\
      cel w d i j = cel c (dat (match op with Regular => crB r | Inverse => crA r end)) i (crOff r + j).
Proof. exact recv_ok. Qed.
Print Assumptions C06_masked.

(* a call that needs more than is left throws at both parties *)
Theorem C06_exhausted : forall n c s r op x so ro, 0 < n -> (N.of_nat c < 2 ^ 64)%N -> cor_rel n c s r -> csOff s <= c ->
  rows x = n -> rows ro = n -> cols x = cols ro -> c < csOff s + cols ro ->
  rows so = n -> cols so = cols ro ->
  cor_recv_apply r op x ro = Throw /\ (forall msg, cor_send_apply s op so msg = Throw) /\
  (forall xs msg, cor_send_apply_in s op xs so msg = Throw).
Proof. exact exhausted. Qed.
Print Assumptions C06_exhausted.

(* Missing: re-use after a second generate (C06_stale_offset_ub). *)
Theorem C06_hist_exhausted_partial : forall n c op w xs xr, 0 < n -> (N.of_nat c < 2 ^ 64)%N -> forall h s r, cor_rel n c s r -> Forall (op_ok n) h ->
  csOff s + widths h <= c -> c < csOff s + widths h + w -> cor_hist (s, r) (h ++ [OApply op w xs xr]) = Throw.
Proof. exact hist_exhausted. Qed.
Print Assumptions C06_hist_exhausted_partial.

(* finding: generate keeps the offset of the object it fills *)
Theorem C06_regenerate_keeps_offset : forall G B A M p fuel cor aes pi n bytes ros sos key so ro s r, params_ok G A ->
  prf_make G B A = Ok p -> f3_getMatrix 512 256 A = Ok M ->
  0 < n -> 0 < bytes -> is_perm n pi -> length key = 512 -> ots_ok ros sos key -> cor_ok cor (n * ((bytes + 15) / 16)) ->
  altmod_gen fuel p cor aes pi n bytes ros sos key so ro = Ok (s, r) -> csOff s = so /\ crOff r = ro.
Proof. exact gen_offsets. Qed.
Print Assumptions C06_regenerate_keeps_offset.

(* ... and with an offset beyond the new correlation the remaining size wraps around, so that
   the check passes and every call reads out of bounds *)
Theorem C06_stale_offset_refuted : exists s r op w x, csOff s = crOff r /\
  cor_rel 2 16 (CorS (csPerm s) (csDelta s) 0) (CorR (crA r) (crB r) 0) /\ 0 < w /\
  cor_recv_apply r op x (zmat 2 w) = UB.
Proof.
  exact (ex_intro _ (CorS [1; 0] (zmat 2 16) 17) (ex_intro _ (CorR (zmat 2 16) (zmat 2 16) 17) (ex_intro _ Regular
    (ex_intro _ 1 (ex_intro _ (zmat 2 1) (conj eq_refl (conj zero_cor_rel (conj (le_n 1) eq_refl)))))))).
Qed.
Print Assumptions C06_stale_offset_refuted.

Theorem C06_stale_offset_ub : forall n c r op w x ro, 0 < n -> 0 < w -> (N.of_nat c < 2 ^ 64)%N ->
  c < crOff r -> (N.of_nat (crOff r + w) < 2 ^ 64)%N ->
  rows (crA r) = n -> cols (crA r) = c -> length (dat (crA r)) = n * c ->
  rows (crB r) = n -> cols (crB r) = c -> length (dat (crB r)) = n * c ->
  rows x = n -> cols x = w -> length (dat x) = n * w -> rows ro = n -> cols ro = w -> length (dat ro) = n * w ->
  cor_recv_apply r op x ro = UB.
Proof. exact stale_ub. Qed.
Print Assumptions C06_stale_offset_ub.

Example C06_ex : cor_rel 3 4 ex_s ex_r /\ Forall (op_ok 3) ex_h /\ csOff ex_s + widths ex_h <= 4 /\
  cor_hist (ex_s, ex_r) (ex_h ++ [OApply Inverse 1 None [0; 0; 0]%N]) = Throw.
Proof. split; [apply C05_ex|]. split; [apply C05_ex|]. split; [apply le_n|reflexivity]. Qed.

(* ---- C07 ---- *)
Theorem C07_apply : forall n c c0 c1 op w x0 x1 o0 o1, 0 < n -> (N.of_nat c < 2 ^ 64)%N -> comp_rel n c c0 c1 ->
  csOff (cpS c0) + w <= c -> csOff (cpS c1) + w <= c -> length x0 = n * w -> length x1 = n * w ->
  rows o0 = n -> cols o0 = w -> rows o1 = n -> cols o1 = w ->
  exists z0 z1 d0 d1, comp_apply c0 c1 op (Mat n w x0) (Mat n w x1) o0 o1 = Ok ((Mat n w z0, d0), (Mat n w z1, d1)) /\
    length z0 = n * w /\ length z1 = n * w /\
    permuted op w (comp_perm c0 c1) (xors x0 x1) (xors z0 z1) /\
    comp_rel n c d0 d1 /\ comp_perm d0 d1 = comp_perm c0 c1 /\
    csOff (cpS d0) = csOff (cpS c0) + w /\ csOff (cpS d1) = csOff (cpS c1) + w.
Proof. exact comp_apply_ok. Qed.
Print Assumptions C07_apply.

Theorem C07_exhausted : forall n c c0 c1 op w x0 x1 o0 o1, (N.of_nat c < 2 ^ 64)%N -> comp_rel n c c0 c1 ->
  csOff (cpS c0) <= c -> csOff (cpS c1) <= c -> c < csOff (cpS c0) + w \/ c < csOff (cpS c1) + w ->
  cols x0 = w -> cols x1 = w ->
  comp_apply c0 c1 op x0 x1 o0 o1 = Throw.
Proof. exact comp_exhausted. Qed.
Print Assumptions C07_exhausted.

(* compose: shares of a vector v become shares of v[pi[i]] *)
Theorem C07_compose : forall n c c0 c1 a0 a1, 0 < n -> (N.of_nat c < 2 ^ 64)%N -> comp_rel n c c0 c1 ->
  csOff (cpS c0) + 4 <= c -> csOff (cpS c1) + 4 <= c -> length a0 = n -> length a1 = n ->
  (forall i, i < n -> (N.lxor (nth i a0 0%N) (nth i a1 0%N) < 2 ^ 32)%N) ->
  exists z0 z1 d0 d1, comp_compose c0 c1 a0 a1 = Ok ((z0, d0), (z1, d1)) /\ length z0 = n /\ length z1 = n /\ comp_rel n c d0 d1 /\
    comp_perm d0 d1 = comp_perm c0 c1 /\
    forall i, i < n -> N.lxor (nth i z0 0%N) (nth i z1 0%N) =
      N.lxor (nth (nth i (comp_perm c0 c1) 0) a0 0%N) (nth (nth i (comp_perm c0 c1) 0) a1 0%N).
Proof. exact compose_ok. Qed.
Print Assumptions C07_compose.

(* derandomize: the pair stands for the shared permutation afterwards *)
Theorem C07_derandomize : forall n c c0 c1 a0 a1, 0 < n -> (N.of_nat c < 2 ^ 64)%N -> comp_rel n c c0 c1 ->
  csOff (cpS c1) + 4 <= c -> length a0 = n -> length a1 = n ->
  (forall i, i < n -> (N.lxor (nth i a0 0%N) (nth i a1 0%N) < 2 ^ 32)%N) ->
  is_perm n (map N.to_nat (xors a0 a1)) ->
  exists d0 d1, comp_derand c0 c1 a0 a1 = Ok (d0, d1) /\ comp_rel n c d0 d1 /\ comp_perm d0 d1 = map N.to_nat (xors a0 a1) /\
    csOff (cpS d0) = csOff (cpS c0) /\ csOff (cpS d1) = csOff (cpS c1) + 4.
Proof. exact comp_derand_ok. Qed.
Print Assumptions C07_derandomize.

Theorem C07_genPerm : forall n c p sp0 d0 b0 d1 b1, is_perm n p -> is_perm n sp0 ->
  length d0 = n * c -> length b0 = n * c -> length d1 = n * c -> length b1 = n * c ->
  exists c0 c1, gen_comp p sp0 c d0 b0 d1 b1 = Ok (c0, c1) /\ comp_rel n c c0 c1 /\ comp_perm c0 c1 = p /\
    csOff (cpS c0) = 0 /\ csOff (cpS c1) = 0.
Proof. exact gen_comp_ok. Qed.
Print Assumptions C07_genPerm.

Definition ex_pair : outcome (comp * comp) :=
  gen_comp [1; 2; 0] [0; 2; 1] 16 (map N.of_nat (seq 1 48)) (map N.of_nat (seq 100 48)) (map N.of_nat (seq 50 48)) (map N.of_nat (seq 200 48)).
Definition ex_c0 : comp := match ex_pair with Ok (a, _) => a | _ => Comp 9 ex_s ex_r end.
Definition ex_c1 : comp := match ex_pair with Ok (_, b) => b | _ => Comp 9 ex_s ex_r end.
Definition ex_a0 : list N := [7; 100; 300]%N.
Definition ex_a1 : list N := [5; 100; 301]%N.   (* shares of 2, 0, 1 *)
Example C07_ex : comp_rel 3 16 ex_c0 ex_c1 /\ comp_perm ex_c0 ex_c1 = [1; 2; 0] /\ is_perm 3 (map N.to_nat (xors ex_a0 ex_a1)) /\
  (do x <- comp_derand ex_c0 ex_c1 ex_a0 ex_a1; Ok (comp_perm (fst x) (snd x))) = Ok [2; 0; 1] /\
  (do x <- comp_compose ex_c0 ex_c1 ex_a0 ex_a1; Ok (xors (fst (fst x)) (fst (snd x)))) = Ok [0; 1; 2]%N.
Proof.
  assert (P1 : is_perm 3 [1; 2; 0]) by (apply (perm_validate_iff [1; 2; 0]); reflexivity).
  assert (P2 : is_perm 3 [0; 2; 1]) by (apply (perm_validate_iff [0; 2; 1]); reflexivity).
  assert (P3 : is_perm 3 [2; 0; 1]) by (apply (perm_validate_iff [2; 0; 1]); reflexivity).
  assert (H : comp_rel 3 16 ex_c0 ex_c1 /\ comp_perm ex_c0 ex_c1 = [1; 2; 0]).
  { destruct (C07_genPerm (n := 3) (c := 16) (d0 := map N.of_nat (seq 1 48)) (b0 := map N.of_nat (seq 100 48)) (d1 := map N.of_nat (seq 50 48)) (b1 := map N.of_nat (seq 200 48)) P1 P2)
      as (c0 & c1 & E & H1 & H2 & _); try reflexivity.
    assert (E0 : ex_c0 = c0) by (unfold ex_c0, ex_pair; rewrite E; reflexivity).
    assert (E1 : ex_c1 = c1) by (unfold ex_c1, ex_pair; rewrite E; reflexivity).
    rewrite E0, E1. auto. }
  split; [apply H|]. split; [apply H|]. split; [exact P3|]. split; reflexivity.
Qed.

(* ---- C08 ---- *)
(* the generated correlation is good when both objects start at the same offset (0 for new
   ones), has at least the requested bytes, and mA holds the PRF at the points AES(j, i).
   Hang is the trit sampler running out of fuel. *)
Theorem C08_generate : forall G B A M p fuel cor aes pi n bytes ros sos key so ro, params_ok G A ->
  prf_make G B A = Ok p -> f3_getMatrix 512 256 A = Ok M ->
  0 < n -> 0 < bytes -> is_perm n pi -> length key = 512 -> ots_ok ros sos key -> cor_ok cor (n * ((bytes + 15) / 16)) ->
  altmod_gen fuel p cor aes pi n bytes ros sos key so ro = Hang \/
  exists s r, altmod_gen fuel p cor aes pi n bytes ros sos key so ro = Ok (s, r) /\
    csPerm s = pi /\ csOff s = so /\ crOff r = ro /\
    (so = ro -> cor_rel n (16 * ((bytes + 15) / 16)) s r) /\ bytes <= 16 * ((bytes + 15) / 16) /\
    forall i j y, i < n -> j < (bytes + 15) / 16 -> is_prf G M B key (aes (mkblock j i)) y ->
      forall b, b < 16 -> cel (16 * ((bytes + 15) / 16)) (dat (crA r)) i (16 * j + b) = N.land (N.shiftr y (8 * N.of_nat b)) 255.
Proof. exact gen_ok. Qed.
Print Assumptions C08_generate.

Theorem C08_throws : forall fuel p cor aes pi n bytes ros sos key so ro, n = 0 \/ length pi <> n ->
  altmod_gen fuel p cor aes pi n bytes ros sos key so ro = Throw.
Proof. exact gen_throws. Qed.
Print Assumptions C08_throws.

(* the PRF is evaluated at a different point for every block of the correlation *)
Theorem C08_points_distinct : forall n b, (N.of_nat n <= 2 ^ 64)%N -> NoDup (gen_points (seq 0 n) b).
Proof. exact points_NoDup. Qed.
Print Assumptions C08_points_distinct.

(* three rows of 7 bytes *)
Example C08_ex : params_ok ex_GG ex_A /\ is_perm 3 [1; 2; 0] /\ cor_ok ex_corF4 (3 * ((7 + 15) / 16)) /\ cor_ok ex_corOle (3 * ((7 + 15) / 16)) /\
  length ex_k1 = 512 /\ ots_ok (ex_so 3) (ex_ro 3 ex_k1) ex_k1 /\ gen_points [1; 2; 0] 2 = [1; 2 ^ 64 + 1; 2; 2 ^ 64 + 2; 0; 2 ^ 64]%N.
Proof.
  split; [exact ex_params|]. split; [apply (perm_validate_iff [1; 2; 0]); reflexivity|]. split; [exact ex_corF4_ok|]. split; [exact ex_corOle_ok|].
  split; [reflexivity|]. split; [apply C52_ex|reflexivity].
Qed.
