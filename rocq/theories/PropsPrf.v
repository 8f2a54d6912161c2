(* C49 - C52: the alternating moduli PRF and its sub-protocols. *)
From Verif Require Import Base Words Mod3Spec PermSpec PermModel PermProofs F2CodeModel F3CodeModel F3CodeSpec F3CodeProofs
  ConvModel ConvSpec ConvProofs KeyMultModel KeyMultSpec KeyMultProofs
  PrfModel PrfSpec PrfProofs PrfProtoProofs PrfSharedProofs.

(* ---- C49 ---- *)
(* any correlation, any segmentation with enough positions: both parties finish and hold valid
   mod 3 shares of the XOR-shared bits *)
Theorem C49_convert : forall ss rs xs xr, segs_rel trit_ot ss rs ->
  length xs = length xr -> length xr <= total rs ->
  exists cor dl ys yr,
    conv_recv_cor rs xr = Ok cor /\ conv_send ss xs cor = Ok (dl, ys) /\ conv_recv_out rs xr dl = Ok yr /\
    length ys = length xs /\ length yr = length xs /\
    forall k i, k < length xs -> (i < 128)%N ->
      let ys1 := fst (nth k ys (0, 0)%N) in let ys0 := snd (nth k ys (0, 0)%N) in
      let yr1 := fst (nth k yr (0, 0)%N) in let yr0 := snd (nth k yr (0, 0)%N) in
      tvalid ys1 ys0 i /\ tvalid yr1 yr0 i /\
      (trit ys1 ys0 i + trit yr1 yr0 i) mod 3 = b2n (xorb (N.testbit (nth k xs 0%N) i) (N.testbit (nth k xr 0%N) i)).
Proof. exact conv_total. Qed.
Print Assumptions C49_convert.

(* with too few positions the receiver's convert ends in an exception *)
Theorem C49_too_short : forall rs xr, total rs < length xr -> conv_recv_cor rs xr = Throw.
Proof. exact conv_short. Qed.
Print Assumptions C49_too_short.


(* two segments, the second only partly used *)
Definition ex_ts : list (list trit_s) := [[TritS 5 2 0 1]; [TritS 8 3 6 1; TritS 4 9 1 2]]%N.
Definition ex_tr : list (list trit_r) := [[TritR 6 1 0]; [TritR 10 2 1; TritR 3 5 10]]%N.
Example C49_ex : segs_rel trit_ot ex_ts ex_tr /\
  conv_recv_cor ex_tr [3; 9]%N = Ok [[5]; [3]]%N /\
  conv_send ex_ts [5; 12]%N [[5]; [3]]%N = Ok ([[2 ^ 128 - 4; 0]; [2 ^ 128 - 11; 0]], [(1, 6); (2, 5)])%N /\
  conv_recv_out ex_tr [3; 9]%N [[2 ^ 128 - 4; 0]; [2 ^ 128 - 11; 0]]%N = Ok [(0, 1); (0, 2)]%N.
Proof.
  split; [|vm_compute; auto].
  assert (H : forall s c, N.land (tsM0 s) (tsL0 s) = 0%N -> N.land (tsM1 s) (tsL1 s) = 0%N -> trit_ot s (mk_trit_r s c)) by exact mk_trit_ok.
  constructor; [constructor; [apply (H (TritS 5 2 0 1)%N 6%N); reflexivity|constructor]|].
  constructor; [|constructor].
  constructor; [apply (H (TritS 8 3 6 1)%N 10%N); reflexivity|].
  constructor; [apply (H (TritS 4 9 1 2)%N 3%N); reflexivity|constructor].
Qed.

(* ---- C51 ---- *)
Theorem C51_mod2_f4 : forall ss rs v u, segs_rel f4_ot ss rs -> length v = length u -> length u <= total rs ->
  exists cor dl a b,
    f4_recv_derand rs u = Ok cor /\ f4_send ss v cor = Ok (dl, a) /\ f4_recv_out rs u dl = Ok b /\ mod2_shares v u a b.
Proof. exact f4_total. Qed.
Print Assumptions C51_mod2_f4.

(* The protocol with OLEs, for segments of an even number of blocks that cover the input exactly.  Missing from C51: odd segments and segments left over, for which a party hangs (C51_ole_odd_segment_refuted, C51_ole_leftover_hangs). *)
Theorem C51_mod2_ole_partial : forall ss rs v u, segs_rel bin_ole ss rs -> (forall s, In s rs -> Nat.even (length s) = true) ->
  length v = length u -> 2 * length u = total rs ->
  exists cor dl a b,
    ole_recv_derand rs u = Ok cor /\ ole_send ss v cor = Ok (dl, a) /\ ole_recv_out rs u dl = Ok b /\ mod2_shares v u a b.
Proof. exact ole_total. Qed.
Print Assumptions C51_mod2_ole_partial.

(* finding: "the loops terminate for every segmentation" is false.  A segment with an odd
   number of blocks that is not the last makes no progress *)
Theorem C51_ole_odd_segment_refuted : exists ss rs u, segs_rel bin_ole ss rs /\ 2 * length u = total rs /\
  ole_recv_derand rs u = Hang.
Proof.
  exact (ex_intro _ [[mk_ole (0, 0) 0; mk_ole (0, 0) 0; mk_ole (0, 0) 0]; [mk_ole (0, 0) 0]]%N
        (ex_intro _ [[mk_ole (0, 0) 0; mk_ole (0, 0) 0; mk_ole (0, 0) 0]; [mk_ole (0, 0) 0]]%N
        (ex_intro _ [(0, 0); (0, 0)]%N
          (let p := mk_ole_ok (0, 0)%N 0%N in
           conj (Forall2_cons _ _ (Forall2_cons _ _ p (Forall2_cons _ _ p (Forall2_cons _ _ p (Forall2_nil _))))
                  (Forall2_cons _ _ (Forall2_cons _ _ p (Forall2_nil _)) (Forall2_nil _)))
             (conj eq_refl eq_refl))))).
Qed.
Print Assumptions C51_ole_odd_segment_refuted.

(* ... in general *)
Theorem C51_ole_odd_segment_hangs : forall t segs u, Nat.even (length t) = false -> length t / 2 < length u ->
  ole_recv_derand (t :: segs) u = Hang.
Proof. exact ole_odd_hang. Qed.
Print Assumptions C51_ole_odd_segment_hangs.

(* and a last segment that is not used up is never answered: the receiver waits for ever *)
Theorem C51_ole_leftover_hangs : forall s r v u cor dl a, segs_rel bin_ole [s] [r] -> length v = length u -> 0 < length u ->
  2 * length u < length r ->
  ole_recv_derand [r] u = Ok cor -> ole_send [s] v cor = Ok (dl, a) -> ole_recv_out [r] u dl = Hang.
Proof. exact ole_leftover. Qed.
Print Assumptions C51_ole_leftover_hangs.

Definition ex_ole_s : list (list ole) := [[(5, 3); (6, 1)]; [(7, 7); (2, 12)]]%N.
Definition ex_ole_r : list (list ole) := [[mk_ole (5, 3) 6; mk_ole (6, 1) 9]; [mk_ole (7, 7) 3; mk_ole (2, 12) 10]]%N.
Definition ex_f4_s : list (list f4_s) := [[F4S 1 2 3 4]; [F4S 5 6 7 8; F4S 9 10 11 12]]%N.
Definition ex_f4_r : list (list f4_r) :=
  [[mk_f4_r (F4S 1 2 3 4) 6 5]; [mk_f4_r (F4S 5 6 7 8) 12 10; mk_f4_r (F4S 9 10 11 12) 0 3]]%N.
Definition ex_v : list (N * N) := [(5, 2); (8, 7)]%N.
Definition ex_u : list (N * N) := [(9, 6); (3, 4)]%N.
(* lane by lane, lowest first: 1+1 2+2 1+2 0+1 and 2+1 2+1 2+2 1+0 *)
Example C51_ex : segs_rel bin_ole ex_ole_s ex_ole_r /\ segs_rel f4_ot ex_f4_s ex_f4_r /\
  (do d <- ole_recv_derand ex_ole_r ex_u; do s <- ole_send ex_ole_s ex_v d;
   do b <- ole_recv_out ex_ole_r ex_u (fst s); Ok (map (fun x => x mod 16)%N (map2 N.lxor (snd s) b))) = Ok [10; 12]%N /\
  (do d <- f4_recv_derand ex_f4_r ex_u; do s <- f4_send ex_f4_s ex_v d;
   do b <- f4_recv_out ex_f4_r ex_u (fst s); Ok (map (fun x => x mod 16)%N (map2 N.lxor (snd s) b))) = Ok [10; 12]%N.
Proof.
  split; [repeat constructor; apply mk_ole_ok|]. split; [repeat constructor; apply mk_f4_ok|].
  vm_compute. auto.
Qed.

(* ---- C50 ---- *)
(* any history of calls of mult with the same key: every call hands out shares of x times the
   key bit in every row and lane.  Hang is the trit sampler running out of fuel. *)
Theorem C50_mult : forall fuel share key calls so ro, ots_ok so ro key ->
  (forall n xl xm, In (n, (xl, xm)) calls -> km_input ((n + 127) / 128) xl xm) ->
  km_run fuel so share ro key calls = Hang \/
  exists outs, km_run fuel so share ro key calls = Ok outs /\
    Forall2 (fun c o => km_shares (share_bit share) (fun i => nth i key false) ((fst c + 127) / 128)
                          (fst (snd c)) (snd (snd c)) (fst o) (snd o)) calls outs.
Proof. exact run_total. Qed.
Print Assumptions C50_mult.

(* finding: with a pending key request the receiver's second mult throws, whatever happens in
   between, because the request is not cleared when its keys are fetched *)
Theorem C50_second_call_refuted : exists batch s s', km_recv_key batch s = Ok s' /\ km_recv_key batch s' = Throw.
Proof.
  exact (ex_intro _ (repeat d_prng 512, repeat false 512) (ex_intro _ (RKeys [] [] (Some 0))
     (ex_intro _ (RKeys (repeat d_prng 512) (repeat false 512) (Some 1)) (conj eq_refl eq_refl)))).
Qed.
Print Assumptions C50_second_call_refuted.

Theorem C50_second_call_throws : forall batch s s', kReq s <> None -> km_recv_key batch s = Ok s' -> km_recv_key batch s' = Throw.
Proof. exact second_mult_throws. Qed.
Print Assumptions C50_second_call_throws.

(* the sender clears it *)
Theorem C50_sender_keys_kept : forall batch s s', km_send_key batch s = Ok s' -> forall batch', km_send_key batch' s' = Ok s'.
Proof. exact send_key_idem. Qed.
Print Assumptions C50_sender_keys_kept.

(* a concrete stream, keys, shares and inputs *)
Definition ex_rnd (seed : N) (i : N) : N :=
  N.land (N.shiftr ((4 * seed + 4 * i * 0x5B7F + 1) * 0x9E3779B97F4A7C15F39CC0605CEDC835) 20) 0xFFFFFFFFFFFFFFFFFFFFFFFFFFFFFFFF.
Definition ex_so (z : N) : list (prng * prng) := map (fun i => (Prng (ex_rnd (z + 2 * N.of_nat i)) 0, Prng (ex_rnd (z + 2 * N.of_nat i + 1)) 0)) (seq 0 512).
Definition ex_key (m r : nat) : list bool := map (fun i => i mod m =? r) (seq 0 512).
Definition ex_ro (z : N) (key : list bool) : list prng := map2 (fun k s => if k : bool then snd s else fst s) key (ex_so z).
Definition ex_xl : list (list N) := map (fun i => [ex_rnd 7 (N.of_nat i)]) (seq 0 512).

Example C50_ex : ots_ok (ex_so 3) (ex_ro 3 (ex_key 3 1)) (ex_key 3 1) /\ km_input 1 ex_xl [].
Proof.
  split.
  - apply ex_ots_gen; reflexivity.
  - split; [split; [reflexivity|]|left; reflexivity]. intros r Hr. apply in_map_iff in Hr. destruct Hr as (i & <- & _). reflexivity.
Qed.

(* ---- C52 ---- *)
(* the local evaluation is the PRF on every input of the batch, for any batch size *)
Theorem C52_eval : forall G B A M p key x n, length key = 512 -> params_ok G A ->
  prf_make G B A = Ok p -> f3_getMatrix 512 256 A = Ok M -> length x = n ->
  exists y, prf_eval p key x n = Ok y /\ length y = n /\
    forall i, i < n -> is_prf G M B key (nth i x 0%N) (nth i y 0%N).
Proof. exact eval_total. Qed.
Print Assumptions C52_eval.

(* the tables can always be built *)
Theorem C52_params : forall G B A, params_ok G A ->
  (exists p, prf_make G B A = Ok p) /\ (exists M, f3_getMatrix 512 256 A = Ok M).
Proof. exact params_total. Qed.
Print Assumptions C52_params.

(* input known to the receiver, key known to the sender or shared *)
Theorem C52_receiver_input : forall G B A M p fuel c n ros rshare sos skey x, params_ok G A ->
  prf_make G B A = Ok p -> f3_getMatrix 512 256 A = Ok M ->
  0 < n -> length x = n -> cor_ok c n -> ots_ok ros sos skey ->
  prf_run_ro fuel p c n ros rshare sos skey x = Hang \/
  exists ys yr, prf_run_ro fuel p c n ros rshare sos skey x = Ok (ys, yr) /\ length ys = n /\ length yr = n /\
    forall i, i < n -> is_prf G M B (joint_key rshare skey) (nth i x 0%N) (N.lxor (nth i ys 0%N) (nth i yr 0%N)).
Proof. exact run_ro_total. Qed.
Print Assumptions C52_receiver_input.

(* shared input and shared key *)
Theorem C52_shared_input : forall G B A M p fuel c n cs cr ks kr xs xr, params_ok G A ->
  prf_make G B A = Ok p -> f3_getMatrix 512 256 A = Ok M ->
  0 < n -> length xs = n -> length xr = n -> cor_ok c n ->
  segs_rel trit_ot cs cr -> total cr = 512 * blocks128 n -> keys_ok ks kr ->
  prf_run_shared fuel p c n cs cr ks kr xs xr = Hang \/
  exists ys yr, prf_run_shared fuel p c n cs cr ks kr xs xr = Ok (ys, yr) /\ length ys = n /\ length yr = n /\
    forall i, i < n -> is_prf G M B (joint_key (Some (pkKey ks)) (pkKey kr)) (N.lxor (nth i xs 0%N) (nth i xr 0%N))
                         (N.lxor (nth i ys 0%N) (nth i yr 0%N)).
Proof. exact run_shared_total. Qed.
Print Assumptions C52_shared_input.

(* the PRF is a function: the specification determines the output *)
Theorem C52_deterministic : forall G M B key x y y', is_prf G M B key x y -> is_prf G M B key x y' -> y = y'.
Proof. exact is_prf_fun. Qed.
Print Assumptions C52_deterministic.

Definition ex_mat (s : N) : list N := map (fun r => ex_rnd s (N.of_nat r)) (seq 0 128).
Definition ex_GG : list (list N) := [ex_mat 11; ex_mat 12; ex_mat 13].
Definition ex_A : list (list nat) := [rev (seq 0 512); seq 7 505 ++ seq 0 7].
Definition ex_x : list N := [ex_rnd 1 1; ex_rnd 2 2; 3%N].
Definition ex_corF4 : mod2_cor :=
  let s i := F4S (ex_rnd 21 i) (ex_rnd 22 i) (ex_rnd 23 i) (ex_rnd 24 i) in
  let ix a n := map N.of_nat (seq a n) in
  CorF4 [map s (ix 0 100); map s (ix 100 156)]
        [map (fun i => mk_f4_r (s i) (ex_rnd 25 i) (ex_rnd 26 i)) (ix 0 100); map (fun i => mk_f4_r (s i) (ex_rnd 25 i) (ex_rnd 26 i)) (ix 100 156)].
Definition ex_corOle : mod2_cor :=
  let s i := (ex_rnd 31 i, ex_rnd 32 i) in
  let ix a n := map N.of_nat (seq a n) in
  CorOle [map s (ix 0 130); map s (ix 130 382)]
         [map (fun i => mk_ole (s i) (ex_rnd 35 i)) (ix 0 130); map (fun i => mk_ole (s i) (ex_rnd 35 i)) (ix 130 382)].
Definition ex_k1 := ex_key 3 1.
Definition ex_k2 := ex_key 5 2.
Lemma ex_params : params_ok ex_GG ex_A.
Proof.
  split; [reflexivity|]. split; [intros g [<-|[<-|[<-|[]]]]; reflexivity|]. split; [discriminate|].
  intros P [<-|[<-|[]]].
  - apply Permutation_sym, Permutation_rev.
  - change (seq 0 512) with (seq 0 7 ++ seq 7 505). apply Permutation_app_comm.
Qed.
Lemma ex_corF4_ok : cor_ok ex_corF4 3.
Proof.
  split; [|reflexivity].
  constructor; [apply Forall2_map_both; intros; apply mk_f4_ok|]. constructor; [apply Forall2_map_both; intros; apply mk_f4_ok|constructor].
Qed.
Lemma ex_corOle_ok : cor_ok ex_corOle 3.
Proof.
  split; [|split; [reflexivity|repeat constructor]].
  constructor; [apply Forall2_map_both; intros; apply mk_ole_ok|]. constructor; [apply Forall2_map_both; intros; apply mk_ole_ok|constructor].
Qed.

Example C52_ex : params_ok ex_GG ex_A /\ cor_ok ex_corF4 3 /\ cor_ok ex_corOle 3 /\ length ex_k1 = 512 /\ length ex_x = 3 /\
  ots_ok (ex_so 3) (ex_ro 3 ex_k1) ex_k1.
Proof.
  split; [exact ex_params|]. split; [exact ex_corF4_ok|]. split; [exact ex_corOle_ok|]. split; [reflexivity|]. split; [reflexivity|].
  apply ex_ots_gen; reflexivity.
Qed.

Definition ex_conv_s : list (list trit_s) :=
  let s i := TritS (N.ldiff (ex_rnd 41 i) (ex_rnd 42 i)) (ex_rnd 42 i) (ex_rnd 43 i) (N.ldiff (ex_rnd 44 i) (ex_rnd 43 i)) in
  [map (fun i => s (N.of_nat i)) (seq 0 200); map (fun i => s (N.of_nat i)) (seq 200 312)].
Definition ex_conv_r : list (list trit_r) :=
  let s i := TritS (N.ldiff (ex_rnd 41 i) (ex_rnd 42 i)) (ex_rnd 42 i) (ex_rnd 43 i) (N.ldiff (ex_rnd 44 i) (ex_rnd 43 i)) in
  [map (fun i => mk_trit_r (s (N.of_nat i)) (ex_rnd 45 (N.of_nat i))) (seq 0 200);
   map (fun i => mk_trit_r (s (N.of_nat i)) (ex_rnd 45 (N.of_nat i))) (seq 200 312)].
Definition ex_ks : pkeys := PKeys (Some ex_k1) ex_k1 (ex_so 1000) (ex_ro 3 ex_k1).
Definition ex_kr : pkeys := PKeys (Some ex_k2) ex_k2 (ex_so 3) (ex_ro 1000 ex_k2).
Definition ex_xs : list N := [ex_rnd 51 1; ex_rnd 52 2; 9%N].
Example C52_shared_ex : segs_rel trit_ot ex_conv_s ex_conv_r /\ total ex_conv_r = 512 * blocks128 3 /\ keys_ok ex_ks ex_kr.
Proof.
  split; [|split; [reflexivity|]].
  - assert (K : forall a b, N.land (N.ldiff a b) b = 0%N).
    { intros a b. apply N.bits_inj. intros i. rewrite N.land_spec, N.ldiff_spec, N.bits_0. destruct (N.testbit a i), (N.testbit b i); reflexivity. }
    constructor; [|constructor; [|constructor]]; (apply Forall2_map_both; intros i; apply mk_trit_ok; cbn [tsM0 tsL0 tsM1 tsL1]; [rewrite N.land_comm|]; apply K).
  - split; [reflexivity|]. split; [reflexivity|]. split; apply ex_ots_gen; reflexivity.
Qed.
