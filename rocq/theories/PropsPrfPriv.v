(* C65: the messages of the sub-protocols of the PRF tell nothing about the inputs, and those of a
   whole run nothing about the key and nothing about the receiver's input.  [hides] is in PrivSpec.v. *)
From Verif Require Import Base Words Mod3Model ConvModel ConvSpec ConvProofs KeyMultModel KeyMultSpec KeyMultProofs PermSpec F3CodeModel F3CodeSpec F3CodeProofs
  PrfModel PrfSpec PrfProtoProofs PrivSpec ConvPrivacy Mod2Privacy PrfViewModel RowPrivacy PrfPrivacy InputPrivacy PropsPrf.

(* ---------------- conversion to F3 ---------------- *)

(* the receiver's message, whatever correlations the sender holds *)
Theorem C65_conv_recv : forall ss x x', Forall (Forall blk_ts) ss -> Forall blk x -> Forall blk x' -> length x = length x' ->
  hides (fits (fun r s => trit_ot s r) blk_tr ss) (fun x rs => conv_recv_cor rs x) x x'.
Proof. exact conv_recv_hides. Qed.
Print Assumptions C65_conv_recv.

(* the sender's messages, whatever correlations the receiver holds and whatever it has sent *)
Theorem C65_conv_send : forall rs x x' msgs, Forall (Forall blk_tr) rs -> Forall blk x -> Forall blk x' -> length x = length x' ->
  hides (fits trit_ot blk_ts rs) (fun x ss => sent (conv_send ss x msgs)) x x'.
Proof. exact conv_send_hides. Qed.
Print Assumptions C65_conv_send.

(* ---------------- mod 2 with 1-out-of-4 OTs ---------------- *)

Theorem C65_f4_recv : forall ss u u', Forall (Forall blk_fs) ss -> Forall blk2 u -> Forall blk2 u' -> length u = length u' ->
  hides (fits (fun r s => f4_ot s r) blk_fr ss) (fun u rs => f4_recv_derand rs u) u u'.
Proof. exact f4_recv_hides. Qed.
Print Assumptions C65_f4_recv.

Theorem C65_f4_send : forall rs v v' msgs, Forall (Forall blk_fr) rs -> Forall blk2 v -> Forall blk2 v' -> length v = length v' ->
  hides (fits f4_ot blk_fs rs) (fun v ss => sent (f4_send ss v msgs)) v v'.
Proof. exact f4_send_hides. Qed.
Print Assumptions C65_f4_send.

(* ---------------- mod 2 with OLEs ---------------- *)

Theorem C65_ole_recv : forall ss u u', Forall (Forall blk_ole) ss -> Forall blk2 u -> Forall blk2 u' -> length u = length u' ->
  hides (fits bin_ole blk_ole ss) (fun u rs => ole_recv_derand rs u) u u'.
Proof. exact ole_recv_hides. Qed.
Print Assumptions C65_ole_recv.

Theorem C65_ole_send : forall rs v v' msgs, Forall (Forall blk_ole) rs -> Forall blk2 v -> Forall blk2 v' -> length v = length v' ->
  hides (fits bin_ole blk_ole rs) (fun v ss => sent (ole_send ss v msgs)) v v'.
Proof. exact ole_send_hides. Qed.
Print Assumptions C65_ole_send.

(* correlations of the honest party that fit the same ones of the other party; each view of the
   first input is the view of the second one under the other correlations, and with the same
   correlations the views differ *)
Lemma blk_small x : (x <? 16)%N = true -> blk x.
Proof.
  intros H i Hi. apply N.ltb_lt in H. destruct (N.eq_dec x 0) as [->|Hx]; [apply N.bits_0|].
  apply N.bits_above_log2. apply (N.le_lt_trans _ 3); [|lia]. apply N.lt_succ_r. apply (N.log2_lt_pow2 x 4); [lia|exact H].
Qed.
Definition ex_tr' : list (list trit_r) := [[TritR 9 4 3]; [TritR 5 12 3; TritR 3 5 10]]%N.
Definition ex_ts' : list (list trit_s) := [[TritS 1 4 8 0]; [TritS 0 9 2 4; TritS 4 9 1 2]]%N.
Definition ex_f4_r' : list (list f4_r) := [[F4R 8 10 3]; [F4R 1 11 6; F4R 3 0 10]]%N.
Definition ex_f4_s' : list (list f4_s) := [[F4S 5 10 2 13]; [F4S 5 15 5 13; F4S 9 10 11 12]]%N.
Definition ex_ole_r' : list (list ole) := [[(6, 11); (7, 5)]; [(7, 8); (14, 13)]]%N.
Definition ex_ole_s' : list (list ole) := [[(1, 15); (7, 0)]; [(4, 0); (10, 0)]]%N.
Definition ex_u' : list (N * N) := [(4, 10); (8, 3)]%N.


Ltac blks := repeat match goal with |- Forall _ _ => constructor end; repeat split; apply blk_small; reflexivity.

Example C65_conv_ex :
  fits (fun r s => trit_ot s r) blk_tr ex_ts ex_tr /\ fits (fun r s => trit_ot s r) blk_tr ex_ts ex_tr' /\
  fits trit_ot blk_ts ex_tr ex_ts' /\ Forall (Forall blk_ts) ex_ts /\
  conv_recv_cor ex_tr [3; 9]%N = Ok [[5]; [3]]%N /\ conv_recv_cor ex_tr [12; 6]%N = Ok [[10]; [12]]%N /\
  conv_recv_cor ex_tr' [12; 6]%N = Ok [[5]; [3]]%N /\
  sent (conv_send ex_ts [3; 9] [[5]; [3]])%N = Ok [[2 ^ 128 - 6; 0]; [2 ^ 128 - 16; 1]]%N /\
  sent (conv_send ex_ts [12; 6] [[5]; [3]])%N = Ok [[2 ^ 128 - 12; 9]; [2 ^ 128 - 9; 8]]%N /\
  sent (conv_send ex_ts' [12; 6] [[5]; [3]])%N = Ok [[2 ^ 128 - 6; 0]; [2 ^ 128 - 16; 1]]%N.
Proof.
  assert (R : forall s c, N.land (tsM0 s) (tsL0 s) = 0%N -> N.land (tsM1 s) (tsL1 s) = 0%N -> trit_ot s (mk_trit_r s c)) by exact mk_trit_ok.
  split; [|split; [|split; [|split]]].
  - split; [|blks]. constructor; [constructor; [apply (R (TritS 5 2 0 1) 6)%N; reflexivity|constructor]|].
    constructor; [|constructor]. constructor; [apply (R (TritS 8 3 6 1) 10)%N; reflexivity|].
    constructor; [apply (R (TritS 4 9 1 2) 3)%N; reflexivity|constructor].
  - split; [|blks]. constructor; [constructor; [apply (R (TritS 5 2 0 1) 9)%N; reflexivity|constructor]|].
    constructor; [|constructor]. constructor; [apply (R (TritS 8 3 6 1) 5)%N; reflexivity|].
    constructor; [apply (R (TritS 4 9 1 2) 3)%N; reflexivity|constructor].
  - split; [|blks]. constructor; [constructor; [apply (R (TritS 1 4 8 0) 6)%N; reflexivity|constructor]|].
    constructor; [|constructor]. constructor; [apply (R (TritS 0 9 2 4) 10)%N; reflexivity|].
    constructor; [apply (R (TritS 4 9 1 2) 3)%N; reflexivity|constructor].
  - blks.
  - vm_compute. auto 10.
Qed.

Example C65_f4_ex :
  fits (fun r s => f4_ot s r) blk_fr ex_f4_s ex_f4_r /\ fits (fun r s => f4_ot s r) blk_fr ex_f4_s ex_f4_r' /\
  fits f4_ot blk_fs ex_f4_r ex_f4_s' /\ Forall blk2 ex_u /\ Forall blk2 ex_u' /\
  f4_recv_derand ex_f4_r ex_u = Ok [[12; 0]; [9; 8]]%N /\ f4_recv_derand ex_f4_r ex_u' = Ok [[1; 12]; [2; 15]]%N /\
  f4_recv_derand ex_f4_r' ex_u' = Ok [[12; 0]; [9; 8]]%N /\
  sent (f4_send ex_f4_s ex_u [[15; 3]; [15; 14]]%N) = Ok [[2 ^ 128 - 6; 9]; [2 ^ 128 - 12; 9]]%N /\
  sent (f4_send ex_f4_s ex_u' [[15; 3]; [15; 14]]%N) = Ok [[2 ^ 128 - 10; 8]; [2 ^ 128 - 13; 5]]%N /\
  sent (f4_send ex_f4_s' ex_u' [[15; 3]; [15; 14]]%N) = Ok [[2 ^ 128 - 6; 9]; [2 ^ 128 - 12; 9]]%N.
Proof.
  split; [|split; [|split; [|split; [|split]]]].
  - split; [|blks]. repeat constructor; apply mk_f4_ok.
  - split; [|blks]. constructor; [constructor; [exact (mk_f4_ok (F4S 1 2 3 4) 10 8)%N|constructor]|].
    constructor; [|constructor]. constructor; [exact (mk_f4_ok (F4S 5 6 7 8) 11 1)%N|].
    constructor; [exact (mk_f4_ok (F4S 9 10 11 12) 0 3)%N|constructor].
  - split; [|blks]. constructor; [constructor; [exact (mk_f4_ok (F4S 5 10 2 13) 6 5)%N|constructor]|].
    constructor; [|constructor]. constructor; [exact (mk_f4_ok (F4S 5 15 5 13) 12 10)%N|].
    constructor; [exact (mk_f4_ok (F4S 9 10 11 12) 0 3)%N|constructor].
  - blks.
  - blks.
  - vm_compute. auto 10.
Qed.

Example C65_ole_ex :
  fits bin_ole blk_ole ex_ole_r ex_ole_s /\ fits bin_ole blk_ole ex_ole_s ex_ole_r /\
  fits bin_ole blk_ole ex_ole_s ex_ole_r' /\ fits bin_ole blk_ole ex_ole_r ex_ole_s' /\
  ole_recv_derand ex_ole_r ex_u = Ok [[15; 15]; [0; 14]]%N /\ ole_recv_derand ex_ole_r ex_u' = Ok [[2; 3]; [11; 9]]%N /\
  ole_recv_derand ex_ole_r' ex_u' = Ok [[15; 15]; [0; 14]]%N /\
  sent (ole_send ex_ole_s ex_u [[15; 15]; [0; 14]]%N) = Ok [[2 ^ 128 - 6; 14]; [2 ^ 128 - 4; 11]]%N /\
  sent (ole_send ex_ole_s ex_u' [[15; 15]; [0; 14]]%N) = Ok [[2 ^ 128 - 10; 15]; [2 ^ 128 - 5; 7]]%N /\
  sent (ole_send ex_ole_s' ex_u' [[15; 15]; [0; 14]]%N) = Ok [[2 ^ 128 - 6; 14]; [2 ^ 128 - 4; 11]]%N.
Proof.
  split; [|split; [|split; [|split]]].
  - split; [|blks]. repeat constructor; apply mk_ole_ok.
  - split; [|blks]. constructor; [constructor; [exact (mk_ole_ok (7, 6) 3)%N|constructor; [exact (mk_ole_ok (7, 9) 1)%N|constructor]]|].
    constructor; [|constructor]. constructor; [exact (mk_ole_ok (4, 3) 7)%N|constructor; [exact (mk_ole_ok (10, 10) 12)%N|constructor]].
  - split; [|blks]. constructor; [constructor; [exact (mk_ole_ok (6, 11) 3)%N|constructor; [exact (mk_ole_ok (7, 5) 1)%N|constructor]]|].
    constructor; [|constructor]. constructor; [exact (mk_ole_ok (7, 8) 7)%N|constructor; [exact (mk_ole_ok (14, 13) 12)%N|constructor]].
  - split; [|blks]. constructor; [constructor; [exact (mk_ole_ok (1, 15) 6)%N|constructor; [exact (mk_ole_ok (7, 0) 9)%N|constructor]]|].
    constructor; [|constructor]. constructor; [exact (mk_ole_ok (4, 0) 3)%N|constructor; [exact (mk_ole_ok (10, 0) 10)%N|constructor]].
  - vm_compute. auto 10.
Qed.

(* ---------------- the rows of the key multiplication ---------------- *)

(* a row of the code: the trits come from the first OT string, the pad is the stream of the second *)
Theorem C65_row : forall fuel cols s, row_fits cols s ->
  km_send_row fuel s = Hang \/
  exists p msg xs t, km_send_row fuel s = Ok (p, (msg, xs)) /\ trits_ok cols t /\
    sample_prng fuel (srOt0 s) cols = Ok (fst p, t) /\
    km_row_msg s (fst t) (snd t) (stream (srOt1 s) (2 * cols)) = Ok msg.
Proof. exact row_is. Qed.
Print Assumptions C65_row.

(* the receiver whose key bit is 0 knows the trits and not the pad *)
Theorem C65_row_key0 : forall cols s s' t, row_fits cols s -> row_fits cols s' -> row_blk s -> row_blk s' -> trits_ok cols t ->
  hides (pad_ok cols) (fun r pad => km_row_msg r (fst t) (snd t) pad) s s'.
Proof. exact row_hides_pad. Qed.
Print Assumptions C65_row_key0.

(* the receiver whose key bit is 1 knows the pad and not the trits; the sender's share of the key
   bit is the same in both rows *)
Theorem C65_row_key1 : forall cols s s' pad, srKey s' = srKey s -> row_fits cols s -> row_fits cols s' -> row_blk s -> row_blk s' ->
  hides (trits_ok cols) (fun r t => km_row_msg r (fst t) (snd t) pad) s s'.
Proof. exact row_hides_share. Qed.
Print Assumptions C65_row_key1.

(* one word, the sender's key share is 1: the trits 1 2 0 0 minus the bits 1 0 1 0 *)
Definition ex_row (x : N) : srow := SRow (Prng (ex_rnd 3) 0) (Prng (ex_rnd 4) 0) true [x] None.
Lemma ex_trits : trits_ok 1 ([2], [1])%N.
Proof.
  split; [reflexivity|]. split; [reflexivity|]. split; [blks|]. split; [blks|]. intros c l Hc.
  assert (c = 0) as -> by lia. cbn [fst snd nth]. unfold tvalid.
  assert (Z : N.land 2 1 = 0%N) by reflexivity. rewrite <- N.land_spec, Z. apply N.bits_0.
Qed.
Example C65_row_ex : row_fits 1 (ex_row 5) /\ row_blk (ex_row 5) /\ trits_ok 1 ([2], [1])%N /\ pad_ok 1 [9; 12]%N /\
  km_row_msg (ex_row 5) [2]%N [1]%N [9; 12]%N = Ok [15; 12]%N /\
  km_row_msg (ex_row 3) [2]%N [1]%N [9; 12]%N = Ok [9; 14]%N /\
  km_row_msg (ex_row 3) [2]%N [1]%N [15; 14]%N = Ok [15; 12]%N /\
  km_row_msg (ex_row 3) [4]%N [1]%N [9; 12]%N = Ok [15; 12]%N.
Proof.
  split; [split; [reflexivity|exact I]|]. split; [split; [blks|exact I]|]. split; [exact ex_trits|].
  split; [split; [reflexivity|blks]|]. vm_compute. auto.
Qed.

(* ---------------- a whole run, the input is the receiver's ---------------- *)

(* The key is hidden from the receiver.  Two keys of the sender, each with the OT strings it selects
   from the receiver's: over the sender's correlations that fit the receiver's, the messages of the
   sender are the same. *)
Theorem C65_key_f4 : forall G B A M p fuel n ros rshare x rs sos sos' key key', params_ok G A ->
  prf_make G B A = Ok p -> f3_getMatrix 512 256 A = Ok M -> 0 < n -> length x = n ->
  ots_ok ros sos key -> ots_ok ros sos' key' -> Forall (Forall blk_fr) rs ->
  hides (fits f4_ot blk_fs rs) (fun k ss => prf_ro_msgs fuel p (CorF4 ss rs) n ros rshare (fst k) (snd k) x) (sos, key) (sos', key').
Proof.
  intros G B A M p fuel n ros rshare x rs sos sos' key key' (HG & Hg & HA). exact (@ro_key_hides_f4 G B A M p fuel n ros rshare x rs sos sos' key key' HG Hg HA).
Qed.
Print Assumptions C65_key_f4.

Theorem C65_key_ole : forall G B A M p fuel n ros rshare x rs sos sos' key key', params_ok G A ->
  prf_make G B A = Ok p -> f3_getMatrix 512 256 A = Ok M -> 0 < n -> length x = n ->
  ots_ok ros sos key -> ots_ok ros sos' key' -> Forall (Forall blk_ole) rs ->
  hides (fits bin_ole blk_ole rs) (fun k ss => prf_ro_msgs fuel p (CorOle ss rs) n ros rshare (fst k) (snd k) x) (sos, key) (sos', key').
Proof.
  intros G B A M p fuel n ros rshare x rs sos sos' key key' (HG & Hg & HA). exact (@ro_key_hides_ole G B A M p fuel n ros rshare x rs sos sos' key key' HG Hg HA).
Qed.
Print Assumptions C65_key_ole.

(* those messages are the ones of the run of C52, and the receiver's output is a function of them
   and of what the receiver holds *)
Theorem C65_key_output : forall fuel p c n ros rshare sos key x ys yr, prf_run_ro fuel p c n ros rshare sos key x = Ok (ys, yr) ->
  exists msgs, prf_ro_msgs fuel p c n ros rshare sos key x = Ok msgs /\ prf_ro_recv fuel p c n ros rshare x msgs = Ok yr.
Proof. exact ro_msgs_run. Qed.
Print Assumptions C65_key_output.

(* two keys that differ in many bits, the OT strings of both, and correlations of both kinds *)
Lemma ex_rnd_blk s i : blk (ex_rnd s i).
Proof.
  intros j Hj. unfold ex_rnd. rewrite N.land_spec. change 0xFFFFFFFFFFFFFFFFFFFFFFFFFFFFFFFF%N with (N.ones 128).
  rewrite N.ones_spec_high by exact Hj. apply andb_false_r.
Qed.
Definition ex_segs_s (c : mod2_cor) : list (list f4_s) * list (list ole) := match c with CorF4 ss _ => (ss, []) | CorOle ss _ => ([], ss) end.
Definition ex_segs_r (c : mod2_cor) : list (list f4_r) * list (list ole) := match c with CorF4 _ rs => (rs, []) | CorOle _ rs => ([], rs) end.
Example C65_key_ex : params_ok ex_GG ex_A /\ ots_ok (ex_so 3) (ex_ro 3 ex_k1) ex_k1 /\ ots_ok (ex_so 3) (ex_ro 3 ex_k2) ex_k2 /\
  ex_k1 <> ex_k2 /\ length ex_x = 3 /\
  fits f4_ot blk_fs (fst (ex_segs_r ex_corF4)) (fst (ex_segs_s ex_corF4)) /\ Forall (Forall blk_fr) (fst (ex_segs_r ex_corF4)) /\
  fits bin_ole blk_ole (snd (ex_segs_r ex_corOle)) (snd (ex_segs_s ex_corOle)) /\ Forall (Forall blk_ole) (snd (ex_segs_r ex_corOle)).
Proof.
  split; [exact ex_params|]. split; [apply ex_ots_gen; reflexivity|]. split; [apply ex_ots_gen; reflexivity|].
  split; [intros H; apply (f_equal (fun k => nth 1 k false)) in H; discriminate H|]. split; [reflexivity|].
  assert (FM : forall A B (f : A -> B) (P : B -> Prop) l, (forall a, P (f a)) -> Forall P (map f l)).
  { intros A B f P l H. apply Forall_forall. intros b Hb. apply in_map_iff in Hb. destruct Hb as (a & <- & _). apply H. }
  assert (R := ex_rnd_blk). assert (W : forall c a b, blk c -> blk a -> blk b -> blk (N.lxor (N.land c b) (N.ldiff a c))).
  { intros c a b Hc Ha Hb. apply blk_lxor; [apply blk_land; exact Hc|apply blk_ldiff; exact Ha]. }
  split; [split; [exact (proj1 ex_corF4_ok)|]|split; [|split; [split; [exact (proj1 ex_corOle_ok)|]|]]];
    unfold ex_segs_r, ex_segs_s, ex_corF4, ex_corOle; cbn [fst snd]; (constructor; [apply FM|constructor; [apply FM|constructor]]); intros i.
  1,2: exact (conj (R _ _) (conj (R _ _) (conj (R _ _) (R _ _)))).
  1,2: exact (conj (R _ _) (conj (R _ _) (W _ _ _ (R _ _) (W _ _ _ (R _ _) (R _ _) (R _ _)) (W _ _ _ (R _ _) (R _ _) (R _ _))))).
  1,2: exact (conj (R _ _) (R _ _)).
  1,2: split; [apply blk_lxor; [apply R|apply blk_land, R]|apply R].
Qed.

(* The receiver's input is hidden from the sender.  Of each row of the key multiplication the sender
   holds the pad or the trits, according to its key bit ([known]); over the other half and over the
   receiver's correlations that fit the sender's, all messages of the receiver together are the same
   for two inputs. *)
Theorem C65_input_f4 : forall G B A M p n rshare key known ss x x', params_ok G A ->
  prf_make G B A = Ok p -> f3_getMatrix 512 256 A = Ok M -> length x = n -> length x' = n -> Forall (Forall blk_fs) ss ->
  hides (fun r => tps_ok (blocks128 n) key known (fst r) /\ fits (fun r s => f4_ot s r) blk_fr ss (snd r))
    (fun x r => prf_ro_ideal p (RF4 (snd r)) n rshare (fst r) x) x x'.
Proof.
  intros G B A M p n rshare key known ss x x' (HG & Hg & HA). exact (@input_hides_f4 G B A M p n rshare key known ss x x' HG Hg HA).
Qed.
Print Assumptions C65_input_f4.

Theorem C65_input_ole : forall G B A M p n rshare key known ss x x', params_ok G A ->
  prf_make G B A = Ok p -> f3_getMatrix 512 256 A = Ok M -> length x = n -> length x' = n -> Forall (Forall blk_ole) ss ->
  hides (fun r => tps_ok (blocks128 n) key known (fst r) /\ fits bin_ole blk_ole ss (snd r))
    (fun x r => prf_ro_ideal p (ROle (snd r)) n rshare (fst r) x) x x'.
Proof.
  intros G B A M p n rshare key known ss x x' (HG & Hg & HA). exact (@input_hides_ole G B A M p n rshare key known ss x x' HG Hg HA).
Qed.
Print Assumptions C65_input_ole.

(* the messages of the run of C52 are those, with the trits and pads its OT strings expand to; the
   sender holds one half of them, and its output is a function of the messages and of what it holds *)
Theorem C65_input_run : forall G B A p fuel c n ros rshare sos key x ys yr, params_ok G A -> prf_make G B A = Ok p ->
  ots_ok ros sos key -> prf_run_ro fuel p c n ros rshare sos key x = Ok (ys, yr) ->
  exists v tps, prf_ro_sent fuel p (rcor_of c) n ros rshare x = Ok v /\ prf_ro_sender fuel p c n sos key v = Ok ys /\
    prf_ro_ideal p (rcor_of c) n rshare tps x = Ok v /\
    tps_from fuel (blocks128 n) ros tps /\
    forall i, i < 512 -> trits_ok (blocks128 n) (fst (nth i tps (([], []), []))) /\
      if nth i key false then snd (nth i tps (([], []), [])) = stream (nth i sos d_prng) (2 * blocks128 n)
      else exists g, sample_prng fuel (nth i sos d_prng) (blocks128 n) = Ok (g, fst (nth i tps (([], []), []))).
Proof.
  intros G B A p fuel c n ros rshare sos key x ys yr (HG & Hg & HA) Hp Ho E. destruct (run_sent E) as (v & Ev & Es).
  destruct (@sent_ideal G B A p fuel (rcor_of c) n ros rshare x v HG Hg HA Hp Ev) as (tps & T1 & T2 & T3).
  exists v, tps. split; [exact Ev|]. split; [exact Es|]. split; [exact T3|]. split; [exact T1|]. intros i Hi. split; [exact (T2 i Hi)|exact (known_half Ho T1 Hi)].
Qed.
Print Assumptions C65_input_run.

(* trits and pads that differ from what the sender holds in the half it does not hold *)
Definition ex_known : list ((list N * list N) * list N) := repeat (([2], [1]), [9; 12])%N 512.
Definition ex_tps : list ((list N * list N) * list N) :=
  map (fun i => if nth i ex_k1 false then (([4], [1]), [9; 12])%N else (([2], [1]), [15; 14])%N) (seq 0 512).
Lemma ex_trits2 : trits_ok 1 ([4], [1])%N.
Proof.
  split; [reflexivity|]. split; [reflexivity|]. split; [blks|]. split; [blks|]. intros c l Hc.
  assert (c = 0) as -> by lia. cbn [fst snd nth]. unfold tvalid.
  assert (Z : N.land 4 1 = 0%N) by reflexivity. rewrite <- N.land_spec, Z. apply N.bits_0.
Qed.
Example C65_input_ex : params_ok ex_GG ex_A /\ blocks128 3 = 1 /\ tps_ok 1 ex_k1 ex_known ex_known /\ tps_ok 1 ex_k1 ex_known ex_tps /\
  nth 0 ex_known (([], []), []) <> nth 0 ex_tps (([], []), []).
Proof.
  split; [exact ex_params|]. split; [reflexivity|].
  assert (P1 : pad_ok 1 [9; 12]%N) by (split; [reflexivity|blks]). assert (P2 : pad_ok 1 [15; 14]%N) by (split; [reflexivity|blks]).
  assert (NK : forall i, i < 512 -> nth i ex_known (([], []), []) = (([2], [1]), [9; 12])%N) by (intros i Hi; unfold ex_known; rewrite (nth_indep _ _ (([2], [1]), [9; 12])%N) by (rewrite repeat_length; exact Hi); apply nth_repeat).
  split; [|split].
  - split; [reflexivity|]. intros i Hi. rewrite (NK i Hi). split; [exact ex_trits|]. split; [exact P1|]. destruct (nth i ex_k1 false); reflexivity.
  - split; [unfold ex_tps; rewrite map_length, seq_length; reflexivity|]. intros i Hi. rewrite (NK i Hi). unfold ex_tps. rewrite nth_map_seq by exact Hi. cbn [Nat.add].
    destruct (nth i ex_k1 false); (split; [cbn [fst]; first [exact ex_trits2|exact ex_trits]|]; split; [cbn [snd]; assumption|reflexivity]).
  - vm_compute. discriminate.
Qed.
