(* Proofs that the messages of a join without validate hide the tables. *)
From Verif Require Import Base Words PermModel PermSpec PermProofs PermCorModel PermCorSpec PermCorProofs CompPermProofs ShuffleModel ShuffleSpec ExtractSpec PrivSpec PermViewModel PermPrivSpec CompPrivacy.
From Verif Require Import KeyMultModel BitInjModel RadixModel RadixSpec BitInjProofs RadixProofs RadixSortProofs SortViewModel SortPrivSpec RoundPrivacy RoundHides GenPermViewModel GenPermPrivSpec GenPermPrivacy PropsSortPriv.
From Verif Require Import TableModel TableSpec TrimProofs TableProofs TableOpsSpec TableIOModel OmJoinModel OmJoinSpec PackProofs OmJoinProofs OmJoinTop JoinViewModel JoinPrivSpec JoinPrivacy.

(* ---------- the sort returns shares of a permutation ---------- *)
Lemma loop_psh L n cap c k0 k1 : 2 <= L <= 8 -> 9 <= cap -> (N.of_nat cap < 2 ^ 64)%N -> 0 < n -> (N.of_nat n <= 2 ^ 32)%N -> key_fits n c k0 -> key_fits n c k1 ->
  forall rds kIdx d0 d1, kIdx + (length rds - 1) * L < 8 * c \/ rds = [] -> Forall (pass_fits L n cap) rds -> psh n d0 d1 ->
  exists t, gen_perm_loop_v L n n c k0 k1 kIdx rds d0 d1 = Ok t /\ psh n (fst (snd t)) (snd (snd t)).
Proof.
  intros HL Hcap Hcap' Hn Hn32 [B0 L0] [B1 L1]. induction rds as [|x rds IH]; intros kIdx d0 d1 Hk HR HD.
  - eexists. split; [reflexivity|]. exact HD.
  - destruct Hk as [Hk|Hk]; [|discriminate]. cbn [length] in Hk. apply Forall_cons_iff in HR. destruct HR as [HX HR].
    destruct (@pass1 L n cap HL Hcap Hcap' Hn Hn32 (dig L n c k0 kIdx) (dig L n c k0 kIdx) (dig L n c k1 kIdx) d0 d0 d1 x HX HD HD (dig_len L n c k0 kIdx) (dig_len L n c k0 kIdx) (dig_len L n c k1 kIdx)
      ltac:(eapply dig_bytes; eassumption) ltac:(eapply dig_bytes; eassumption) ltac:(eapply dig_bytes; eassumption)) as (tr & tr' & E & _ & _ & _ & _ & _ & HY & _).
    destruct (IH (kIdx + L) (fst (stY tr)) (snd (stY tr))) as (t & G & HP); [|exact HR|exact HY|].
    { destruct rds as [|y rds]; [right; reflexivity|left]. cbn [length] in *. lia. }
    cbn [gen_perm_loop_v]. rewrite !extract_ok by (assumption || lia). fold (dig L n c k0 kIdx). fold (dig L n c k1 kIdx). cbn [bind]. rewrite E. cbn [bind]. rewrite G. cbn [bind].
    eexists. split; [reflexivity|]. exact HP.
Qed.
Lemma sort_psh L bits n cap c k0 k1 R : sort_ok L bits n cap c -> key_fits n c k0 -> key_fits n c k1 -> length (snd R) = div_ceil bits L - 1 -> sort_fits L n cap R ->
  exists t, gen_perm_v L n bits bits n c k0 k1 (fst R) (snd R) = Ok t /\ psh n (fst (snd (snd t))) (snd (snd (snd t))).
Proof.
  intros (Hcap & Hcap' & HL & Hb & Hn & Hn32) K0 K1 Hlen [RF RP]. destruct R as [rd rds]. cbn [fst snd] in *. assert (HL8 : 0 < L <= 8) by lia.
  destruct (first_round HL8 Hn32 (dig_keys L n c k0 0) (dig_keys L n c k1 0) RF) as (u & EU & PU).
  assert (LP : exists t, gen_perm_loop_v L n n c k0 k1 L rds (fst (rvOut u)) (snd (rvOut u)) = Ok t /\ psh n (fst (snd t)) (snd (snd t))).
  { destruct HL as [HL|[-> ->]].
    - apply (@loop_psh L n cap c); try assumption. apply (rounds_bound (proj1 HL8) Hb Hlen).
    - destruct rds as [|x rds]; [|discriminate Hlen]. eexists. split; [reflexivity|exact PU]. }
  destruct LP as (t & G & HP). destruct (@ceil_bound bits L ltac:(lia)) as [HC1 _]. assert (HC0 : (div_ceil bits L =? 0) = false) by (apply Nat.eqb_neq; nia).
  exists (u, t). split; [|exact HP].
  unfold gen_perm_v. rewrite !Nat.eqb_refl. cbn [negb throw_if bind]. replace (L =? 0) with false by lia. cbv zeta. destruct K0, K1. rewrite !extract_ok by (assumption || lia).
  fold (dig L n c k0 0). fold (dig L n c k1 0). cbn [bind]. rewrite HC0, EU. cbn [bind]. rewrite Hlen, Nat.eqb_refl. cbn [negb]. rewrite G. reflexivity.
Qed.

(* ---------- getOutput ---------- *)
Lemma skipn_lens n m c d : lens (n + m) c d -> Forall (fun r => length r = c) (skipn n d).
Proof. intros [_ F]. rewrite Forall_forall in *. intros x Hx. apply F. rewrite <- (firstn_skipn n d). apply in_or_app. right. exact Hx. Qed.
Lemma out_cols_total nL nR c d : lens (nL + nR) c d -> forall sel off, off + left_bits sel / 8 <= c -> exists l, out_cols nL d off sel = Ok (l, off + left_bits sel / 8).
Proof.
  intros HL. pose proof (skipn_lens HL) as F. rewrite Forall_forall in F. induction sel as [|s sel IH]; intros off Ho; cbn [out_cols left_bits] in *.
  - exists []. rewrite Nat.div_0_l by lia. rewrite Nat.add_0_r. reflexivity.
  - pose proof (left_bits_mod sel) as LM. destruct (oLeft s).
    + assert (E8 : (div_ceil (cBits (oCol s)) 8 * 8 + left_bits sel) / 8 = div_ceil (cBits (oCol s)) 8 + left_bits sel / 8) by (rewrite Nat.add_comm, Nat.div_add by lia; lia).
      rewrite E8 in *. rewrite (@mapM_ok _ _ _ (fun r => slice r off (div_ceil (cBits (oCol s)) 8))) by (intros r Hr; apply readN_ok; rewrite (F r Hr); lia). cbn [bind].
      destruct (IH (off + div_ceil (cBits (oCol s)) 8) ltac:(lia)) as (l & E). rewrite E. cbn [bind fst snd]. eexists. do 2 f_equal. lia.
    + cbn [Nat.add] in *. destruct (IH off Ho) as (l & E). rewrite E. cbn [bind fst snd]. eexists. reflexivity.
Qed.
Lemma om_output_total nL nR sel d : lens (nL + nR) (left_bits sel / 8 + 1) d -> exists t, om_output nL (left_bits sel / 8 + 1) d sel = Ok t.
Proof.
  intros HL. pose proof (skipn_lens HL) as F. rewrite Forall_forall in F. unfold om_output. destruct (@out_cols_total nL nR _ d HL sel 0 ltac:(lia)) as (l & E). rewrite E. cbn [bind fst snd Nat.add].
  replace (left_bits sel / 8 + 1 - 1) with (left_bits sel / 8) by lia. rewrite Nat.eqb_refl. cbn [negb].
  rewrite (@mapM_ok _ _ _ (fun r => nth (left_bits sel / 8) r 0%N)) by (intros r Hr; apply get_ok; rewrite (F r Hr); lia). cbn [bind]. eexists. reflexivity.
Qed.

Lemma validate_good n c c0 c1 : comp_rel n c c0 c1 -> comp_validate c0 c1 = Ok tt.
Proof.
  intros (_ & _ & A & B). unfold comp_validate.
  assert (V : forall s r, cor_rel n c s r -> cor_validate s (dat (crA r)) (dat (crB r)) = Ok tt).
  { intros s r H. pose proof H as (Hp & RD & CD & LD & RA & CA & LA & RB & CB & LB & HO & _). apply (proj1 (validate_iff (is_perm_length Hp) RD CD LD RA CA LA RB CB LB HO) H). }
  rewrite (V _ _ B). cbn [bind]. apply V, A.
Qed.

Lemma perm_bytes_enough sel kb ks : ks <= 8 * div_ceil kb 8 -> 4 + div_ceil (om_data_bits sel kb) 8 + (left_bits sel / 8 + 1) <= om_perm_bytes sel kb ks.
Proof.
  intros H. unfold om_perm_bytes, om_data_bits. pose proof (left_bits_mod sel) as LM. set (C := div_ceil kb 8) in *. clearbody C. set (lb := left_bits sel) in *. clearbody lb.
  unfold div_ceil. lia.
Qed.
Lemma key_bits_le8 kb a b : key_bits kb a b <= 8 * div_ceil kb 8.
Proof. unfold key_bits, div_ceil. destruct (Nat.leb_spec kb (comp_size a b)); lia. Qed.

Definition dsort : round_tr * (list step_tr * (list N * list N)) := (dtr, ([], ([], []))).

Section Join.
Variables (L capS cap nL nR kb : nat) (enc : list N -> list N).
Let n := nL + nR.
Let bits := key_bits kb nL nR.
Let c := div_ceil bits 8.
Hypothesis Henc : comp_size nL nR < kb -> linear_enc (div_ceil kb 8) (div_ceil (comp_size nL nR) 8) enc.

Definition jkeys (q : om_query) : list (list N) := map (seen enc kb nL nR) (bRows (cDat (qLeft q)) ++ bRows (cDat (qRight q))).
Definition jrows (role : bool) (q : om_query) : list (list N) := map (om_party_row role nL (qSel q) (BM bits c (jkeys q)) (div_ceil kb 8 - c)) (seq 0 n).

Lemma jkeys_ok q : query_ok nL nR kb q -> TableSpec.rows_ok n c (jkeys q).
Proof.
  intros (CL0 & CR0 & BL0 & BR0 & F0). destruct (col_rows CL0) as [RL0 _], (col_rows CR0) as [RR0 _]. rewrite ?BL0, ?BR0 in *. pose proof (rows_app RL0 RR0) as A0.
  unfold jkeys, seen, c, bits, key_bits. destruct (Nat.leb_spec kb (comp_size nL nR)) as [H|H]; [rewrite map_id; exact A0|]. apply (map_enc_rows (Henc H) A0).
Qed.
Lemma jkeys_fit q : query_ok nL nR kb q -> key_fits n c (concat (jkeys q)).
Proof. intros H. split; [apply (rows_concat_bytes (jkeys_ok H))|apply (rows_concat_length (jkeys_ok H))]. Qed.
Lemma jrows_ok role q flag : query_ok nL nR kb q -> left_bits (qSel q) / 8 = flag -> TableSpec.rows_ok n (flag + 1 + div_ceil kb 8) (jrows role q).
Proof.
  intros HQ Ew. pose proof (jkeys_ok HQ) as Hk. destruct HQ as (_ & _ & _ & _ & Fs). apply rows_map. intros i Hi. unfold om_party_row. cbn [bRows]. destruct (lpart_len i Fs) as [Ll Bl]. destruct (rows_nth Hk Hi) as [Lk Bk].
  pose proof (key_bits_le kb nL nR) as Hc. fold bits in Hc. fold c in Hc. split.
  - rewrite !app_length, repeat_length, Ll, Lk, Ew. cbn [length]. lia.
  - apply bytes_app; [exact Bl|]. apply bytes_app; [destruct (role && _); repeat constructor|]. apply bytes_app; [exact Bk|apply bytes_zeros].
Qed.

Definition jflag (q : om_query) : nat := left_bits (qSel q) / 8.
Definition jw (q : om_query) : nat := jflag q + 1 + div_ceil kb 8.
Definition jsort (q0 q1 : om_query) (R : radix_round * list ((comp * comp) * radix_round)) := gen_perm_v L n bits bits n c (concat (jkeys q0)) (concat (jkeys q1)) (fst R) (snd R).

Lemma ceil_passes k : 0 < L -> 0 < bits -> S k * L < bits + L -> bits <= S k * L -> k = div_ceil bits L - 1.
Proof.
  intros HL HB H1 H2. destruct (@ceil_bound bits L HL) as [C1 C2]. specialize (C2 HB). set (d := div_ceil bits L) in *. clearbody d. nia.
Qed.

Lemma sizes_facts q : join_sizes L capS cap nL nR kb q ->
  sort_ok L bits n capS c /\ 2 <= n /\ 0 < bits /\ jflag q + 1 + div_ceil bits 8 <= jw q /\ 4 + jw q + (jflag q + 1) <= cap /\ (N.of_nat cap < 2 ^ 64)%N /\ (N.of_nat n <= 2 ^ 32)%N /\ 0 < L.
Proof.
  intros (HL & HR & Hkb & Hn32 & Hdig & Hc9 & Hc64 & Hcap & Hcap'). assert (Hb : 0 < bits) by (apply key_bits_pos, Hkb).
  assert (Hbc : 0 < bits <= 8 * c) by (split; [exact Hb|unfold c, div_ceil; lia]).
  assert (Hdig' : 2 <= L <= 8 \/ L = 1 /\ bits = 1).
  { destruct Hdig as [H|[H ->]]; [left; exact H|right; split; [exact H|]]. unfold bits, key_bits. pose proof (comp_size_pos nL nR). destruct (Nat.leb_spec 1 (comp_size nL nR)); lia. }
  pose proof (key_bits_le kb nL nR) as Hck. fold bits in Hck.
  split; [split; [exact Hc9|split; [exact Hc64|split; [exact Hdig'|split; [exact Hbc|split; [unfold n; lia|exact Hn32]]]]]|].
  split; [unfold n; lia|]. split; [exact Hb|]. split; [unfold jw; lia|]. split; [|split; [exact Hcap'|split; [exact Hn32|lia]]].
  pose proof (@perm_bytes_enough (qSel q) kb bits (key_bits_le8 kb nL nR)) as H. fold bits in Hcap.
  assert (EC : div_ceil (om_data_bits (qSel q) kb) 8 = jw q).
  { pose proof (left_bits_mod (qSel q)) as LM. unfold jw, jflag, om_data_bits. set (C := div_ceil kb 8). clearbody C. unfold div_ceil. lia. }
  rewrite EC in H. unfold jflag in *. lia.
Qed.
Lemma data_cols q : div_ceil (om_data_bits (qSel q) kb) 8 = jw q.
Proof. pose proof (left_bits_mod (qSel q)) as LM. unfold jw, jflag, om_data_bits. set (C := div_ceil kb 8). clearbody C. unfold div_ceil. lia. Qed.

(* the join is the sort, the rest, the tables *)
Lemma join_eq q0 q1 rd t r : join_sizes L capS cap nL nR kb q0 -> queries_ok nL nR kb q0 q1 -> comps_ok n cap (jrPerm rd) ->
  jsort q0 q1 (jrSort rd) = Ok t -> join_chain n (jw q0) bits (jflag q0) (fst (snd (snd t))) (snd (snd (snd t))) (jrows false q0) (jrows true q1) (jrPerm rd) (jrMasks rd) = Ok r ->
  lens n (jflag q0 + 1) (fst (ctW r)) -> lens n (jflag q0 + 1) (snd (ctW r)) ->
  exists t0 t1, om_output nL (jflag q0 + 1) (fst (ctW r)) (qSel q0) = Ok t0 /\ om_output nL (jflag q0 + 1) (snd (ctW r)) (qSel q1) = Ok t1 /\
    om_join_v L enc q0 q1 rd = Ok (JTr t (comp_validate_msgs (fst (jrPerm rd)) (snd (jrPerm rd))) r (t0, t1)).
Proof.
  intros HS (Q0 & Q1 & Hs) [HC _] ES EC W0 W1. destruct HS as (HL & HR & Hkb & _). pose proof (load_keys_ok enc HL HR Q0) as E0. pose proof (load_keys_ok enc HL HR Q1) as E1. fold (jkeys q0) in E0. fold (jkeys q1) in E1.
  fold bits in E0, E1. fold c in E0, E1. pose proof (jkeys_ok Q0) as K0. pose proof (jkeys_ok Q1) as K1. destruct (same_left_offs Hs) as [Eo Elb].
  pose proof Q0 as (CL0 & _ & BL0 & _ & F0). pose proof Q1 as (_ & _ & _ & _ & F1).
  destruct (@om_output_total nL nR (qSel q0) (fst (ctW r)) W0) as (t0 & T0).
  destruct (@om_output_total nL nR (qSel q1) (snd (ctW r))) as (t1 & T1). { rewrite <- Elb. exact W1. }
  exists t0, t1. rewrite <- Elb in T1. split; [exact T0|]. split; [exact T1|]. unfold om_join_v. rewrite E0, E1. cbn [bind bBits bCols bRows].
  assert (EN : bm_n (BM bits c (jkeys q0)) = n) by apply K0. assert (ENL : bm_n (cDat (qLeft q0)) = nL) by apply CL0. rewrite EN, ENL, BL0. unfold jsort in ES. rewrite ES. cbn [bind].
  pose proof (key_bits_le kb nL nR) as Hck. fold bits in Hck. fold c in Hck.
  rewrite (@om_concat_ok false nL nR n (qSel q0) (BM bits c (jkeys q0)) c bits kb) by (try assumption; try reflexivity; unfold n; lia). cbn [bind].
  assert (E2 : om_concat true nL (qSel q1) (BM bits c (jkeys q1)) (om_offsets (qSel q0) bits) (om_data_bits (qSel q0) kb) = Ok (jrows true q1)).
  { unfold om_offsets, om_data_bits. rewrite Eo, Elb. apply (@om_concat_ok true nL nR n (qSel q1) (BM bits c (jkeys q1)) c bits kb); try assumption; try reflexivity; try (unfold n; lia). apply K1. }
  rewrite E2. cbn [bind]. fold (jrows false q0). rewrite (validate_good HC). cbn [bind]. rewrite data_cols. fold (jflag q0). rewrite EC. cbn [bind]. unfold jflag. rewrite T0, T1. reflexivity.
Qed.

(* party 0 with other tables *)
Definition Jmv1 (q0 q0' q1 : om_query) (rd : join_rand) : join_rand :=
  let R' := Gmv1 L n capS c (concat (jkeys q0)) (concat (jkeys q0')) (concat (jkeys q1)) (jrSort rd) in
  let y := snd (snd (okd dsort (jsort q0 q1 (jrSort rd)))) in
  let y' := snd (snd (okd dsort (jsort q0' q1 R'))) in
  let V := Zv n (fst y) (snd y) (jrows false q0) (jrows true q1) in
  let V' := Zv n (fst y') (snd y) (jrows false q0') (jrows true q1) in
  let m' := mvm n (jw q0) bits (jflag q0) V V' (jrMasks rd) in
  JR R' (mv0 n cap (snd (jrPerm rd)) (histJ n (jw q0) bits (jflag q0) (fst y) (snd y) (jrows false q0) (jrows true q1) (jrMasks rd))
           (histJ n (jw q0) bits (jflag q0) (fst y') (snd y) (jrows false q0') (jrows true q1) m') (fst (jrPerm rd)), snd (jrPerm rd)) m'.

Lemma same_width q0 q0' q1 : queries_ok nL nR kb q0 q1 -> queries_ok nL nR kb q0' q1 -> jflag q0' = jflag q0 /\ jw q0' = jw q0.
Proof.
  intros (_ & _ & S0) (_ & _ & S1). destruct (same_left_offs S0) as [_ E0], (same_left_offs S1) as [_ E1]. unfold jw, jflag. rewrite E0, E1. split; reflexivity.
Qed.
Lemma same_sizes q0 q0' q1 : queries_ok nL nR kb q0 q1 -> queries_ok nL nR kb q0' q1 -> join_sizes L capS cap nL nR kb q0 -> join_sizes L capS cap nL nR kb q0'.
Proof.
  intros (_ & _ & S0) (_ & _ & S1). destruct (same_left_offs S0) as [_ E0], (same_left_offs S1) as [_ E1]. unfold join_sizes, om_perm_bytes, om_data_bits. rewrite E0, E1. exact (fun x => x).
Qed.

Lemma join1 q0 q0' q1 rd : join_sizes L capS cap nL nR kb q0 -> queries_ok nL nR kb q0 q1 -> queries_ok nL nR kb q0' q1 -> join_fits L bits n capS cap (jw q0) rd ->
  let rd' := Jmv1 q0 q0' q1 rd in
  join_fits L bits n capS cap (jw q0) rd' /\ same_join1 rd rd' /\ Jmv1 q0' q0 q1 rd' = rd /\
  (exists v, join_view1 false L enc q0 q1 rd = Ok v) /\ join_view1 false L enc q0' q1 rd' = join_view1 false L enc q0 q1 rd.
Proof.
  intros HS HQ HQ' (SF & P1 & P2 & CO & B0 & B1 & Hm) rd'. destruct (sizes_facts HS) as (SO & Hn2 & Hb & Hww & Hcp & Hc64 & Hn32 & HL0).
  destruct (same_width HQ HQ') as [Ef Ew]. pose proof (same_sizes HQ HQ' HS) as HS'. pose proof HQ as (Q0 & Q1 & _). pose proof HQ' as (Q0' & _ & _). pose proof HQ as (_ & _ & Hsel). pose proof (proj2 (same_left_offs Hsel)) as Elb.
  assert (LR := ceil_passes HL0 Hb P1 P2).
  destruct (sort1 SO (jkeys_fit Q0) (jkeys_fit Q0') (jkeys_fit Q1) LR SF) as (t & t' & G & G' & SV & SF' & SS & SI).
  set (R' := Gmv1 L n capS c (concat (jkeys q0)) (concat (jkeys q0')) (concat (jkeys q1)) (jrSort rd)) in *.
  assert (LR' : length (snd R') = length (snd (jrSort rd))) by apply (same_sort1_len SS).
  destruct (sort_psh SO (jkeys_fit Q0) (jkeys_fit Q1) LR SF) as (t2 & G2 & PS). rewrite G in G2. apply Ok_inj' in G2. subst t2.
  destruct (@sort_psh L bits n capS c (concat (jkeys q0')) (concat (jkeys q1)) R' SO (jkeys_fit Q0') (jkeys_fit Q1) ltac:(rewrite LR'; exact LR) SF') as (t2 & G2 & PS'). rewrite G' in G2. apply Ok_inj' in G2. subst t2.
  unfold sort_view1 in SV. rewrite G, G' in SV. cbn [bind] in SV. apply Ok_inj' in SV.
  assert (EY : snd (snd (snd t')) = snd (snd (snd t))) by exact (f_equal snd SV). rewrite EY in PS'.
  assert (R0 := @jrows_ok false q0 (jflag q0) Q0 eq_refl). fold (jw q0) in R0. assert (R0' := @jrows_ok false q0' (jflag q0) Q0' Ef). fold (jw q0) in R0'.
  assert (R1 := @jrows_ok true q1 (jflag q0) Q1 ltac:(unfold jflag; rewrite Elb; reflexivity)). fold (jw q0) in R1.
  destruct (jrPerm rd) as [c0 c1] eqn:EP. cbn [fst snd] in *.
  destruct (@chain1 n (jw q0) bits (jflag q0) cap Hn2 Hn32 Hb Hww Hcp Hc64 _ _ _ _ _ _ c0 c1 (jrMasks rd) CO B0 B1 PS PS' R0 R0' R1 Hm) as (r & r' & E & E' & VC & W0 & W1 & W0' & W1' & CO' & B0' & Hm' & MI & CI).
  set (V := Zv n (fst (snd (snd t))) (snd (snd (snd t))) (jrows false q0) (jrows true q1)) in *. set (V' := Zv n (fst (snd (snd t'))) (snd (snd (snd t))) (jrows false q0') (jrows true q1)) in *.
  set (m' := mvm n (jw q0) bits (jflag q0) V V' (jrMasks rd)) in *.
  match type of CO' with comps_ok _ _ (?x, _) => set (c0' := x) in * end.
  assert (ER : rd' = JR R' (c0', c1) m').
  { unfold rd', Jmv1, jsort. cbv zeta. rewrite G, EP. fold R'. cbn [fst snd]. rewrite G'. reflexivity. }
  rewrite ER. split; [|split; [|split; [|split]]].
  - unfold join_fits. cbn [jrSort jrPerm jrMasks fst snd]. rewrite LR'. split; [exact SF'|]. split; [exact P1|]. split; [exact P2|]. split; [exact CO'|]. split; [exact B0'|]. split; [exact B1|exact Hm'].
  - split; [exact SS|]. cbn [jrPerm snd]. rewrite EP. reflexivity.
  - unfold Jmv1, jsort. cbv zeta. cbn [jrSort jrPerm jrMasks fst snd]. rewrite SI, G', G. cbn [okd fst snd]. rewrite Ef, Ew, EY. fold V. fold V'. rewrite MI. unfold c0' in CI |- *. rewrite CI.
    destruct rd as [a b d]. cbn [jrSort jrPerm jrMasks] in *. rewrite EP. reflexivity.
  - destruct (@join_eq q0 q1 rd t r HS HQ) as (t0 & t1 & _ & _ & EJ); try assumption; [rewrite EP; exact CO|rewrite EP; exact E|]. unfold join_view1. rewrite EJ. cbn [bind]. eexists. reflexivity.
  - destruct (@join_eq q0 q1 rd t r HS HQ) as (t0 & t1 & O0 & O1 & EJ); try assumption; [rewrite EP; exact CO|rewrite EP; exact E|].
    destruct (@join_eq q0' q1 (JR R' (c0', c1) m') t' r' HS' HQ') as (t0' & t1' & O0' & O1' & EJ'); cbn [jrSort jrPerm jrMasks]; rewrite ?Ef, ?Ew, ?EY; try assumption.
    unfold join_view1. rewrite EJ, EJ'. cbn [bind jtSort jtChain jtOut snd]. rewrite VC.
    assert (EW : snd (ctW r') = snd (ctW r)) by exact (f_equal snd VC). rewrite EW, Ef, O1 in O1'. apply Ok_inj' in O1'. subst t1'.
    assert (ESS : sort_see1 t' = sort_see1 t) by (unfold sort_see1; exact SV). rewrite ESS. reflexivity.
Qed.

(* party 1 with other tables *)
Definition Jmv0 (q0 q1 q1' : om_query) (rd : join_rand) : join_rand :=
  let R' := Gmv0 L n capS c (concat (jkeys q0)) (concat (jkeys q1)) (concat (jkeys q1')) (jrSort rd) in
  let y := snd (snd (okd dsort (jsort q0 q1 (jrSort rd)))) in
  let y' := snd (snd (okd dsort (jsort q0 q1' R'))) in
  JR R' (fst (jrPerm rd), mv1 n cap (fst (jrPerm rd)) (histJ n (jw q0) bits (jflag q0) (fst y) (snd y) (jrows false q0) (jrows true q1) (jrMasks rd))
           (histJ n (jw q0) bits (jflag q0) (fst y) (snd y') (jrows false q0) (jrows true q1') (jrMasks rd)) (snd (jrPerm rd))) (jrMasks rd).

Lemma join0 q0 q1 q1' rd : join_sizes L capS cap nL nR kb q0 -> queries_ok nL nR kb q0 q1 -> queries_ok nL nR kb q0 q1' -> join_fits L bits n capS cap (jw q0) rd ->
  let rd' := Jmv0 q0 q1 q1' rd in
  join_fits L bits n capS cap (jw q0) rd' /\ same_join0 rd rd' /\ Jmv0 q0 q1' q1 rd' = rd /\
  join_view0 false L enc q0 q1' rd' = join_view0 false L enc q0 q1 rd.
Proof.
  intros HS HQ HQ' (SF & P1 & P2 & CO & B0 & B1 & Hm) rd'. destruct (sizes_facts HS) as (SO & Hn2 & Hb & Hww & Hcp & Hc64 & Hn32 & HL0).
  pose proof HQ as (Q0 & Q1 & Hsel). pose proof HQ' as (_ & Q1' & Hsel'). pose proof (proj2 (same_left_offs Hsel)) as Elb. pose proof (proj2 (same_left_offs Hsel')) as Elb'.
  assert (LR := ceil_passes HL0 Hb P1 P2).
  destruct (sort0 SO (jkeys_fit Q0) (jkeys_fit Q1) (jkeys_fit Q1') LR SF) as (t & t' & G & G' & SV & SF' & SS & SI).
  set (R' := Gmv0 L n capS c (concat (jkeys q0)) (concat (jkeys q1)) (concat (jkeys q1')) (jrSort rd)) in *.
  assert (LR' : length (snd R') = length (snd (jrSort rd))) by apply (same_sort0_len SS).
  destruct (sort_psh SO (jkeys_fit Q0) (jkeys_fit Q1) LR SF) as (t2 & G2 & PS). rewrite G in G2. apply Ok_inj' in G2. subst t2.
  destruct (@sort_psh L bits n capS c (concat (jkeys q0)) (concat (jkeys q1')) R' SO (jkeys_fit Q0) (jkeys_fit Q1') ltac:(rewrite LR'; exact LR) SF') as (t2 & G2 & PS'). rewrite G' in G2. apply Ok_inj' in G2. subst t2.
  unfold sort_view0 in SV. rewrite G, G' in SV. cbn [bind] in SV. apply Ok_inj' in SV.
  assert (EY : fst (snd (snd t')) = fst (snd (snd t))) by exact (f_equal snd SV). rewrite EY in PS'.
  assert (R0 := @jrows_ok false q0 (jflag q0) Q0 eq_refl). fold (jw q0) in R0.
  assert (R1 := @jrows_ok true q1 (jflag q0) Q1 ltac:(unfold jflag; rewrite Elb; reflexivity)). fold (jw q0) in R1.
  assert (R1' := @jrows_ok true q1' (jflag q0) Q1' ltac:(unfold jflag; rewrite Elb'; reflexivity)). fold (jw q0) in R1'.
  destruct (jrPerm rd) as [c0 c1] eqn:EP. cbn [fst snd] in *.
  destruct (@chain0 n (jw q0) bits (jflag q0) cap Hn2 Hn32 Hb Hww Hcp Hc64 _ _ _ _ _ _ c0 c1 (jrMasks rd) CO B0 B1 PS PS' R0 R1 R1' Hm) as (r & r' & E & E' & VC & W0 & W1 & W0' & W1' & CO' & B1' & CI).
  match type of CO' with comps_ok _ _ (_, ?x) => set (c1' := x) in * end.
  assert (ER : rd' = JR R' (c0, c1') (jrMasks rd)).
  { unfold rd', Jmv0, jsort. cbv zeta. rewrite G, EP. fold R'. cbn [fst snd]. rewrite G'. reflexivity. }
  rewrite ER. split; [|split; [|split]].
  - unfold join_fits. cbn [jrSort jrPerm jrMasks fst snd]. rewrite LR'. split; [exact SF'|]. split; [exact P1|]. split; [exact P2|]. split; [exact CO'|]. split; [exact B0|]. split; [exact B1'|exact Hm].
  - split; [exact SS|]. cbn [jrPerm jrMasks fst]. rewrite EP. split; reflexivity.
  - unfold Jmv0, jsort. cbv zeta. cbn [jrSort jrPerm jrMasks fst snd]. rewrite SI, G', G. cbn [okd fst snd]. rewrite EY. unfold c1' in CI |- *. rewrite CI.
    destruct rd as [a b d]. cbn [jrSort jrPerm jrMasks] in *. rewrite EP. reflexivity.
  - destruct (@join_eq q0 q1 rd t r HS HQ) as (t0 & t1 & O0 & O1 & EJ); try assumption; [rewrite EP; exact CO|rewrite EP; exact E|].
    destruct (@join_eq q0 q1' (JR R' (c0, c1') (jrMasks rd)) t' r' HS HQ') as (t0' & t1' & O0' & O1' & EJ'); cbn [jrSort jrPerm jrMasks]; rewrite ?EY; try assumption.
    unfold join_view0. rewrite EJ, EJ'. cbn [bind jtSort jtChain jtOut fst]. rewrite VC.
    assert (EW : fst (ctW r') = fst (ctW r)) by exact (f_equal snd VC). rewrite EW, O0 in O0'. apply Ok_inj' in O0'. subst t0'.
    assert (ESS : sort_see0 t' = sort_see0 t) by (unfold sort_see0; exact SV). rewrite ESS. reflexivity.
Qed.
End Join.
