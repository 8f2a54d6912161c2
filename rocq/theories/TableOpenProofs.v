(* Opening a shared table over the socket. *)
From Verif Require Import Base Words PermModel KeyMultModel ShuffleModel ShuffleSpec RadixModel TableModel TableIOModel TableSpec TableProofs TrimProofs PackProofs BinFileProofs BitInjProofs OmJoinModel OmJoinSpec OmJoinTop TableOpenModel TableOpenSpec.

Lemma div_ceil_pos b : 0 < b -> 0 < div_ceil b 8.
Proof. intros H. unfold div_ceil. apply Nat.div_str_pos. lia. Qed.
Lemma fresh_is n a b : same_info a b -> col_ok n b -> Col (cName a) (cType a) (cBits a) (BM (cBits a) (div_ceil (cBits a) 8) (bRows (cDat b))) = b.
Proof.
  intros (E1 & E2 & E3) ((_ & EC) & _ & EB & _). destruct a as [na ta ba da], b as [nm ty bi [bb bc br]]. cbn [cName cType cBits cDat bBits bCols bRows] in *. congruence.
Qed.
Lemma concat_rows_len n c l : rows_ok n c l -> length (concat l) = n * c.
Proof. intros [<- H]. induction H as [|r l [H _] HF IH]; [reflexivity|]. cbn [concat length Nat.mul]. rewrite app_length, IH, H. reflexivity. Qed.

Section Open.
Variables (empty : outcome unit) (n : nat).
Hypothesis Hn : 0 < n.
Lemma send_ok m : 0 < length m -> sock_send empty m = Ok m.
Proof. destruct m; [cbn; lia|reflexivity]. Qed.
Lemma col_msg a b : same_info a b -> 0 < cBits a -> col_ok n b -> length (concat (bRows (cDat b))) = n * div_ceil (cBits a) 8 /\ 0 < n * div_ceil (cBits a) 8 /\ chunks (div_ceil (cBits a) 8) n (concat (bRows (cDat b))) = bRows (cDat b).
Proof.
  intros (_ & _ & E3) P ((R & EC) & EN & EB & _). rewrite EN, EC, <- EB, <- E3 in R. split; [apply (concat_rows_len R)|]. split; [apply Nat.mul_pos_pos; [exact Hn|apply div_ceil_pos, P]|apply (chunks_ok R)].
Qed.
Lemma send_cols l0 l1 : Forall2 same_info l0 l1 -> Forall (col_ok n) l1 -> Forall (fun c => 0 < cBits c) l0 -> mapM (fun c => sock_send empty (concat (bRows (cDat c)))) l1 = Ok (map (fun c => concat (bRows (cDat c))) l1).
Proof.
  induction 1 as [|a b l0 l1 S HF IH]; intros HC HP; [reflexivity|]. apply Forall_cons_iff in HC, HP. destruct HC as [C1 C2], HP as [P1 P2]. destruct (col_msg S P1 C1) as (L & L' & _). cbn [mapM map]. rewrite send_ok by lia. cbn [bind]. rewrite (IH C2 P2). reflexivity.
Qed.
Lemma recv_cols l0 l1 q : Forall2 same_info l0 l1 -> Forall (col_ok n) l1 -> Forall (fun c => 0 < cBits c) l0 ->
  open_cols empty (map (fun c => fresh_col n (info_of c)) l0) (map (fun c => concat (bRows (cDat c))) l1 ++ q) = Ok (l1, q).
Proof.
  induction 1 as [|a b l0 l1 S HF IH]; intros HC HP; [reflexivity|]. apply Forall_cons_iff in HC, HP. destruct HC as [C1 C2], HP as [P1 P2]. destruct (col_msg S P1 C1) as (L & L' & CH). cbn [map app open_cols].
  assert (FN : bm_n (cDat (fresh_col n (info_of a))) = n) by apply repeat_length. assert (FC : bCols (cDat (fresh_col n (info_of a))) = div_ceil (cBits a) 8) by reflexivity. cbv zeta. rewrite FN, FC.
  unfold sock_recv. rewrite (proj2 (Nat.eqb_neq _ _)) by lia. cbn [bind]. rewrite L, Nat.eqb_refl. cbn [negb throw_if bind fst snd]. rewrite (IH C2 P2). cbn [bind fst snd]. rewrite CH. f_equal. f_equal. f_equal. apply (fresh_is S C1).
Qed.
Lemma remote_ok t0 t1 : openable n t0 t1 -> open_remote empty t1 = Ok (map (fun c => concat (bRows (cDat c))) (tCols t1) ++ match tAct t1 with [] => [] | a => [a] end).
Proof.
  intros (_ & (_ & C1 & _) & HS & _ & HP & _). unfold open_remote. rewrite (send_cols HS C1 HP). cbn [bind]. destruct (tAct t1) as [|x l]; [rewrite app_nil_r; reflexivity|]. reflexivity.
Qed.
Lemma start_local t0 : t_ok n t0 -> NoDup (map cName (tCols t0)) -> t_info t0 = Ok (map info_of (tCols t0)) /\ t_init (t_rows t0) (map info_of (tCols t0)) = Ok (map (fun c => fresh_col n (info_of c)) (tCols t0)).
Proof.
  intros (R & C & _) ND. split; [apply (t_info_ok C)|]. rewrite R. unfold t_init. rewrite init_cols_ok; [rewrite map_map; reflexivity|rewrite map_map; exact ND|].
  intros i Hi. split; [intros []|]. apply in_map_iff in Hi. destruct Hi as (c & <- & Hc). rewrite Forall_forall in C. destruct (C c Hc) as (_ & _ & E & _ & Hs). cbn [info_of iType iBits]. rewrite E. exact Hs.
Qed.
Lemma open_ok t0 t1 q : openable n t0 t1 -> exists ms, open_remote empty t1 = Ok ms /\ open_local empty t0 (ms ++ q) = Ok (opened n t0 t1, q).
Proof.
  intros HO. exists (map (fun c => concat (bRows (cDat c))) (tCols t1) ++ match tAct t1 with [] => [] | a => [a] end). split; [apply (remote_ok HO)|].
  destruct HO as (T0 & T1 & HS & ND & HP & LA). destruct (start_local T0 ND) as [E1 E2]. unfold open_local. rewrite E1. cbn [bind]. rewrite E2. cbn [bind]. pose proof T1 as (_ & C1 & _).
  rewrite <- app_assoc, (recv_cols _ HS C1 HP). cbn [bind fst snd].
  assert (RV : t_reveal t0 t1 false = Ok (opened n t0 t1)) by (rewrite (@t_reveal_ok n t0 t1 false T0 T1 HS ND LA); [unfold opened, flags_of; destruct (map2 N.lxor (tAct t0) (tAct t1)); reflexivity|discriminate]).
  destruct t1 as [a1 l1]. cbn [tAct tCols] in *. rewrite LA. destruct a1 as [|x a1]; cbn [length app Nat.ltb Nat.leb]; [|unfold sock_recv_vec]; cbn [bind fst snd]; rewrite RV; reflexivity.
Qed.
Lemma sim_ok t0 t1 : openable n t0 t1 -> open_remote empty t1 = Ok (open_sim t0 (opened n t0 t1)).
Proof.
  intros HO. rewrite (remote_ok HO). destruct HO as (T0 & T1 & HS & ND & HP & LA). f_equal. unfold open_sim, opened. cbn [tCols tAct]. f_equal.
  - destruct T0 as (_ & C0 & _), T1 as (_ & C1 & _). clear - HS C0 C1. induction HS as [|a b l0 l1 S HF IH]; [reflexivity|]. apply Forall_cons_iff in C0, C1. destruct C0 as [A1 A2], C1 as [B1 B2]. cbn [map map2]. rewrite (IH A2 B2). f_equal. unfold with_rows. cbn [cDat bRows]. f_equal.
    destruct A1 as ((RA & EA) & NA & BA & _), B1 as ((RB & EB) & NB & BB & _). destruct S as (_ & _ & E3). rewrite NA, EA, <- BA, E3 in RA. rewrite NB, EB, <- BB in RB.
    pose proof (xor_rows_cancel RB RA) as X. unfold xor_rows in X. rewrite <- X at 1. f_equal.
    destruct RA as [LA FA], RB as [LB FB]. revert LA LB FA FB. generalize (bRows (cDat a)) as u, (bRows (cDat b)) as v. generalize n. intros k u v. revert k v. induction u as [|x u IHu]; intros k [|y v] LA LB FA FB; try reflexivity. cbn [map2]. f_equal.
    + clear. revert y. induction x as [|e x IHx]; intros [|f y]; try reflexivity. cbn [map2]. rewrite IHx, N.lxor_comm. reflexivity.
    + apply Forall_cons_iff in FA, FB. cbn [length] in LA, LB. apply (IHu (Nat.pred k)); try tauto; lia.
  - destruct (tAct t0) as [|x a]; destruct (tAct t1) as [|y b]; cbn [length] in LA; try discriminate LA; [reflexivity|]. f_equal. cbn [map2]. f_equal; [rewrite <- N.lxor_assoc, N.lxor_nilpotent; reflexivity|]. symmetry. apply xor_row_cancel_l. lia.
Qed.
Lemma shares_open t0 t1 fl cols : tCols t0 <> [] -> shares_of n t0 t1 fl cols -> NoDup (map cName cols) -> Forall (fun c => 0 < cBits c) cols -> openable n t0 t1 /\ opened n t0 t1 = Tab fl cols.
Proof.
  intros Hne (C0 & C1 & HI & L0 & L1 & EF & EC) ND HB.
  assert (TR : forall t, Forall (col_ok n) (tCols t) -> tCols t <> [] -> length (tAct t) = n -> t_ok n t).
  { intros t HC HN HA. split; [|split; [exact HC|right; exact HA]]. unfold t_rows. destruct (tCols t) as [|c l]; [contradiction|]. apply Forall_cons_iff in HC. apply HC. }
  assert (Hne1 : tCols t1 <> []) by (intros E; rewrite E in HI; inversion HI; congruence).
  assert (EN : map cName (tCols t0) = map cName cols /\ map cBits (tCols t0) = map cBits cols).
  { rewrite <- EC. clear - HI. induction HI as [|a b l l' H HF [IH IH']]; [split; reflexivity|]. cbn [map map2]. rewrite IH, IH'. split; reflexivity. }
  destruct EN as [EN EB]. split.
  - split; [apply TR; assumption|]. split; [apply TR; assumption|]. split; [exact HI|]. split; [rewrite EN; exact ND|]. split; [|congruence].
    apply Forall_forall. intros c Hc. apply (in_map cBits) in Hc. rewrite EB in Hc. apply in_map_iff in Hc. destruct Hc as (d & <- & Hd). rewrite Forall_forall in HB. apply HB, Hd.
  - unfold opened. rewrite EF. f_equal; [|exact EC]. destruct fl; [|reflexivity]. apply (f_equal (@length _)) in EF. rewrite map2_length, L0, L1, Nat.min_id in EF. cbn in EF. lia.
Qed.
End Open.
