(* C76: opening a shared table over the socket. *)
From Verif Require Import Base Words PermModel KeyMultModel ShuffleModel ShuffleSpec RadixModel TableModel TableIOModel TableSpec TableProofs TrimProofs PackProofs BinFileProofs BitInjProofs OmJoinModel OmJoinSpec TableOpenModel TableOpenSpec TableOpenProofs.

(* The one who receives gets the table, all rows and their flags, and takes exactly the messages sent, whatever comes after. *)
Theorem C76_open empty n t0 t1 q : 0 < n -> openable n t0 t1 -> exists ms, open_remote empty t1 = Ok ms /\ open_local empty t0 (ms ++ q) = Ok (opened n t0 t1, q).
Proof. intros Hn. apply (open_ok empty Hn). Qed.
Print Assumptions C76_open.

(* What is received is a function of one's own share and of the table: opening shows no more than the table. *)
Theorem C76_view empty n t0 t1 : 0 < n -> openable n t0 t1 -> open_remote empty t1 = Ok (open_sim t0 (opened n t0 t1)).
Proof. intros Hn. apply (sim_ok empty Hn). Qed.
Print Assumptions C76_view.

(* the columns match, the flags need not *)
Definition openable_cols (n : nat) (t0 t1 : table) : Prop :=
  t_ok n t0 /\ t_ok n t1 /\ Forall2 same_info (tCols t0) (tCols t1) /\ NoDup (map cName (tCols t0)) /\ Forall (fun c => 0 < cBits c) (tCols t0).

(* Only the receiver has flags: it waits for a message that is not sent. *)
Theorem C76_no_flags_hangs empty n t0 t1 : 0 < n -> openable_cols n t0 t1 -> tAct t0 <> [] -> tAct t1 = [] ->
  exists ms, open_remote empty t1 = Ok ms /\ open_local empty t0 ms = Hang.
Proof.
  intros Hn (T0 & T1 & HS & ND & HP) H0 H1. exists (map (fun c => concat (bRows (cDat c))) (tCols t1)). pose proof T1 as (_ & C1 & _). split.
  - unfold open_remote. rewrite (send_cols empty Hn HS C1 HP), H1. reflexivity.
  - destruct (start_local T0 ND) as [E1 E2]. unfold open_local. rewrite E1. cbn [bind]. rewrite E2. cbn [bind]. rewrite <- (app_nil_r (map _ (tCols t1))), (recv_cols empty Hn _ HS C1 HP). cbn [bind fst snd]. destruct (tAct t0); [contradiction|]. reflexivity.
Qed.
Print Assumptions C76_no_flags_hangs.

(* Only the sender has flags: the receiver takes every row for an active one, and the flags stay in the socket, where the
   next protocol finds them. *)
Theorem C76_flags_ignored empty n t0 t1 q : 0 < n -> openable_cols n t0 t1 -> tAct t0 = [] -> tAct t1 <> [] ->
  exists ms, open_remote empty t1 = Ok ms /\ open_local empty t0 (ms ++ q) = Ok (Tab (repeat 1%N n) (tCols (opened n t0 t1)), tAct t1 :: q).
Proof.
  intros Hn (T0 & T1 & HS & ND & HP) H0 H1. exists (map (fun c => concat (bRows (cDat c))) (tCols t1) ++ [tAct t1]). pose proof T1 as (R1 & C1 & _). split.
  - unfold open_remote. rewrite (send_cols empty Hn HS C1 HP). cbn [bind]. destruct (tAct t1); [contradiction|]. reflexivity.
  - destruct (start_local T0 ND) as [E1 E2]. unfold open_local. rewrite E1. cbn [bind]. rewrite E2. cbn [bind]. rewrite <- app_assoc, (recv_cols empty Hn _ HS C1 HP). cbn [bind fst snd]. rewrite H0. cbn [length Nat.ltb Nat.leb bind fst snd app].
    rewrite (@t_reveal_ok n t0 (Tab [] (tCols t1)) false T0); [|split; [exact R1|]; split; [exact C1|left; reflexivity]|exact HS|exact ND|rewrite H0; reflexivity|discriminate]. cbn [tAct tCols bind]. rewrite H0. reflexivity.
Qed.
Print Assumptions C76_flags_ignored.

(* Different numbers of rows: an exception, and no table. *)
Theorem C76_rows_differ empty n n' t0 t1 q : 0 < n -> 0 < n' -> n <> n' -> t_ok n t0 -> t_ok n' t1 -> tCols t0 <> [] -> Forall2 same_info (tCols t0) (tCols t1) -> NoDup (map cName (tCols t0)) -> Forall (fun c => 0 < cBits c) (tCols t0) ->
  exists ms, open_remote empty t1 = Ok ms /\ open_local empty t0 (ms ++ q) = Throw.
Proof.
  intros Hn Hn' NE T0 T1 HC HS ND HP. pose proof T1 as (R1 & C1 & _). exists (map (fun c => concat (bRows (cDat c))) (tCols t1) ++ match tAct t1 with [] => [] | a => [a] end). split.
  - unfold open_remote. rewrite (send_cols empty Hn' HS C1 HP). cbn [bind]. destruct (tAct t1); [rewrite app_nil_r; reflexivity|]. reflexivity.
  - destruct (start_local T0 ND) as [E1 E2]. unfold open_local. rewrite E1. cbn [bind]. rewrite E2. cbn [bind]. destruct HS as [|a b l0 l1 S HF]; [contradiction|]. apply Forall_cons_iff in C1, HP. destruct C1 as [C1 _], HP as [P1 _].
    destruct (col_msg Hn' S P1 C1) as (L & L' & _). cbn [map app open_cols].
    assert (FN : bm_n (cDat (fresh_col n (info_of a))) = n) by apply repeat_length. assert (FC : bCols (cDat (fresh_col n (info_of a))) = div_ceil (cBits a) 8) by reflexivity. cbv zeta. rewrite FN, FC.
    assert (PD : 0 < div_ceil (cBits a) 8) by apply (div_ceil_pos P1). unfold sock_recv. rewrite (proj2 (Nat.eqb_neq (n * _) 0)) by nia. cbn [bind]. rewrite L, (proj2 (Nat.eqb_neq _ _)) by nia. reflexivity.
Qed.
Print Assumptions C76_rows_differ.

(* two columns of 3 and 12 bits, two rows *)
Definition to_c (x : N) (bits : nat) (rows : list (list N)) : column := Col [x] 0 bits (BM bits (div_ceil bits 8) rows).
Definition to_t0 : table := Tab [7; 8]%N [to_c 1 3 [[5]; [1]]; to_c 2 12 [[1; 2]; [3; 4]]]%N.
Definition to_t1 : table := Tab [6; 8]%N [to_c 1 3 [[4]; [3]]; to_c 2 12 [[9; 2]; [0; 1]]]%N.
Lemma to_ok n t l r : tAct t = l -> (l = [] \/ length l = n) -> t_rows t = n -> tCols t = r -> Forall (fun c => let d := cDat c in length (bRows d) = n /\ forallb (fun x => (length x =? bCols d) && forallb (fun y => (y <? 256)%N) x) (bRows d) = true /\ bCols d = div_ceil (bBits d) 8 /\ cBits c = bBits d /\ cType c = 0) r -> t_ok n t.
Proof.
  intros <- HL HR <- HF. split; [exact HR|]. split; [|exact HL]. revert HF. apply Forall_impl. intros c (L & F & EC & EB & ET). rewrite forallb_forall in F. split; [split; [|exact EC]|].
  - split; [reflexivity|]. apply Forall_forall. intros x Hx. specialize (F x Hx). apply andb_true_iff in F. destruct F as [F1 F2]. split; [apply Nat.eqb_eq, F1|]. apply Forall_forall. intros y Hy. rewrite forallb_forall in F2. apply N.ltb_lt, F2, Hy.
  - split; [exact L|]. split; [exact EB|]. rewrite ET. split; [lia|discriminate].
Qed.
Lemma to_cols a0 a1 : (a0 = [] \/ length a0 = 2) -> (a1 = [] \/ length a1 = 2) -> openable_cols 2 (Tab a0 (tCols to_t0)) (Tab a1 (tCols to_t1)).
Proof.
  intros H0 H1.
  split; [apply (@to_ok 2 (Tab a0 (tCols to_t0)) a0 (tCols to_t0)); [reflexivity|exact H0|reflexivity|reflexivity|]; apply Forall_forall; intros c [<-|[<-|[]]]; repeat split|].
  split; [apply (@to_ok 2 (Tab a1 (tCols to_t1)) a1 (tCols to_t1)); [reflexivity|exact H1|reflexivity|reflexivity|]; apply Forall_forall; intros c [<-|[<-|[]]]; repeat split|].
  split; [constructor; [repeat split|]; constructor; [repeat split|constructor]|]. split; [|apply Forall_forall; intros c [<-|[<-|[]]]; cbn; lia].
  cbn. constructor; [intros [H|[]]; discriminate H|]. constructor; [intros []|constructor].
Qed.
Example C76_ex : openable 2 to_t0 to_t1 /\ openable_cols 2 to_t0 (Tab [] (tCols to_t1)) /\ openable_cols 2 (Tab [] (tCols to_t0)) to_t1 /\
  open_remote Throw to_t1 = Ok [[4; 3]; [9; 2; 0; 1]; [6; 8]]%N /\
  open_local Throw to_t0 [[4; 3]; [9; 2; 0; 1]; [6; 8]; [77]]%N = Ok (Tab [1; 0] [to_c 1 3 [[1]; [2]]; to_c 2 12 [[8; 0]; [3; 5]]], [[77]])%N /\
  open_local Throw (Tab [] (tCols to_t0)) [[4; 3]; [9; 2; 0; 1]; [6; 8]]%N = Ok (Tab [1; 1] [to_c 1 3 [[1]; [2]]; to_c 2 12 [[8; 0]; [3; 5]]], [[6; 8]])%N /\
  open_local Throw to_t0 [[4; 3]; [9; 2; 0; 1]]%N = Hang /\ open_local Throw to_t0 [[4; 3; 1]; [9; 2; 0; 1; 3; 3]; [6; 8; 8]]%N = Throw.
Proof.
  split; [destruct (@to_cols [7; 8]%N [6; 8]%N) as (A & B & C & D & E); [right; reflexivity|right; reflexivity|]; split; [exact A|]; split; [exact B|]; split; [exact C|]; split; [exact D|]; split; [exact E|reflexivity]|].
  split; [apply (@to_cols [7; 8]%N []); [right; reflexivity|left; reflexivity]|]. split; [apply (@to_cols [] [6; 8]%N); [left; reflexivity|right; reflexivity]|]. do 4 (split; [vm_compute; reflexivity|]). vm_compute. reflexivity.
Qed.
