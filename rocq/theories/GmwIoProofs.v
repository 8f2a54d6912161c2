From Verif Require Import Base ConvModel ShuffleModel ShuffleSpec GmwModel GmwSpec GmwProofs PrfModel PrfProofs CircuitProofs GmwIoModel GmwIoSpec.

Definition is_none (p : option (nat * nat)) : bool := match p with None => true | _ => false end.
Definition rank (l : list (option (nat * nat))) (i : nat) : nat := length (filter is_none (firstn i l)).

Definition ptr_ok (g : gmw) (p : nat * nat) : Prop :=
  exists rg row, nth_error (gHeap g) (fst p) = Some rg /\ nth_error (rgRows rg) (snd p) = Some row /\
    length row = gW g /\ rgStride rg = gW g.

(* the object between calls, all memory its own *)
Record inv (g : gmw) : Prop := {
  inv_rem : gRem g = rank (gWords g) (length (gWords g));
  inv_ptr : forall w p, nth_error (gWords g) w = Some (Some p) -> ptr_ok g p;
  inv_inj : forall w1 w2 p, nth_error (gWords g) w1 = Some (Some p) -> nth_error (gWords g) w2 = Some (Some p) -> w1 = w2 }.

(* ---------------- counting ---------------- *)
Lemma rank_S l i x : nth_error l i = Some x -> rank l (S i) = rank l i + if is_none x then 1 else 0.
Proof.
  unfold rank. revert i. induction l as [|y l IH]; intros [|i] H; cbn [nth_error] in H; try discriminate H.
  - injection H as ->. cbn [firstn filter]. destruct (is_none x); reflexivity.
  - rewrite firstn_cons. cbn [filter]. rewrite firstn_cons. cbn [filter]. destruct (is_none y); cbn [length]; rewrite (IH i H); reflexivity.
Qed.

Lemma rank_le l i j : i <= j -> rank l i <= rank l j.
Proof.
  intros H. unfold rank. revert i j H. induction l as [|y l IH]; intros [|i] [|j] H; cbn [firstn filter length]; try lia.
  specialize (IH i j ltac:(lia)). destruct (is_none y); cbn [length]; lia.
Qed.

Lemma rank_upd l i p : nth_error l i = Some None -> rank (upd l i (Some p)) (length (upd l i (Some p))) + 1 = rank l (length l).
Proof.
  unfold rank. rewrite !firstn_all. revert i. induction l as [|y l IH]; intros [|i] H; cbn [nth_error] in H; try discriminate H.
  - injection H as ->. cbn [upd filter is_none length]. lia.
  - cbn [upd filter]. destruct (is_none y); cbn [length]; specialize (IH i H); lia.
Qed.

Lemma rank_pos l i : nth_error l i = Some None -> 0 < rank l (length l).
Proof. intros H. pose proof (rank_upd (0, 0) H). lia. Qed.

Lemma rank_none_all n : rank (repeat None n) n = n.
Proof. unfold rank. rewrite firstn_all2 by (rewrite repeat_length; lia). induction n as [|n IH]; [reflexivity|]. cbn [repeat filter is_none length]. now rewrite IH. Qed.

(* ---------------- map ---------------- *)
Lemma gmap_ok w p g : nth_error (gWords g) w = Some None -> 0 < gRem g ->
  gmap w p g = Ok (Gm (gN g) (gIns g) (gOuts g) (upd (gWords g) w (Some p)) (gHeap g) (gRem g - 1)).
Proof.
  intros H Hr. pose proof (nth_error_lt H) as L. unfold gmap, throw_if.
  rewrite (proj2 (Nat.leb_gt _ _)) by lia. cbn [bind]. unfold get. rewrite H. cbn [bind].
  rewrite (proj2 (Nat.eqb_neq _ _)) by lia. rewrite set_lt by lia. reflexivity.
Qed.

Lemma seq_nth_error s k j : j < k -> nth_error (seq s k) j = Some (s + j).
Proof. intros H. rewrite (nth_error_nth_lt 0) by (rewrite seq_length; lia). now rewrite seq_nth by lia. Qed.

Lemma seq_consec : forall k s, consec (seq s k) = true.
Proof.
  induction k as [|k IH]; intros s; [reflexivity|]. destruct k as [|k]; [reflexivity|].
  change (seq s (S (S k))) with (s :: seq (S s) (S k)). change (consec (s :: seq (S s) (S k))) with ((s + 1 =? S s) && consec (seq (S s) (S k))).
  rewrite IH. rewrite (proj2 (Nat.eqb_eq _ _)) by lia. reflexivity.
Qed.

Lemma map_loop s k r g : s + k <= length (gWords g) -> (forall w, s <= w < s + k -> nth_error (gWords g) w = Some None) ->
  gRem g = rank (gWords g) (length (gWords g)) ->
  exists ws rem, forN 0 k (fun j g => do w <- get (seq s k) j; gmap w (r, j) g) g = Ok (Gm (gN g) (gIns g) (gOuts g) ws (gHeap g) rem) /\
    length ws = length (gWords g) /\ rem = rank ws (length ws) /\
    forall w, nth_error ws w = if (s <=? w) && (w <? s + k) then Some (Some (r, w - s)) else nth_error (gWords g) w.
Proof.
  intros L HN HR.
  destruct (@forN_inv gmw (fun j g' => exists ws rem, g' = Gm (gN g) (gIns g) (gOuts g) ws (gHeap g) rem /\
    length ws = length (gWords g) /\ rem = rank ws (length ws) /\
    forall w, nth_error ws w = if (s <=? w) && (w <? s + j) then Some (Some (r, w - s)) else nth_error (gWords g) w)
    (fun j g => do w <- get (seq s k) j; gmap w (r, j) g) k 0 g) as (g' & E & ws & rem & -> & H1 & H2 & H3).
  - exists (gWords g), (gRem g). split; [destruct g; reflexivity|]. split; [reflexivity|]. split; [exact HR|].
    intros w. destruct (Nat.leb_spec s w); destruct (Nat.ltb_spec w (s + 0)); cbn [andb]; try reflexivity. lia.
  - intros j g1 Hj (ws & rem & -> & H1 & H2 & H3).
    assert (EN : nth_error ws (s + j) = Some None).
    { rewrite H3. rewrite (proj2 (Nat.ltb_ge _ _)) by lia. rewrite andb_false_r. apply HN. lia. }
    unfold get at 1. rewrite (@seq_nth_error s k j) by lia. cbn [bind].
    rewrite gmap_ok; cbn [gWords gRem gN gIns gOuts gHeap]; [|exact EN|rewrite H2; exact (rank_pos EN)].
    eexists. split; [reflexivity|]. exists (upd ws (s + j) (Some (r, j))), (rem - 1). split; [reflexivity|].
    split; [rewrite upd_length; exact H1|]. split; [pose proof (rank_upd (r, j) EN); lia|].
    intros w. destruct (Nat.eq_dec (s + j) w) as [<-|D].
    + rewrite nth_error_upd_eq by (rewrite H1; lia). rewrite (proj2 (Nat.leb_le _ _)), (proj2 (Nat.ltb_lt _ _)) by lia. cbn [andb]. repeat f_equal. lia.
    + rewrite nth_error_upd_ne by exact D. rewrite H3.
      destruct (Nat.leb_spec s w); destruct (Nat.ltb_spec w (s + j)); destruct (Nat.ltb_spec w (s + (j + 1))); cbn [andb]; try reflexivity; lia.
  - exists ws, rem. split; [exact E|]. split; [exact H1|]. split; [exact H2|]. intros w. rewrite H3. reflexivity.
Qed.

(* a bundle none of whose wires has memory yet gets a region of its own *)
Lemma view_fresh junk s k g : inv g -> 0 < k -> s + k <= length (gWords g) -> (forall w, s <= w < s + k -> nth_error (gWords g) w = Some None) ->
  exists g' rows, mem_view junk (seq s k) g = Ok (g', (length (gHeap g), 0)) /\ inv g' /\
    gN g' = gN g /\ gIns g' = gIns g /\ gOuts g' = gOuts g /\ length (gWords g') = length (gWords g) /\
    gHeap g' = gHeap g ++ [Reg (gW g) rows] /\ length rows = k /\ Forall (fun r => length r = gW g) rows /\
    forall w, nth_error (gWords g') w = if (s <=? w) && (w <? s + k) then Some (Some (length (gHeap g), w - s)) else nth_error (gWords g) w.
Proof.
  intros HI Hk L HN. unfold mem_view. rewrite seq_consec. cbn [negb throw_if bind]. unfold get at 1. rewrite (@seq_nth_error s k 0) by lia. cbn [bind].
  unfold get at 1. rewrite HN by lia. cbn [bind]. rewrite seq_length. set (g1 := fresh junk k g).
  destruct (@map_loop s k (length (gHeap g)) g1) as (ws & rem & E & H1 & H2 & H3); [exact L|exact HN|exact (inv_rem HI)|].
  rewrite E. cbn [bind]. eexists. eexists. split; [reflexivity|]. cbn [gN gIns gOuts gWords gHeap]. unfold g1, fresh in *. cbn [gN gIns gOuts gWords gHeap gRem] in *.
  assert (EP : forall p, ptr_ok g p -> ptr_ok (Gm (gN g) (gIns g) (gOuts g) ws
      (gHeap g ++ [Reg (gW g) (map (fun j => map (junk (length (gHeap g)) j) (seq 0 (gW g))) (seq 0 k))]) rem) p).
  { intros p (rg & row & P1 & P2 & P3 & P4). exists rg, row. split; [|auto]. cbn [gHeap]. rewrite nth_error_app1; [exact P1|exact (nth_error_lt P1)]. }
  split; [|repeat split; auto].
  - constructor; cbn [gRem gWords].
    + exact H2.
    + intros w p. rewrite H3. destruct ((s <=? w) && (w <? s + k)) eqn:EB; [|intros H; apply EP; exact (inv_ptr HI H)].
      apply andb_true_iff in EB. destruct EB as [B1 B2]. apply Nat.leb_le in B1. apply Nat.ltb_lt in B2.
      intros H. injection H as <-. eexists. eexists. cbn [gHeap fst snd gW gN]. split.
      { rewrite nth_error_app2 by lia. rewrite Nat.sub_diag. reflexivity. }
      cbn [rgRows rgStride]. split; [|split; [|reflexivity]]. 2:{ instantiate (1 := map (junk (length (gHeap g)) (w - s)) (seq 0 (gW g))). rewrite map_length, seq_length. reflexivity. }
      rewrite nth_error_map. rewrite (@seq_nth_error 0 k (w - s)) by lia. reflexivity.
    + intros w1 w2 p. rewrite !H3.
      destruct ((s <=? w1) && (w1 <? s + k)) eqn:B1; destruct ((s <=? w2) && (w2 <? s + k)) eqn:B2; intros Q1 Q2.
      * injection Q1 as <-. injection Q2 as Q2. apply andb_true_iff in B1, B2. destruct B1 as [B1 _], B2 as [B2 _]. apply Nat.leb_le in B1, B2. lia.
      * injection Q1 as <-. destruct (inv_ptr HI Q2) as (rg & row & P1 & _). cbn [fst] in P1. apply nth_error_lt in P1. lia.
      * injection Q2 as <-. destruct (inv_ptr HI Q1) as (rg & row & P1 & _). cbn [fst] in P1. apply nth_error_lt in P1. lia.
      * exact (inv_inj HI Q1 Q2).
  - rewrite map_length, seq_length. reflexivity.
  - apply Forall_forall. intros x Hx. apply in_map_iff in Hx. destruct Hx as (j & <- & _). rewrite map_length, seq_length. reflexivity.
Qed.

(* a bundle none of whose wires has memory yet gets a region that was just added *)
Lemma attach_ok s k rows g : inv g -> length rows = k -> Forall (fun r => length r = gW g) rows -> s + k <= length (gWords g) ->
  (forall w, s <= w < s + k -> nth_error (gWords g) w = Some None) ->
  exists g', forN 0 k (fun j g' => do w <- get (seq s k) j; gmap w (length (gHeap g), j) g')
      (Gm (gN g) (gIns g) (gOuts g) (gWords g) (gHeap g ++ [Reg (gW g) rows]) (gRem g)) = Ok g' /\ inv g' /\
    gN g' = gN g /\ gIns g' = gIns g /\ gOuts g' = gOuts g /\ length (gWords g') = length (gWords g) /\
    (forall w, nth_error (gWords g') w = if (s <=? w) && (w <? s + k) then Some (Some (length (gHeap g), w - s)) else nth_error (gWords g) w) /\
    gHeap g' = gHeap g ++ [Reg (gW g) rows] /\
    (forall j, j < k -> get_row (length (gHeap g), j) g' = Ok (nth j rows [])) /\
    forall p, ptr_ok g p -> get_row p g' = get_row p g.
Proof.
  intros HI Lr HF L HN. set (g1 := Gm (gN g) (gIns g) (gOuts g) (gWords g) (gHeap g ++ [Reg (gW g) rows]) (gRem g)).
  destruct (@map_loop s k (length (gHeap g)) g1) as (ws & rem & E & H1 & H2 & H3); [exact L|exact HN|exact (inv_rem HI)|].
  eexists. split; [exact E|]. unfold g1 in *. cbn [gN gIns gOuts gWords gHeap gRem] in *.
  assert (EP : forall p, ptr_ok g p -> ptr_ok (Gm (gN g) (gIns g) (gOuts g) ws (gHeap g ++ [Reg (gW g) rows]) rem) p).
  { intros p (rg & row & P1 & P2 & P3 & P4). exists rg, row. split; [|auto]. cbn [gHeap]. rewrite nth_error_app1; [exact P1|exact (nth_error_lt P1)]. }
  assert (EN : forall j, j < k -> nth_error rows j = Some (nth j rows []) /\ length (nth j rows []) = gW g).
  { intros j Hj. split; [apply nth_error_nth_lt; lia|]. rewrite Forall_forall in HF. apply HF. apply nth_In. lia. }
  split; [|do 3 (split; [reflexivity|]); split; [exact H1|split; [exact H3|split; [reflexivity|split]]]].
  - constructor; cbn [gRem gWords].
    + exact H2.
    + intros w p. rewrite H3. destruct ((s <=? w) && (w <? s + k)) eqn:EB; [|intros H; apply EP; exact (inv_ptr HI H)].
      apply andb_true_iff in EB. destruct EB as [B1 B2]. apply Nat.leb_le in B1. apply Nat.ltb_lt in B2.
      intros H. injection H as <-. destruct (EN (w - s) ltac:(lia)) as [N1 N2]. exists (Reg (gW g) rows), (nth (w - s) rows []). cbn [gHeap fst snd gW gN].
      rewrite nth_error_app2 by lia. rewrite Nat.sub_diag. split; [reflexivity|]. split; [exact N1|]. split; [exact N2|reflexivity].
    + intros w1 w2 p. rewrite !H3.
      destruct ((s <=? w1) && (w1 <? s + k)) eqn:B1; destruct ((s <=? w2) && (w2 <? s + k)) eqn:B2; intros Q1 Q2.
      * injection Q1 as <-. injection Q2 as Q2. apply andb_true_iff in B1, B2. destruct B1 as [B1 _], B2 as [B2 _]. apply Nat.leb_le in B1, B2. lia.
      * injection Q1 as <-. destruct (inv_ptr HI Q2) as (rg & row & P1 & _). cbn [fst] in P1. apply nth_error_lt in P1. lia.
      * injection Q2 as <-. destruct (inv_ptr HI Q1) as (rg & row & P1 & _). cbn [fst] in P1. apply nth_error_lt in P1. lia.
      * exact (inv_inj HI Q1 Q2).
  - intros j Hj. destruct (EN j Hj) as [N1 N2]. unfold get_row, get. cbn [gHeap fst snd]. rewrite nth_error_app2 by lia. rewrite Nat.sub_diag. cbn [nth_error bind rgRows].
    rewrite N1. cbn [bind]. match goal with |- readN _ 0 ?w = _ => change w with (gW g) end. unfold readN, slice. rewrite (proj2 (Nat.leb_le _ _)) by lia. cbn [skipn]. rewrite firstn_all2 by lia. reflexivity.
  - intros p (rg & row & P1 & _). unfold get_row, get. cbn [gHeap]. rewrite nth_error_app1 by exact (nth_error_lt P1). reflexivity.
Qed.

(* ---------------- rows ---------------- *)
Lemma put_row_ok p x g : ptr_ok g p -> length x = gW g ->
  exists g', put_row p x g = Ok g' /\ gN g' = gN g /\ gIns g' = gIns g /\ gOuts g' = gOuts g /\ gWords g' = gWords g /\ gRem g' = gRem g /\
    length (gHeap g') = length (gHeap g) /\
    (forall q, ptr_ok g' q <-> ptr_ok g q) /\ get_row p g' = Ok x /\ forall q, q <> p -> get_row q g' = get_row q g.
Proof.
  intros (rg & row & P1 & P2 & P3 & P4) Hx. unfold put_row. unfold get at 1. rewrite P1. cbn [bind]. unfold get at 1. rewrite P2. cbn [bind].
  unfold writeN. rewrite (proj2 (Nat.leb_le _ _)) by lia. cbn [bind].
  assert (EO : overwrite row 0 x = x). { unfold overwrite. cbn [firstn app Nat.add]. rewrite skipn_all2 by lia. apply app_nil_r. }
  rewrite EO. pose proof (nth_error_lt P1) as L1. pose proof (nth_error_lt P2) as L2. rewrite set_lt by exact L2. cbn [bind]. rewrite set_lt by exact L1. cbn [bind].
  eexists. split; [reflexivity|]. cbn [gN gIns gOuts gWords gRem gHeap]. do 5 (split; [reflexivity|]). split; [apply upd_length|].
  destruct p as [r o]. cbn [fst snd] in *. set (h := upd (gHeap g) r (Reg (rgStride rg) (upd (rgRows rg) o x))).
  assert (HR : forall q, nth_error h q = if q =? r then Some (Reg (rgStride rg) (upd (rgRows rg) o x)) else nth_error (gHeap g) q).
  { intros q. unfold h. destruct (Nat.eqb_spec q r) as [->|D]; [apply nth_error_upd_eq; exact L1|apply nth_error_upd_ne; congruence]. }
  split; [|split].
  - intros [r' o']. unfold ptr_ok. cbn [gHeap gW gN fst snd]. rewrite HR. destruct (Nat.eqb_spec r' r) as [->|D]; [|reflexivity].
    split; intros (rg' & row' & Q1 & Q2 & Q3 & Q4).
    + injection Q1 as <-. cbn [rgRows rgStride] in *. destruct (Nat.eq_dec o o') as [<-|D].
      * exists rg, row. auto.
      * rewrite nth_error_upd_ne in Q2 by congruence. exists rg, row'. auto.
    + assert (rg' = rg) as -> by congruence. exists (Reg (rgStride rg) (upd (rgRows rg) o x)). destruct (Nat.eq_dec o o') as [<-|D].
      * exists x. split; [reflexivity|]. cbn [rgRows rgStride]. rewrite nth_error_upd_eq by exact L2. auto.
      * exists row'. split; [reflexivity|]. cbn [rgRows rgStride]. rewrite nth_error_upd_ne by congruence. auto.
  - unfold get_row, get. cbn [gHeap fst snd gW gN]. rewrite HR. rewrite Nat.eqb_refl. cbn [bind rgRows]. rewrite nth_error_upd_eq by exact L2. cbn [bind].
    match goal with |- readN x 0 ?w = _ => change w with (gW g) end. unfold readN, slice. rewrite (proj2 (Nat.leb_le _ _)) by lia. cbn [skipn]. rewrite firstn_all2 by lia. reflexivity.
  - intros [r' o'] D. unfold get_row, get. cbn [gHeap fst snd gW gN]. rewrite HR. destruct (Nat.eqb_spec r' r) as [->|D']; [|reflexivity].
    rewrite P1. cbn [bind rgRows]. rewrite nth_error_upd_ne by congruence. reflexivity.
Qed.

(* the state is the same apart from the contents of some rows *)
Definition same_state (g g' : gmw) : Prop :=
  gN g' = gN g /\ gIns g' = gIns g /\ gOuts g' = gOuts g /\ gWords g' = gWords g /\ gRem g' = gRem g /\ length (gHeap g') = length (gHeap g) /\
  forall q, ptr_ok g' q <-> ptr_ok g q.

Lemma same_inv g g' : same_state g g' -> inv g -> inv g'.
Proof.
  intros (_ & _ & _ & E & R & _ & P) HI. constructor; rewrite ?E, ?R.
  - exact (inv_rem HI).
  - intros w p H. apply P. exact (inv_ptr HI H).
  - intros w1 w2 p H1 H2. exact (inv_inj HI H1 H2).
Qed.

Lemma put_loop r (F : nat -> nat -> list N) k g : (forall j, j < k -> ptr_ok g (r, j) /\ length (F (gW g) j) = gW g) ->
  exists g', forN 0 k (fun j g => put_row (r, 0 + j) (F (gW g) j) g) g = Ok g' /\ same_state g g' /\
    (forall j, j < k -> get_row (r, j) g' = Ok (F (gW g) j)) /\ forall q, fst q <> r -> get_row q g' = get_row q g.
Proof.
  intros H.
  destruct (@forN_inv gmw (fun j g' => same_state g g' /\ (forall i, i < j -> get_row (r, i) g' = Ok (F (gW g) i)) /\ forall q, fst q <> r -> get_row q g' = get_row q g)
    (fun j g => put_row (r, 0 + j) (F (gW g) j) g) k 0 g) as (g' & E & H1 & H2 & H3).
  - split; [|split; [intros i Hi; lia|reflexivity]]. unfold same_state. intuition.
  - intros j g1 Hj (S1 & S2 & S3). destruct (H j ltac:(lia)) as [P L]. destruct S1 as (E1 & E2 & E3 & E4 & E5 & E6 & E7).
    assert (EW : gW g1 = gW g) by (unfold gW; rewrite E1; reflexivity). rewrite EW.
    destruct (@put_row_ok (r, 0 + j) (F (gW g) j) g1) as (g2 & E & F1 & F2 & F3 & F4 & F5 & F6 & F7 & F8 & F9).
    + apply E7. exact P.
    + rewrite EW. exact L.
    + exists g2. split; [exact E|]. split; [|split].
      * unfold same_state. rewrite F1, F2, F3, F4, F5, F6. repeat (split; [assumption|]). intros q. rewrite F7. apply E7.
      * intros i Hi. destruct (Nat.eq_dec i j) as [->|D]; [exact F8|]. rewrite F9 by (cbn [Nat.add]; congruence). apply S2. lia.
      * intros q D. rewrite F9; [apply S3; exact D|]. intros ->. apply D. reflexivity.
  - exists g'. split; [exact E|]. auto.
Qed.

(* writing a fresh bundle *)
Lemma write_fresh junk s k (F : nat -> nat -> list N) g : inv g -> 0 < k -> s + k <= length (gWords g) ->
  (forall w, s <= w < s + k -> nth_error (gWords g) w = Some None) -> (forall j, j < k -> length (F (gW g) j) = gW g) ->
  exists g1 g', mem_view junk (seq s k) g = Ok (g1, (length (gHeap g), 0)) /\ gN g1 = gN g /\
    forN 0 k (fun j g0 => put_row (length (gHeap g), 0 + j) (F (gW g0) j) g0) g1 = Ok g' /\ inv g' /\
    gN g' = gN g /\ gIns g' = gIns g /\ gOuts g' = gOuts g /\ length (gWords g') = length (gWords g) /\
    (forall w, nth_error (gWords g') w = if (s <=? w) && (w <? s + k) then Some (Some (length (gHeap g), w - s)) else nth_error (gWords g) w) /\
    (forall j, j < k -> get_row (length (gHeap g), j) g' = Ok (F (gW g) j)) /\
    forall p, ptr_ok g p -> get_row p g' = get_row p g.
Proof.
  intros HI Hk L HN HF. destruct (view_fresh junk HI Hk L HN) as (g1 & rows & E & I1 & N1 & N2 & N3 & N4 & H1 & H2 & H3 & W).
  assert (EW : gW g1 = gW g) by (unfold gW; rewrite N1; reflexivity).
  destruct (@put_loop (length (gHeap g)) F k g1) as (g' & E' & S & P1 & P2).
  { intros j Hj. split; [|rewrite !EW; apply HF; exact Hj]. exists (Reg (gW g) rows), (nth j rows []). cbn [fst snd rgRows rgStride].
    rewrite H1. rewrite nth_error_app2 by lia. rewrite Nat.sub_diag. split; [reflexivity|]. split; [apply nth_error_nth_lt; lia|].
    rewrite EW. split; [|reflexivity]. rewrite Forall_forall in H3. apply H3. apply nth_In. lia. }
  exists g1, g'. split; [exact E|]. split; [exact N1|]. split; [exact E'|]. split; [exact (same_inv S I1)|].
  destruct S as (S1 & S2 & S3 & S4 & S5 & S6 & S7). rewrite S1, S2, S3, S4. rewrite EW in P1. repeat (split; [assumption|]).
  intros p Hp. destruct Hp as (rg & row & Q1 & _). pose proof (nth_error_lt Q1) as LQ. rewrite P2 by lia.
  unfold get_row, get. rewrite H1, nth_error_app1, EW by exact LQ. reflexivity.
Qed.

(* ---------------- setInput ---------------- *)
Lemma tr_in_length pad w x j : length (tr_in pad w x j) = w.
Proof. unfold tr_in. rewrite map_length, seq_length. reflexivity. Qed.

Lemma tr_in_bit pad w x j i : i < length x -> i < 128 * w ->
  N.testbit (nth (i / 128) (tr_in pad w x j) 0%N) (N.of_nat (i mod 128)) = sbit (nth i x []) j.
Proof.
  intros Hi Hw. unfold tr_in. assert (L : i / 128 < w) by (apply Nat.div_lt_upper_bound; lia).
  rewrite (nth_indep _ 0%N (of_bits [])) by (rewrite map_length, seq_length; exact L).
  match goal with |- N.testbit (nth _ (map ?f _) _) _ = _ => rewrite (nth_indep _ _ (f 0)) by (rewrite map_length, seq_length; exact L); rewrite (map_nth f) end.
  rewrite seq_nth by exact L. cbn [Nat.add]. rewrite of_bits_bit.
  pose proof (Nat.mod_upper_bound i 128 ltac:(discriminate)) as M. pose proof (Nat.div_mod i 128 ltac:(discriminate)) as D.
  match goal with |- nth _ (map ?f _) _ = _ => rewrite (nth_indep _ _ (f 0)) by (rewrite map_length, seq_length; exact M); rewrite (map_nth f) end.
  rewrite seq_nth by exact M. cbn [Nat.add]. rewrite <- D. rewrite (proj2 (Nat.ltb_lt _ _) Hi). reflexivity.
Qed.

(* what wire memory a given input becomes *)
Definition given_row (pad : nat -> nat -> bool) (w : nat) (x : given) (j : nat) : list N :=
  match x with GZero => repeat 0%N w | GRows _ _ rows => tr_in pad w rows j | GMap d => nth j (tmRows d) [] end.

Lemma map_ok bs i d b s g : inv g -> nth_error bs i = Some b -> b = seq s (length b) -> s + length b <= length (gWords g) ->
  (forall w, In w b -> nth_error (gWords g) w = Some None) -> tmat_ok (gN g) (length b) d ->
  exists g', map_bundle bs i d g = Ok g' /\ inv g' /\
    gN g' = gN g /\ gIns g' = gIns g /\ gOuts g' = gOuts g /\ length (gWords g') = length (gWords g) /\
    (forall w, ~ In w b -> nth_error (gWords g') w = nth_error (gWords g) w) /\
    (forall j w, nth_error b j = Some w -> nth_error (gWords g') w = Some (Some (length (gHeap g), j)) /\ get_row (length (gHeap g), j) g' = Ok (nth j (tmRows d) [])) /\
    (forall p, ptr_ok g p -> get_row p g' = get_row p g) /\ length (gHeap g') = length (gHeap g) + 1.
Proof.
  intros HI Hb Es L HN (T1 & T2 & T3 & T4). assert (EW : (gN g + 127) / 128 = gW g) by (unfold gW, div_ceil; f_equal; lia). rewrite EW in T3, T4.
  assert (HIn : forall w, s <= w < s + length b <-> In w b) by (intros w; rewrite Es at 2; rewrite in_seq; reflexivity).
  destruct (@attach_ok s (length b) (tmRows d) g HI T2 T4 L) as (g' & E & I' & N2 & N3 & N4 & N5 & W & HH & R & O); [intros w Hw; apply HN; apply HIn; exact Hw|].
  exists g'. split; [|split; [exact I'|]].
  - unfold map_bundle, throw_if. rewrite (proj2 (Nat.leb_gt _ _) (nth_error_lt Hb)). cbn [bind]. unfold get at 1. rewrite Hb. cbn [bind].
    rewrite T2, Nat.eqb_refl. cbn [negb bind]. rewrite T1, Nat.eqb_refl. cbn [negb bind]. rewrite T3, Nat.mul_comm, Nat.mod_mul by discriminate. cbn [Nat.eqb negb bind]. cbv zeta.
    rewrite Nat.div_mul by discriminate. rewrite <- Es in E. exact E.
  - do 4 (split; [assumption|]). split; [|split; [|split; [exact O|rewrite HH, app_length; reflexivity]]].
    + intros w Hw. rewrite W. destruct ((s <=? w) && (w <? s + length b)) eqn:B; [|reflexivity]. exfalso. apply Hw. apply HIn.
      apply andb_true_iff in B. destruct B as [B1 B2]. apply Nat.leb_le in B1. apply Nat.ltb_lt in B2. lia.
    + intros j w Hw. assert (Lj : j < length b) by exact (nth_error_lt Hw). rewrite Es in Hw. rewrite seq_nth_error in Hw by exact Lj. injection Hw as <-.
      rewrite W, (proj2 (Nat.leb_le _ _)), (proj2 (Nat.ltb_lt _ _)) by lia. cbn [andb]. split; [repeat f_equal; lia|]. apply R. exact Lj.
Qed.

Lemma given_row_length pad n k x j : given_ok n k x -> j < k -> length (given_row pad ((n + 127) / 128) x j) = (n + 127) / 128.
Proof.
  intros H Hj. destruct x as [|al cols rows|d]; [apply repeat_length|apply tr_in_length|]. destruct H as (_ & L & _ & F). rewrite Forall_forall in F. apply F. apply nth_In. lia.
Qed.

Lemma given_row_bit pad n x i j k : given_ok n k x -> i < n ->
  N.testbit (nth (i / 128) (given_row pad (div_ceil n 128) x j) 0%N) (N.of_nat (i mod 128)) = given_bit x i j.
Proof.
  intros H Hi. destruct x as [|al cols rows|d]; cbn [given_row given_bit given_ok] in *.
  - rewrite nth_repeat. apply N.bits_0.
  - destruct H as (_ & _ & <-). apply tr_in_bit; [exact Hi|]. unfold div_ceil. pose proof (Nat.div_mod (length rows + 127) 128 ltac:(discriminate)) as D.
    pose proof (Nat.mod_upper_bound (length rows + 127) 128 ltac:(discriminate)) as M. replace (length rows + 128 - 1) with (length rows + 127) by lia. lia.
  - reflexivity.
Qed.

Definition give1 junk (pad : nat -> nat -> bool) (i : nat) (x : given) (g : gmw) : outcome gmw :=
  match x with
  | GRows al cols rows => set_input junk pad i al cols rows g
  | GZero => set_zero_input junk i g
  | GMap d => map_bundle (gIns g) i d g
  end.

Lemma give1_ok junk pad i x b s g : inv g -> nth_error (gIns g) i = Some b -> b = seq s (length b) -> 0 < length b -> s + length b <= length (gWords g) ->
  (forall w, In w b -> nth_error (gWords g) w = Some None) -> given_ok (gN g) (length b) x ->
  exists g', give1 junk pad i x g = Ok g' /\ inv g' /\
    gN g' = gN g /\ gIns g' = gIns g /\ gOuts g' = gOuts g /\ length (gWords g') = length (gWords g) /\
    (forall w, ~ In w b -> nth_error (gWords g') w = nth_error (gWords g) w) /\
    (forall j w, nth_error b j = Some w -> exists p, nth_error (gWords g') w = Some (Some p) /\ get_row p g' = Ok (given_row pad (gW g) x j)) /\
    forall p, ptr_ok g p -> get_row p g' = get_row p g.
Proof.
  intros HI Hb Es Hk L HN Hx. destruct x as [|al cols rows|d]; [| |
    destruct (@map_ok (gIns g) i d b s g HI Hb Es L HN Hx) as (g' & E & I' & N1 & N2 & N3 & N4 & W1 & W2 & W3 & _); exists g'; do 7 (split; [assumption|]);
    split; [intros j w Hw; exists (length (gHeap g), j); exact (W2 j w Hw)|exact W3]].
  all: set (k := length b) in *.
  all: match type of Hx with given_ok _ _ ?y => set (x := y) in * end.
  all: assert (HIn : forall w, s <= w < s + k <-> In w b) by (intros w; rewrite Es; rewrite in_seq; reflexivity).
  all: destruct (@write_fresh junk s k (fun w j => given_row pad w x j) g HI Hk L) as (g1 & g' & E1 & N1 & E2 & I' & N2 & N3 & N4 & N5 & W & R & O);
    [intros w Hw; apply HN; apply HIn; exact Hw|intros j Hj; pose proof (given_row_length pad Hx Hj) as Q; unfold gW, div_ceil; replace (gN g + 128 - 1) with (gN g + 127) by lia; exact Q|].
  all: exists g'; split; [|split; [exact I'|]].
  all: try (split; [exact N2|]; split; [exact N3|]; split; [exact N4|]; split; [exact N5|]; split; [|split; [|exact O]];
    [intros w Hw; rewrite W; destruct ((s <=? w) && (w <? s + k)) eqn:B; [|reflexivity]; exfalso; apply Hw; apply HIn;
      apply andb_true_iff in B; destruct B as [B1 B2]; apply Nat.leb_le in B1; apply Nat.ltb_lt in B2; lia
    |intros j w Hw; assert (Lj : j < k) by exact (nth_error_lt Hw); rewrite Es in Hw; rewrite (@seq_nth_error s k j Lj) in Hw; injection Hw as <-;
      exists (length (gHeap g), j); rewrite W, (proj2 (Nat.leb_le _ _)), (proj2 (Nat.ltb_lt _ _)) by lia; cbn [andb]; split; [repeat f_equal; lia|apply R; exact Lj]]).
  all: assert (EV : bundle_view junk (gIns g) i g = Ok (g1, (length (gHeap g), 0), b)) by
    (unfold bundle_view, throw_if; pose proof (nth_error_lt Hb) as Li; rewrite (proj2 (Nat.leb_gt _ _)) by exact Li; cbn [bind]; unfold get; rewrite Hb; cbn [bind];
      assert (EM : mem_view junk b g = Ok (g1, (length (gHeap g), 0))) by (pose proof E1 as Q; rewrite <- Es in Q; exact Q); rewrite EM; reflexivity).
  - unfold give1, x. unfold set_zero_input. rewrite EV. cbn [bind]. exact E2.
  - destruct Hx as (A1 & A2 & A3). unfold give1, x, set_input. rewrite EV. cbn [bind]. cbv zeta.
    rewrite (proj2 (Nat.eqb_neq (al * 8) 0)) by lia. fold k. rewrite A2, Nat.eqb_refl. cbn [negb throw_if bind]. rewrite N1, A3, Nat.eqb_refl. cbn [negb throw_if bind].
    exact E2.
Qed.

(* ---------------- all inputs ---------------- *)
Lemma firstn_S_nth A (l : list A) i b : nth_error l i = Some b -> firstn (i + 1) l = firstn i l ++ [b].
Proof.
  revert i. induction l as [|x l IH]; intros [|i] H; cbn [nth_error] in H; try discriminate H.
  - injection H as ->. reflexivity.
  - cbn [Nat.add]. rewrite !firstn_cons. cbn [app]. f_equal. apply IH. exact H.
Qed.

Lemma concat_firstn_in A (l : list (list A)) i w : In w (concat (firstn i l)) -> exists i' b, i' < i /\ nth_error l i' = Some b /\ In w b.
Proof.
  revert i. induction l as [|x l IH]; intros [|i] H; cbn [firstn concat] in H; try contradiction.
  apply in_app_iff in H. destruct H as [H|H]; [exists 0, x; repeat split; [lia|exact H]|].
  destruct (IH i H) as (i' & b & H1 & H2 & H3). exists (S i'), b. repeat split; [lia|exact H2|exact H3].
Qed.

Lemma nodup_concat A (l : list (list A)) : NoDup (concat l) -> forall i i' b b' w, nth_error l i = Some b -> nth_error l i' = Some b' -> In w b -> In w b' -> i = i'.
Proof.
  induction l as [|x l IH]; intros H [|i] [|i'] b b' w Hb Hb' Hw Hw'; cbn [nth_error] in *; try discriminate.
  - reflexivity.
  - injection Hb as ->. exfalso. cbn [concat] in H. assert (In w (concat l)) by (apply in_concat; exists b'; split; [exact (nth_error_In _ _ Hb')|exact Hw']).
    clear - H Hw H0. induction b as [|y b IHb]; [contradiction|]. cbn [app] in H. inversion H as [|? ? N1 N2]. subst. destruct Hw as [->|Hw]; [apply N1; apply in_app_iff; right; exact H0|exact (IHb N2 Hw)].
  - injection Hb' as ->. exfalso. cbn [concat] in H. assert (In w (concat l)) by (apply in_concat; exists b; split; [exact (nth_error_In _ _ Hb)|exact Hw]).
    clear - H Hw' H0. induction b' as [|y b' IHb]; [contradiction|]. cbn [app] in H. inversion H as [|? ? N1 N2]. subst. destruct Hw' as [->|Hw']; [apply N1; apply in_app_iff; right; exact H0|exact (IHb N2 Hw')].
  - f_equal. cbn [concat] in H. assert (N : NoDup (concat l)) by (clear - H; induction x as [|y x IHx]; [exact H|]; cbn [app] in H; inversion H; auto).
    exact (IH N i i' b b' w Hb Hb' Hw Hw').
Qed.

Lemma give_all_ok junk pad n wires ins outs xs : Forall (bundle_ok wires) ins -> NoDup (concat ins) -> length xs = length ins ->
  (forall i b x, nth_error ins i = Some b -> nth_error xs i = Some x -> given_ok n (length b) x) ->
  exists g, give_all junk pad xs (gmw_init n wires ins outs) = Ok g /\ inv g /\ gN g = n /\ gIns g = ins /\ gOuts g = outs /\ length (gWords g) = wires /\
    (forall w, w < wires -> ~ In w (concat ins) -> nth_error (gWords g) w = Some None) /\
    (forall i b x j w, nth_error ins i = Some b -> nth_error xs i = Some x -> nth_error b j = Some w ->
       exists p, nth_error (gWords g) w = Some (Some p) /\ get_row p g = Ok (given_row (pad i) (div_ceil n 128) x j)).
Proof.
  intros HB HND HL HX. unfold give_all.
  destruct (@forN_inv gmw (fun i g => inv g /\ gN g = n /\ gIns g = ins /\ gOuts g = outs /\ length (gWords g) = wires /\
    (forall w, w < wires -> ~ In w (concat (firstn i ins)) -> nth_error (gWords g) w = Some None) /\
    (forall i' b x j w, i' < i -> nth_error ins i' = Some b -> nth_error xs i' = Some x -> nth_error b j = Some w ->
       exists p, nth_error (gWords g) w = Some (Some p) /\ get_row p g = Ok (given_row (pad i') (div_ceil n 128) x j)))
    (fun i g => do x <- get xs i; give1 junk (pad i) i x g) (length xs) 0 (gmw_init n wires ins outs)) as (g & E & H1 & H2 & H3 & H4 & H5 & H6 & H7).
  - split; [|repeat split; try reflexivity].
    + constructor; cbn [gmw_init gRem gWords].
      * rewrite repeat_length. symmetry. apply rank_none_all.
      * intros w p H. apply nth_error_In in H. apply repeat_spec in H. discriminate H.
      * intros w1 w2 p H. apply nth_error_In in H. apply repeat_spec in H. discriminate H.
    + apply repeat_length.
    + intros w Hw _. cbn [gmw_init gWords]. rewrite (nth_error_nth_lt None) by (rewrite repeat_length; exact Hw). rewrite nth_repeat. reflexivity.
    + intros i' b x j w Hi. lia.
  - intros i g Hi (G1 & G2 & G3 & G4 & G5 & G6 & G7).
    destruct (nth_error xs i) as [x|] eqn:EX; [|apply nth_error_None in EX; lia].
    destruct (nth_error ins i) as [b|] eqn:EB; [|apply nth_error_None in EB; lia].
    unfold get at 1. rewrite EX. cbn [bind].
    assert (OKb : bundle_ok wires b) by (rewrite Forall_forall in HB; apply HB; exact (nth_error_In _ _ EB)). destruct OKb as (s & B1 & B2 & B3).
    destruct (@give1_ok junk (pad i) i x b s g) as (g' & E & I' & N1 & N2 & N3 & N4 & W1 & W2 & W3); try assumption.
    + rewrite G3. exact EB.
    + rewrite G5. exact B3.
    + intros w Hw. apply G6. { rewrite B1 in Hw. apply in_seq in Hw. lia. }
      intros HI. destruct (concat_firstn_in HI) as (i' & b' & Li & Eb' & Hw'). pose proof (nodup_concat HND Eb' EB Hw' Hw). lia.
    + rewrite G2. apply (HX i b x EB EX).
    + exists g'. split; [exact E|]. split; [exact I'|]. rewrite N1, N2, N3, N4. do 4 (split; [assumption|]). split.
      * intros w Hw HN. rewrite (firstn_S_nth EB), concat_app in HN. cbn [concat] in HN. rewrite app_nil_r in HN. rewrite in_app_iff in HN.
        rewrite W1 by (intros H; apply HN; right; exact H). apply G6; [exact Hw|]. intros H. apply HN. left. exact H.
      * intros i' b' x' j w Hi' Eb' Ex' Ew. destruct (Nat.eq_dec i' i) as [->|D].
        -- assert (b' = b) as -> by congruence. assert (x' = x) as -> by congruence. destruct (W2 j w Ew) as (p & P1 & P2). exists p. split; [exact P1|].
           unfold gW in P2. rewrite G2 in P2. exact P2.
        -- destruct (G7 i' b' x' j w ltac:(lia) Eb' Ex' Ew) as (p & P1 & P2). exists p. rewrite W1; [|intros H; apply D; exact (nodup_concat HND Eb' EB (nth_error_In _ _ Ew) H)].
           split; [exact P1|]. rewrite W3; [exact P2|exact (inv_ptr G1 P1)].
  - exists g. split; [exact E|]. cbn [Nat.add] in *. do 5 (split; [assumption|]). split.
    + intros w Hw HN. apply H6; [exact Hw|]. rewrite firstn_all2 by lia. exact HN.
    + intros i b x j w Eb Ex Ew. apply (H7 i b x j w); try assumption. exact (nth_error_lt Ex).
Qed.

(* ---------------- finalizeMapping ---------------- *)
Lemma rank_zero l k : (forall w, nth_error l w <> Some None) -> rank l k = 0.
Proof.
  unfold rank. revert k. induction l as [|x l IH]; intros [|k] H; cbn [firstn filter length]; try reflexivity.
  destruct x as [p|]; [cbn [is_none]; apply IH; intros w; exact (H (S w))|]. exfalso. exact (H 0 eq_refl).
Qed.

Lemma mapO_unit A (f : A -> outcome unit) l : (forall a, In a l -> f a = Ok tt) -> exists r, mapO f l = Ok r.
Proof.
  induction l as [|a l IH]; intros H; [exists []; reflexivity|]. cbn [mapO]. rewrite (H a) by (left; reflexivity). cbn [bind].
  destruct IH as [r ->]; [intros b Hb; apply H; right; exact Hb|]. eexists. reflexivity.
Qed.

Lemma finalize_ok junk g : inv g -> (forall w, In w (concat (gIns g)) -> exists p, nth_error (gWords g) w = Some (Some p)) ->
  exists g', finalize junk g = Ok g' /\ inv g' /\ gN g' = gN g /\ gIns g' = gIns g /\ gOuts g' = gOuts g /\ length (gWords g') = length (gWords g) /\
    (forall w p, nth_error (gWords g) w = Some (Some p) -> nth_error (gWords g') w = Some (Some p) /\ get_row p g' = get_row p g) /\
    (forall w, nth_error (gWords g) w = Some None -> nth_error (gWords g') w = Some (Some (length (gHeap g), rank (gWords g) w))).
Proof.
  intros HI HIn. unfold finalize.
  destruct (@mapO_unit nat (fun w => do p <- get (gWords g) w; throw_if (match p with None => true | _ => false end)) (concat (gIns g))) as [u ->].
  { intros w Hw. destruct (HIn w Hw) as [p Hp]. unfold get. rewrite Hp. reflexivity. }
  cbn [bind]. destruct (Nat.eqb_spec (gRem g) 0) as [E0|E0].
  { exists g. split; [reflexivity|]. split; [exact HI|]. do 4 (split; [reflexivity|]). split; [auto|]. intros w Hw. pose proof (rank_pos Hw). rewrite <- (inv_rem HI) in *. lia. }
  set (r := length (gHeap g)). set (ws0 := gWords g). set (R := Reg (gW g) (map (fun j => map (junk r j) (seq 0 (gW g))) (seq 0 (gRem g)))).
  destruct (@forN_inv (gmw * nat) (fun i s => snd s = rank ws0 i /\ exists ws rem, fst s = Gm (gN g) (gIns g) (gOuts g) ws (gHeap g ++ [R]) rem /\
      length ws = length ws0 /\ rem = rank ws (length ws) /\
      forall w, nth_error ws w = match nth_error ws0 w with Some None => if w <? i then Some (Some (r, rank ws0 w)) else Some None | o => o end)
    (fun i (s : gmw * nat) =>
    do p <- get (gWords (fst s)) i;
    match p with
    | None => do g <- gmap i (r, snd s) (fst s); Ok (g, snd s + 1)
    | Some _ => Ok s
    end) (length ws0) 0 (fresh junk (gRem g) g, 0)) as ([g' j'] & E & E1 & ws & rem & E2 & E3 & E4 & E5).
  - split; [reflexivity|]. exists ws0, (gRem g). split; [reflexivity|]. split; [reflexivity|]. split; [exact (inv_rem HI)|].
    intros w. destruct (nth_error ws0 w) as [[p|]|]; reflexivity.
  - intros i [g1 j1] Hi (E1 & ws & rem & E2 & E3 & E4 & E5). cbn [fst snd] in *. subst g1. cbn [gWords].
    destruct (nth_error ws i) as [x|] eqn:EX; [|apply nth_error_None in EX; lia]. unfold get. rewrite EX. cbn [bind]. pose proof (E5 i) as E5i. rewrite EX in E5i.
    destruct (nth_error ws0 i) as [[p|]|] eqn:EI; [| |discriminate E5i].
    + injection E5i as ->. eexists. split; [reflexivity|]. cbn [fst snd]. split.
      * replace (i + 1) with (S i) by lia. rewrite (rank_S EI). cbn [is_none]. lia.
      * exists ws, rem. split; [reflexivity|]. split; [exact E3|]. split; [exact E4|]. intros w. rewrite E5. destruct (nth_error ws0 w) as [[q|]|] eqn:EW; try reflexivity.
        assert (w <> i) by congruence. destruct (Nat.ltb_spec w i); destruct (Nat.ltb_spec w (i + 1)); try reflexivity; lia.
    + rewrite Nat.ltb_irrefl in E5i. injection E5i as ->.
      rewrite gmap_ok; cbn [gWords gRem gN gIns gOuts gHeap]; [|exact EX|rewrite E4; exact (rank_pos EX)]. cbn [bind].
      eexists. split; [reflexivity|]. cbn [fst snd]. split.
      * replace (i + 1) with (S i) by lia. rewrite (rank_S EI). cbn [is_none]. lia.
      * exists (upd ws i (Some (r, j1))), (rem - 1). split; [reflexivity|]. split; [rewrite upd_length; exact E3|]. split; [pose proof (rank_upd (r, j1) EX); lia|].
        intros w. destruct (Nat.eq_dec i w) as [<-|D].
        -- rewrite nth_error_upd_eq by lia. rewrite EI. rewrite (proj2 (Nat.ltb_lt _ _)) by lia. rewrite E1. reflexivity.
        -- rewrite nth_error_upd_ne by exact D. rewrite E5. destruct (nth_error ws0 w) as [[q|]|] eqn:EW; try reflexivity.
           destruct (Nat.ltb_spec w i); destruct (Nat.ltb_spec w (i + 1)); try reflexivity; lia.
  - cbv zeta. fold r. fold ws0. rewrite E. cbn [bind fst snd] in *. subst g'. cbn [gRem].
    assert (HW : forall w, nth_error ws w = match nth_error ws0 w with Some None => Some (Some (r, rank ws0 w)) | o => o end).
    { intros w. rewrite E5. destruct (nth_error ws0 w) as [[q|]|] eqn:EW; try reflexivity. apply nth_error_lt in EW. cbn [Nat.add]. rewrite (proj2 (Nat.ltb_lt _ _) EW). reflexivity. }
    assert (ER : rem = 0). { rewrite E4. apply rank_zero. intros w Hw. rewrite HW in Hw. destruct (nth_error ws0 w) as [[q|]|]; discriminate Hw. }
    rewrite ER. rewrite Nat.eqb_refl. eexists. split; [reflexivity|]. cbn [gN gIns gOuts gWords gHeap].
    assert (EP : forall p, ptr_ok g p -> ptr_ok (Gm (gN g) (gIns g) (gOuts g) ws (gHeap g ++ [R]) 0) p).
    { intros p (rg & row & P1 & P2 & P3 & P4). exists rg, row. split; [|auto]. cbn [gHeap]. rewrite nth_error_app1; [exact P1|exact (nth_error_lt P1)]. }
    split; [|do 3 (split; [reflexivity|]); split; [exact E3|split]].
    + constructor; cbn [gRem gWords].
      * rewrite <- ER. exact E4.
      * intros w p. rewrite HW. destruct (nth_error ws0 w) as [[q|]|] eqn:EW; intros H; [apply EP; rewrite <- EW in H; exact (inv_ptr HI H)| |discriminate H].
        injection H as <-. exists R, (map (junk r (rank ws0 w)) (seq 0 (gW g))). cbn [gHeap fst snd gW gN]. rewrite nth_error_app2 by (unfold r; lia). unfold r at 1. rewrite Nat.sub_diag.
        split; [reflexivity|]. split; [|split; [rewrite map_length, seq_length; reflexivity|reflexivity]]. unfold R. cbn [rgRows]. rewrite nth_error_map.
        rewrite (@seq_nth_error 0 (gRem g) (rank ws0 w)); [reflexivity|]. rewrite (inv_rem HI). fold ws0.
        pose proof (rank_S EW) as RS. cbn [is_none] in RS. pose proof (nth_error_lt EW) as LW. pose proof (@rank_le ws0 (S w) (length ws0) LW). lia.
      * intros w1 w2 p. rewrite !HW. destruct (nth_error ws0 w1) as [[q1|]|] eqn:W1; intros Q1; try discriminate Q1;
          destruct (nth_error ws0 w2) as [[q2|]|] eqn:W2; intros Q2; try discriminate Q2.
        -- rewrite <- W1 in Q1. rewrite <- W2 in Q2. exact (inv_inj HI Q1 Q2).
        -- injection Q2 as <-. rewrite <- W1 in Q1. destruct (inv_ptr HI Q1) as (rg & row & P1 & _). cbn [fst] in P1. apply nth_error_lt in P1. unfold r in P1. lia.
        -- injection Q1 as <-. rewrite <- W2 in Q2. destruct (inv_ptr HI Q2) as (rg & row & P1 & _). cbn [fst] in P1. apply nth_error_lt in P1. unfold r in P1. lia.
        -- injection Q1 as <-. injection Q2 as Q2. pose proof (rank_S W1) as R1. pose proof (rank_S W2) as R2. cbn [is_none] in R1, R2.
           destruct (Nat.lt_trichotomy w1 w2) as [D|[D|D]]; [|exact D|].
           ++ pose proof (@rank_le ws0 (S w1) w2 D). lia.
           ++ pose proof (@rank_le ws0 (S w2) w1 D). lia.
    + intros w p Hw. rewrite HW. fold ws0 in Hw. rewrite Hw. split; [reflexivity|]. destruct (inv_ptr HI Hw) as (rg & row & P1 & _). apply nth_error_lt in P1.
      unfold get_row, get. cbn [gHeap]. rewrite nth_error_app1 by exact P1. reflexivity.
    + intros w Hw. rewrite HW. fold ws0 in Hw. rewrite Hw. reflexivity.
Qed.
