(* Model of AggTree::apply run by two parties on their xor shares (secure-join/AggTree/AggTree.cpp:150-175).
   Each party keeps its own levels and moves its own rows with the functions of AggModel (V is the
   list of bits of an entry); the only interaction is one Gmw run per level on the way up, one per
   level on the way down and one for the leaves.  A run takes, per party, the list of its lanes: row
   r of every mapped input; it returns the lanes of the outputs.  In a full aggregation one run
   serves the prefix and the suffix half.  Sizes are public: both parties have the same number of
   rows, and the shape of the tree is computed once. *)
From Verif Require Import Base GmwModel ShuffleModel ShuffleSpec AggModel AggCirModel.

(* the shares of one row of the mapped matrices (Gmw::mapInput, GMW/Gmw.h:141-157) *)
Notation lane_in := (list (list bool)).
(* a Gmw run of both parties, AggTree.cpp:339, 592, 893 *)
Definition grun : Type := list lane_in -> list lane_in -> outcome (list lane_in * list lane_in).
(* value and bit of an entry of a level, Level.h:101-119 *)
Notation vent := (@ent (list bool)).
(* the levels and the root (parent) of one direction, AggTree.cpp:156-158 *)
Definition side : Type := (list (@split (list bool)) * list vent)%type.

(* an action that is only done if the flag is set (if (mType & ...), AggTree.cpp:315, 326) *)
Definition flagged {A} (b : bool) (f : outcome A) (a : A) : outcome A := if b then f else Ok a.

Section Two.
Variable zero : list bool.
Variable ty : agg_type.
Variable sh : shape.

(* the split of the leaves across two levels, AggTree.cpp:300-305 *)
Definition up_init (leaves : @split (list bool)) : outcome (list (@split (list bool))) :=
  let nl := length (sSizes sh) in
  if sComplete sh then Ok (leaves :: repeat ([], []) (nl - 1)) else
  do s1 <- get (sSizes sh) 1;
  do s0 <- get (sSizes sh) 0;
  do l1 <- level_copy zero leaves (sR sh * 2) (sR sh) s1;
  do l0 <- level_reshape leaves s0;
  set (l0 :: repeat ([], []) (nl - 1)) 1 l1.
(* the size checks of mapInput for the children of level lvl, AggTree.cpp:318-321, 329-332 *)
Definition up_check (lvl : nat) (st : side) : outcome (@split (list bool)) :=
  do children <- get (fst st) lvl;
  do sz <- get (sSizes sh) lvl;
  do _ <- throw_if (negb (length (fst children) =? sz / 2));
  do _ <- throw_if (negb (length (snd children) =? sz / 2));
  Ok children.
(* the parents are stored in the next level, AggTree.cpp:342-369 *)
Definition up_store (lvl : nat) (st : side) (parent : list vent) : outcome side :=
  let nl := length (sSizes sh) in
  if lvl =? nl - 1 - 1 then Ok (fst st, parent) else
  do sz1 <- get (sSizes sh) (lvl + 1);
  do sp <- get (fst st) (lvl + 1);
  if sz1 / 2 =? 0 then UB else
  do l <- writeN (resize zero (sz1 / 2) (fst sp)) 0 (evens parent);
  do r <- writeN (resize zero (sz1 / 2) (snd sp)) 0 (odds parent);
  do levels <- set (fst st) (lvl + 1) (l, r);
  Ok (levels, parent).

(* the order of mapInput, AggTree.cpp:318-321 *)
Definition up_row (l r : vent) : lane_in := [fst l; fst r; [snd l]; [snd r]].
(* both halves of the inputs, AggTree.cpp:315-336 *)
Definition up_lanes (pre suf : @split (list bool)) : list lane_in :=
  match ty with
  | Prefix => map2 up_row (fst pre) (snd pre)
  | Suffix => map2 up_row (fst suf) (snd suf)
  | Full => map2 (@app _) (map2 up_row (fst pre) (snd pre)) (map2 up_row (fst suf) (snd suf))
  end.
(* the outputs 0, 1 (or 2, 3) of a lane as an entry, AggTree.cpp:322-323, 333-334 *)
Definition lane_ent (y : lane_in) : vent := (nth 0 y [], hd false (nth 1 y [])).
(* what a party puts into the run of a level, AggTree.cpp:310-337 *)
Definition up_send (lvl : nat) (p : side * side) : outcome (list lane_in) :=
  do a <- flagged (has_pre ty) (up_check lvl (fst p)) ([], []);
  do b <- flagged (has_suf ty) (up_check lvl (snd p)) ([], []);
  Ok (up_lanes a b).
(* and what it does with the outputs, AggTree.cpp:342-369 *)
Definition up_recv (lvl : nat) (p : side * side) (ys : list lane_in) : outcome (side * side) :=
  do a <- flagged (has_pre ty) (up_store lvl (fst p) (map lane_ent ys)) (fst p);
  do b <- flagged (has_suf ty) (up_store lvl (snd p) (map (fun y => lane_ent (if has_pre ty then skipn 2 y else y)) ys)) (snd p);
  Ok (a, b).
(* AggTree::upstream by both parties from the loaded leaves on, AggTree.cpp:307-371 *)
Definition two_up (run : nat -> grun) (s : (side * side) * (side * side)) : outcome ((side * side) * (side * side)) :=
  forN 0 (length (sSizes sh) - 1) (fun lvl s =>
    do x0 <- up_send lvl (fst s); do x1 <- up_send lvl (snd s);
    do y <- run lvl x0 x1;
    do p0 <- up_recv lvl (fst s) (fst y); do p1 <- up_recv lvl (snd s) (snd y);
    Ok (p0, p1)) s.

(* parents and new values of one direction on the way down, AggTree.cpp:519-539 *)
Definition dside : Type := (list (list bool) * (list (list bool) * list (list bool)))%type.
(* the size checks of mapInput on the way down, AggTree.cpp:561-563, 577-579 *)
Definition down_check (levels : list (@split (list bool))) (cLvl : nat) (st : dside) : outcome (@split (list bool)) :=
  do children <- get levels cLvl;
  do sz <- get (sSizes sh) cLvl;
  do _ <- throw_if (negb (length (fst children) =? sz / 2));
  do _ <- throw_if (negb (length (snd children) =? sz / 2));
  do _ <- throw_if (negb (length (fst st) =? sz / 2));
  Ok children.
(* the children become the next parents and, on the leaf levels, the new values: AggTree.cpp:611-733 *)
Definition down_store (levels : list (@split (list bool))) (cLvl : nat) (st : dside) (t0 t1 : list (list bool)) : outcome dside :=
  do parent <- (if cLvl =? 0 then Ok (fst st) else
    do nc <- get levels (cLvl - 1);
    let np := length (fst nc) in
    if Nat.odd np then UB else
    do a <- readN t0 0 (np / 2);
    do b <- readN t1 0 (np / 2);
    Ok (interleave a b));
  do s0 <- get (sSizes sh) 0;
  do s1 <- get (sSizes sh) 1;
  do nv <- (if negb (sComplete sh) && (cLvl =? 1) then
      do _ <- (if sR sh * 2 =? s0 then Ok tt else UB);
      let size := 8 * ((s1 - sR sh) / 16) in
      do a <- readN t0 (8 * (sR sh / 16)) size;
      do b <- readN t1 (8 * (sR sh / 16)) size;
      do l <- writeN (repeat zero (sN16 sh / 2)) (8 * (s0 / 16)) a;
      do r <- writeN (repeat zero (sN16 sh / 2)) (8 * (s0 / 16)) b;
      Ok (l, r)
    else if negb (sComplete sh) && (cLvl =? 0) then
      do a <- readN t0 0 (8 * (s0 / 16));
      do b <- readN t1 0 (8 * (s0 / 16));
      do l <- writeN (fst (snd st)) 0 a;
      do r <- writeN (snd (snd st)) 0 b;
      Ok (l, r)
    else if sComplete sh && (cLvl =? 0) then Ok (t0, t1)
    else Ok (snd st));
  Ok (parent, nv).
(* the order of mapInput on the way down, AggTree.cpp:561-563 (left child) and 577-579 (right child) *)
Definition down_row (e : vent) (v : list bool) : lane_in := [fst e; [snd e]; v].
(* both halves, AggTree.cpp:555-590 *)
Definition down_lanes (pre suf : @split (list bool)) (vp vs : list (list bool)) : list lane_in :=
  match ty with
  | Prefix => map2 down_row (fst pre) vp
  | Suffix => map2 down_row (snd suf) vs
  | Full => map2 (@app _) (map2 down_row (fst pre) vp) (map2 down_row (snd suf) vs)
  end.
(* what a party puts into the run of a level, AggTree.cpp:548-590 *)
Definition down_send (levels : list (@split (list bool)) * list (@split (list bool))) (cLvl : nat) (p : dside * dside) : outcome (list lane_in) :=
  do a <- flagged (has_pre ty) (down_check (fst levels) cLvl (fst p)) ([], []);
  do b <- flagged (has_suf ty) (down_check (snd levels) cLvl (snd p)) ([], []);
  Ok (down_lanes a b (fst (fst p)) (fst (snd p))).
(* output i of every lane, AggTree.cpp:570-571, 586-587 *)
Definition lane_out (i : nat) (ys : list lane_in) : list (list bool) := map (fun y => nth i y []) ys.
(* and what it does with the outputs, AggTree.cpp:611-733 *)
Definition down_recv (levels : list (@split (list bool)) * list (@split (list bool))) (cLvl : nat) (p : dside * dside) (ys : list lane_in) : outcome (dside * dside) :=
  let o := if has_pre ty then 2 else 0 in
  do a <- flagged (has_pre ty) (down_store (fst levels) cLvl (fst p) (lane_out 0 ys) (lane_out 1 ys)) (fst p);
  do b <- flagged (has_suf ty) (down_store (snd levels) cLvl (snd p) (lane_out o ys) (lane_out (o + 1) ys)) (snd p);
  Ok (a, b).
(* AggTree::downstream by both parties, AggTree.cpp:545-734 *)
Definition two_down (run : nat -> grun) (lv0 lv1 : list (@split (list bool)) * list (@split (list bool))) (s : (dside * dside) * (dside * dside))
  : outcome ((dside * dside) * (dside * dside)) :=
  let top := length (sSizes sh) - 1 in
  forN 0 top (fun k s =>
    let cLvl := top - k - 1 in
    do x0 <- down_send lv0 cLvl (fst s); do x1 <- down_send lv1 cLvl (snd s);
    do y <- run cLvl x0 x1;
    do p0 <- down_recv lv0 cLvl (fst s) (fst y); do p1 <- down_recv lv1 cLvl (snd s) (snd y);
    Ok (p0, p1)) s.

(* the order of mapInput for the leaves, AggTree.cpp:857-890 *)
Definition leaf_lanes (pre suf : @split (list bool)) (vp vs : list (list bool) * list (list bool)) : list lane_in :=
  let vals := fun (s : @split (list bool)) => map2 (fun a b : vent => [fst a; fst b]) (fst s) (snd s) in
  let bits := fun (s : @split (list bool)) => map2 (fun a b : vent => [[snd a]; [snd b]]) (fst s) (snd s) in
  let news := fun (v : list (list bool) * list (list bool)) => map2 (fun a b : list bool => [a; b]) (fst v) (snd v) in
  let apps := map2 (@app (list bool)) in
  match ty with
  | Prefix => apps (vals pre) (apps (news vp) (bits pre))
  | Suffix => apps (vals suf) (apps (news vs) (bits suf))
  | Full => apps (vals pre) (apps (apps (news vp) (bits pre)) (apps (news vs) (bits suf)))
  end.
(* the size checks of mapInput for the leaves, GMW/Gmw.h:141-149 as called in AggTree.cpp:857-890 *)
Definition leaf_check (leaves : @split (list bool)) (v : list (list bool) * list (list bool)) : outcome unit :=
  let h := sN16 sh / 2 in
  throw_if (negb ((length (fst leaves) =? h) && (length (snd leaves) =? h) && (length (fst v) =? h) && (length (snd v) =? h))).
(* what a party puts into the leaf run, AggTree.cpp:857-890: level 0 has been reshaped to all leaves
   again (AggTree.cpp:736, Level.h:376-389), which are the loaded ones *)
Definition leaf_send (leaves : @split (list bool) * @split (list bool)) (d : dside * dside) : outcome (list lane_in) :=
  do _ <- flagged (has_pre ty) (leaf_check (fst leaves) (snd (fst d))) tt;
  do _ <- flagged (has_suf ty) (leaf_check (snd leaves) (snd (snd d))) tt;
  Ok (leaf_lanes (fst leaves) (snd leaves) (snd (fst d)) (snd (snd d))).

(* loading the leaves of one party, AggTree.cpp:297-305 (Level.h:179-290); without the flag the
   arrays stay empty *)
Definition two_load (src : list (list bool)) (ctrl : list bool) : outcome ((@split (list bool) * @split (list bool)) * (side * side)) :=
  do a <- flagged (has_pre ty) (load_pre zero (sN16 sh) src ctrl) ([], []);
  do b <- flagged (has_suf ty) (load_suf zero (sN16 sh) src ctrl) ([], []);
  do la <- flagged (has_pre ty) (up_init a) [];
  do lb <- flagged (has_suf ty) (up_init b) [];
  Ok ((a, b), ((la, []), (lb, []))).
(* the root's values go down, AggTree.cpp:165-166 *)
Definition down_start (p : side * side) : dside * dside :=
  ((map fst (snd (fst p)), ([], [])), (map fst (snd (snd p)), ([], []))).
End Two.

(* AggTree::apply by both parties, AggTree.cpp:150-175 and computeLeaf 842-932; ups, downs and leaf
   are the Gmw runs *)
Definition agg_two (ty : agg_type) (zero : list bool) (ups downs : nat -> grun) (leaf : grun)
    (src0 src1 : list (list bool)) (ctrl0 ctrl1 : list bool) : outcome (list (list bool) * list (list bool)) :=
  do sh <- tree_sizes (length src0);
  do _ <- throw_if (negb (length src0 =? length ctrl0));
  do _ <- throw_if (negb (length src1 =? length ctrl1));
  do l0 <- two_load zero ty sh src0 ctrl0;
  do l1 <- two_load zero ty sh src1 ctrl1;
  do u <- two_up zero ty sh ups (snd l0, snd l1);
  let lv := fun p : side * side => (fst (fst p), fst (snd p)) in
  do d <- two_down zero ty sh downs (lv (fst u)) (lv (snd u)) (down_start (fst u), down_start (snd u));
  do x0 <- leaf_send ty sh (fst l0) (fst d);
  do x1 <- leaf_send ty sh (fst l1) (snd d);
  do y <- leaf x0 x1;
  do o0 <- leaf_rows zero (sN sh) (lane_out 0 (fst y)) (lane_out 1 (fst y));
  do o1 <- leaf_rows zero (sN sh) (lane_out 0 (snd y)) (lane_out 1 (snd y));
  Ok (o0, o1).
