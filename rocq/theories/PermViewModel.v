(* What each party of the permutation protocols sees: the messages of PermCorrelation.{h,cpp} and of
   ComposedPerm.{h,cpp} along a history of operations. *)
From Verif Require Import Base Words PermModel Mod3Model ConvModel PermCorModel.

(* the one message of an operation: x ^ mask of the receiver (PermCorrelation.cpp:156-170) or delta
   of the sender (PermCorrelation.h:62-75) *)
Inductive cmsg := MBytes (x : list N) | MPerm (d : list nat).

(* the message of one operation, PermCorrelation.cpp:136-190, .h:62-75; as in cor_step *)
Definition cor_msg (st : cor_s * cor_r) (o : cop) : outcome cmsg :=
  let '(Se, R) := st in
  match o with
  | OApply op w xs xr =>
    do r <- cor_recv_apply R op (Mat (rows (crA R)) w xr) (zmat (rows (crA R)) w);
    Ok (MBytes (fst r))
  | ODerand p => do s <- cor_send_derand Se p; Ok (MPerm (fst s))
  end.

(* the messages of a history with both parties' outputs, PermCorrelation.cpp:72-190, .h:62-130 *)
Fixpoint cor_trace (st : cor_s * cor_r) (h : list cop) : outcome (list (cmsg * (list N * list N))) :=
  match h with
  | [] => Ok []
  | o :: r =>
    do m <- cor_msg st o;
    do x <- cor_step st o;
    do y <- cor_trace (snd x) r;
    Ok ((m, fst x) :: y)
  end.

(* what the sender (PermCorrelation.cpp:71-132) and the receiver (PermCorrelation.cpp:136-190) see:
   the messages and their own outputs *)
Definition cor_view_s (S : cor_s) (R : cor_r) (h : list cop) : outcome (list (cmsg * list N)) :=
  do t <- cor_trace (S, R) h; Ok (map (fun m => (fst m, fst (snd m))) t).
(* PermCorrelation.cpp:136-190 *)
Definition cor_view_r (S : cor_s) (R : cor_r) (h : list cop) : outcome (list (cmsg * list N)) :=
  do t <- cor_trace (S, R) h; Ok (map (fun m => (fst m, snd (snd m))) t).

(* ---------------- ComposedPerm ---------------- *)
(* one operation of the two parties, ComposedPerm.cpp:6-101 *)
Inductive mop := MApply (op : PermOp) (w : nat) (x0 x1 : list N) | MDerand (a0 a1 : list N).

(* what parties 0 and 1 receive in an apply, ComposedPerm.cpp:31-41: the messages of the other
   party's receiver.  As in comp_apply, for parties 0 and 1. *)
Definition comp_apply_msgs (c0 c1 : comp) (op : PermOp) (x0 x1 : mat N) : outcome (list N * list N) :=
  let z (x : mat N) := zmat (rows x) (cols x) in
  match op with
  | Regular =>
    do m1 <- cor_recv_apply (cpR c1) op x1 (z x1);
    do a <- comp_round (cpS c0) (cpR c1) op x0 x1;
    do m0 <- cor_recv_apply (cpR c0) op (fst (fst a)) (z (fst (fst a)));
    Ok (fst m1, fst m0)
  | Inverse =>
    do m0 <- cor_recv_apply (cpR c0) op x0 (z x0);
    do a <- comp_round (cpS c1) (cpR c0) op x1 x0;
    do m1 <- cor_recv_apply (cpR c1) op (fst (fst a)) (z (fst (fst a)));
    Ok (fst m1, fst m0)
  end.

(* what they receive in a derandomize, ComposedPerm.cpp:44-101: party 0 the share d.mShare of
   party 1, party 1 the message of party 0's receiver and the difference of party 0's sender *)
Definition comp_derand_msgs (c0 c1 : comp) (a0 a1 : list N) : outcome (list N * (list N * list nat)) :=
  let m a := Mat (length a) 4 (bytes_of_u32s a) in
  do r <- cor_recv_apply (cpR c0) Inverse (m a0) (zmat (length a0) 4);
  do s <- cor_send_apply_in (cpS c1) Inverse (m a1) (zmat (length a1) 4) (fst r);
  let d0 := u32s_of_bytes (length a0) (dat (fst (snd r))) in
  let d1 := u32s_of_bytes (length a1) (dat (fst s)) in
  do x <- cor_send_derand (cpS c0) (map N.to_nat (map2 N.lxor d1 d0));
  Ok (dat (fst s), (fst r, fst x)).

(* the messages to each party and the outputs of one operation, ComposedPerm.cpp:6-101 *)
Definition comp_step (st : comp * comp) (o : mop) : outcome (((list cmsg * list cmsg) * (list N * list N)) * (comp * comp)) :=
  let '(c0, c1) := st in
  match o with
  | MApply op w x0 x1 =>
    let n0 := rows (csDelta (cpS c0)) in
    let n1 := rows (csDelta (cpS c1)) in
    do m <- comp_apply_msgs c0 c1 op (Mat n0 w x0) (Mat n1 w x1);
    do r <- comp_apply c0 c1 op (Mat n0 w x0) (Mat n1 w x1) (zmat n0 w) (zmat n1 w);
    let '((z0, d0), (z1, d1)) := r in
    Ok ((([MBytes (fst m)], [MBytes (snd m)]), (dat z0, dat z1)), (d0, d1))
  | MDerand a0 a1 =>
    do m <- comp_derand_msgs c0 c1 a0 a1;
    do r <- comp_derand c0 c1 a0 a1;
    Ok ((([MBytes (fst m)], [MBytes (fst (snd m)); MPerm (snd (snd m))]), ([], [])), r)
  end.

(* a history of operations, ComposedPerm.cpp:6-101 *)
Fixpoint comp_trace (st : comp * comp) (h : list mop) : outcome (list ((list cmsg * list cmsg) * (list N * list N))) :=
  match h with
  | [] => Ok []
  | o :: r =>
    do x <- comp_step st o;
    do y <- comp_trace (snd x) r;
    Ok (fst x :: y)
  end.

(* what party 0 and party 1 see: the messages to them and their outputs, ComposedPerm.cpp:6-101 *)
Definition comp_view0 (c0 c1 : comp) (h : list mop) : outcome (list (list cmsg * list N)) :=
  do t <- comp_trace (c0, c1) h; Ok (map (fun m => (fst (fst m), fst (snd m))) t).
(* ComposedPerm.cpp:6-101 *)
Definition comp_view1 (c0 c1 : comp) (h : list mop) : outcome (list (list cmsg * list N)) :=
  do t <- comp_trace (c0, c1) h; Ok (map (fun m => (snd (fst m), snd (snd m))) t).
