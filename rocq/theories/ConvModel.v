(* Model of the two-party subprotocols of the AltMod PRF:
   - ConvertToF3Sender/Recver::convert, secure-join/Prf/ConvertToF3.cpp;
   - AltModWPrf*::mod2Ole and mod2OtF4, secure-join/Prf/AltModPrfProto.cpp:565-1156.
   A correlation arrives in segments (Request::get); a segment is the list of its 128-bit
   positions, each position holding one word of every array of the C++ correlation.  A
   party is a function of its input, its segments and the messages it receives; messages
   are lists of blocks.  Blocks are N below 2^128. *)
From Verif Require Import Base Words Mod3Model.

(* get when no segment is left throws, CorGenerator/Request.h:70-71 *)
Definition next_seg {C} (segs : list C) : outcome (C * list C) :=
  match segs with [] => Throw | s :: r => Ok (s, r) end.

(* coproto recv into a span of n elements: a message of another size is an error
   (used at ConvertToF3.cpp:98 and AltModPrfProto.cpp:700-1150) *)
Definition recv_n {M} (n : nat) (msgs : list (list M)) : outcome (list M * list (list M)) :=
  match msgs with
  | [] => Hang
  | m :: r => if length m =? n then Ok (m, r) else Throw
  end.

(* ---------------- ConvertToF3 ---------------- *)

(* one position of TritOtSend (mLsb[0],mMsb[0],mLsb[1],mMsb[1]) and of TritOtRecv
   (mChoice, mLsb, mMsb), CorGenerator/TritOtBatch.h *)
Record trit_s := TritS { tsL0 : N; tsM0 : N; tsL1 : N; tsM1 : N }.
(* TritOtRecv, Correlations.h:172-197 *)
Record trit_r := TritR { trC : N; trL : N; trM : N }.

(* ci = choice ^ xi, ConvertToF3.cpp:80-83 *)
Definition conv_cor (t : trit_r) (x : N) : N := N.lxor (trC t) x.

(* loop body of the sender, ConvertToF3.cpp:251-275; result ((d1, d0), (y1, y0)) *)
Definition conv_send1 (t : trit_s) (x cr : N) : (N * N) * (N * N) :=
  let tLsb := N.lxor (tsL0 t) (tsL1 t) in
  let tMsb := N.lxor (tsM0 t) (tsM1 t) in
  let s0Lsb := N.lxor (N.land cr tLsb) (tsL0 t) in
  let s0Msb := N.lxor (N.land cr tMsb) (tsM0 t) in
  let s1Lsb := N.lxor s0Lsb tLsb in
  let s1Msb := N.lxor s0Msb tMsb in
  let d := mod3Sub s0Msb s0Lsb s1Msb s1Lsb in
  let d := mod3Add (fst d) (snd d) x (wnot 128 x) in
  let y := mod3Add1 s0Lsb s0Msb x in
  (d, y).

(* loop body of the receiver, ConvertToF3.cpp:136-143; result (y1, y0) *)
Definition conv_recv1 (t : trit_r) (x d0 d1 : N) : N * N :=
  let d0 := N.land d0 x in
  let d1 := N.land d1 x in
  mod3Add d1 d0 (trM t) (trL t).

(* first loop of Recver::convert, ConvertToF3.cpp:66-104: the messages sent.  The pointer
   j into x is the suffix of x still to do. *)
Fixpoint conv_recv_cor (segs : list (list trit_r)) (x : list N) : outcome (list (list N)) :=
  match x with
  | [] => Ok []
  | _ => match segs with
    | [] => Throw
    | t :: segs' =>
      let m := Nat.min (length x) (length t) in
      do r <- conv_recv_cor segs' (skipn m x);
      Ok (map2 conv_cor (firstn m t) (firstn m x) :: r)
    end
  end.

(* second loop of Recver::convert, ConvertToF3.cpp:106-158: consumes the deltas; each is
   d0 (m words) followed by d1 (m words) *)
Fixpoint conv_recv_out (segs : list (list trit_r)) (x : list N) (msgs : list (list N))
  : outcome (list (N * N)) :=
  match x with
  | [] => Ok []
  | _ => match segs with
    | [] => UB
    | t :: segs' =>
      let m := Nat.min (length x) (length t) in
      do d <- recv_n (2 * m) msgs;
      let d0 := firstn m (fst d) in
      let d1 := skipn m (fst d) in
      do r <- conv_recv_out segs' (skipn m x) (snd d);
      Ok (map2 (fun tx d => conv_recv1 (fst tx) (snd tx) (fst d) (snd d))
            (combine (firstn m t) (firstn m x)) (combine d0 d1) ++ r)
    end
  end.

(* Sender::convert, ConvertToF3.cpp:196-297: (messages sent, y) *)
Fixpoint conv_send (segs : list (list trit_s)) (x : list N) (msgs : list (list N))
  : outcome (list (list N) * list (N * N)) :=
  match x with
  | [] => Ok ([], [])
  | _ => match segs with
    | [] => Throw
    | t :: segs' =>
      let m := Nat.min (length x) (length t) in
      do c <- recv_n m msgs;
      let o := map2 (fun tx c => conv_send1 (fst tx) (snd tx) c)
                 (combine (firstn m t) (firstn m x)) (fst c) in
      let d0 := map (fun o => snd (fst o)) o in
      let d1 := map (fun o => fst (fst o)) o in
      do r <- conv_send segs' (skipn m x) (snd c);
      Ok ((d0 ++ d1) :: fst r, map snd o ++ snd r)
    end
  end.

(* the size checks, ConvertToF3.cpp:15-20, 38 and 173-178, 193; request sizes are in bits.
   The receiver's exceptions after line 22 are swallowed by the catch at 160-164, so a
   failing check at 38 leaves y unwritten; it is Throw here. *)
Definition conv_recv_checks (nx ny1 ny0 req : nat) : outcome unit :=
  do _ <- throw_if (negb (ny1 =? nx));
  do _ <- throw_if (negb (ny0 =? nx));
  do _ <- throw_if (req <? nx);
  throw_if (negb (req =? nx * 128)).
(* the checks of the sender, ConvertToF3.cpp:173-178 and 193 *)
Definition conv_send_checks (nx ny1 ny0 req : nat) : outcome unit :=
  do _ <- throw_if (negb (ny1 =? nx));
  do _ <- throw_if (negb (ny0 =? nx));
  do _ <- throw_if (req <? nx);
  throw_if (req <? nx * 128).

(* ---------------- mod2OtF4 ---------------- *)

(* one position of F4BitOtSend (mOts[0..3]) and F4BitOtRecv (mChoiceLsb, mChoiceMsb, mOts) *)
Record f4_s := F4S { fs0 : N; fs1 : N; fs2 : N; fs3 : N }.
(* F4BitOtRecv, Correlations.h:133-151 *)
Record f4_r := F4R { frL : N; frM : N; frO : N }.

(* the lambda swap, AltModPrfProto.cpp:944-949 *)
Definition f4_swap (l0 l1 c : N) : N * N :=
  let diff := N.lxor l0 l1 in
  let l0 := N.lxor l0 (N.land c diff) in
  (l0, N.lxor l0 diff).

(* loop body of the sender, AltModPrfProto.cpp:935-1005; result ((t1, t2), out) *)
Definition f4_send1 (o : f4_s) (v0 v1 d0 d1 : N) : (N * N) * N :=
  let (o0, o1) := f4_swap (fs0 o) (fs1 o) d0 in
  let (o2, o3) := f4_swap (fs2 o) (fs3 o) d0 in
  let (o0, o2) := f4_swap o0 o2 d1 in
  let (o1, o3) := f4_swap o1 o3 d1 in
  let Tv0 := v0 in
  let Tv1 := wnot 128 (N.lxor v0 v1) in
  let Tv2 := v1 in
  let out := N.lxor Tv0 o0 in
  let t1 := N.lxor (N.lxor Tv1 out) o1 in
  let t2 := N.lxor (N.lxor Tv2 out) o2 in
  ((t1, t2), out).

(* receiver: derand, AltModPrfProto.cpp:1081-1089, and output, 1140-1150 *)
Definition f4_derand (o : f4_r) (u0 u1 : N) : N * N := (N.lxor u0 (frL o), N.lxor u1 (frM o)).
(* the receiver's output, AltModPrfProto.cpp:1140-1150 *)
Definition f4_recv1 (o : f4_r) (u0 u1 t1 t2 : N) : N :=
  N.lxor (N.lxor (N.land u0 t1) (N.land u1 t2)) (frO o).

(* a buffer of pairs [a0;b0;a1;b1;...] *)
Fixpoint inter2 (l : list (N * N)) : list N :=
  match l with [] => [] | (a, b) :: r => a :: b :: inter2 r end.
(* two consecutive derandomisation blocks per position, AltModPrfProto.cpp:1081-1089 *)
Fixpoint pairs2 (l : list N) : list (N * N) :=
  match l with a :: b :: r => (a, b) :: pairs2 r | _ => [] end.

(* The loops over rows i and columns j of mod2OtF4 and mod2Ole walk through the row-major
   matrices with one iterator, so the input is the flat list of rows*cols pairs (u0, u1);
   rows only cut the inner steps.
   AltModWPrfReceiver::mod2OtF4, first loop, AltModPrfProto.cpp:1058-1097 *)
Fixpoint f4_recv_derand (segs : list (list f4_r)) (u : list (N * N)) : outcome (list (list N)) :=
  match u with
  | [] => Ok []
  | _ => match segs with
    | [] => Throw
    | t :: segs' =>
      let m := Nat.min (length t) (length u) in
      if m =? 0 then f4_recv_derand segs' u else
      do r <- f4_recv_derand segs' (skipn m u);
      Ok (inter2 (map2 (fun o u => f4_derand o (fst u) (snd u)) (firstn m t) (firstn m u)) :: r)
    end
  end.

(* second loop, AltModPrfProto.cpp:1101-1155; an empty segment receives an empty buffer *)
Fixpoint f4_recv_out (segs : list (list f4_r)) (u : list (N * N)) (msgs : list (list N)) : outcome (list N) :=
  match u with
  | [] => Ok []
  | _ => match segs with
    | [] => UB
    | t :: segs' =>
      let m := Nat.min (length t) (length u) in
      if m =? 0 then f4_recv_out segs' u msgs else
      do d <- recv_n (2 * m) msgs;
      do r <- f4_recv_out segs' (skipn m u) (snd d);
      Ok (map2 (fun ou t => f4_recv1 (fst ou) (fst (snd ou)) (snd (snd ou)) (fst t) (snd t))
            (combine (firstn m t) (firstn m u)) (pairs2 (fst d)) ++ r)
    end
  end.

(* AltModWPrfSender::mod2OtF4, AltModPrfProto.cpp:877-1018 *)
Fixpoint f4_send (segs : list (list f4_s)) (v : list (N * N)) (msgs : list (list N))
  : outcome (list (list N) * list N) :=
  match v with
  | [] => Ok ([], [])
  | _ => match segs with
    | [] => Throw
    | t :: segs' =>
      let m := Nat.min (length t) (length v) in
      if m =? 0 then f4_send segs' v msgs else
      do d <- recv_n (2 * m) msgs;
      let o := map2 (fun ov d => f4_send1 (fst ov) (fst (snd ov)) (snd (snd ov)) (fst d) (snd d))
                 (combine (firstn m t) (firstn m v)) (pairs2 (fst d)) in
      do r <- f4_send segs' (skipn m v) (snd d);
      Ok (inter2 (map fst o) :: fst r, map snd o ++ snd r)
    end
  end.

(* ---------------- mod2Ole ---------------- *)

(* one position of BinOle: (mAdd, mMult); two consecutive positions serve one element
   (BinOle, Correlations.h:153-170) *)
Definition ole := (N * N)%type.
(* two consecutive positions, AltModPrfProto.cpp:744-747 *)
Fixpoint pairs_of {A} (l : list A) : list (A * A) :=
  match l with a :: b :: r => (a, b) :: pairs_of r | _ => [] end.

(* loop body of the sender, AltModPrfProto.cpp:615-670; result ((t1, t2), out) *)
Definition ole_send1 (o : ole * ole) (u0 u1 d0 d1 : N) : (N * N) * N :=
  let y0 := snd (fst o) in
  let y1 := snd (snd o) in
  let x0 := N.lxor (fst (fst o)) (N.land y0 d0) in
  let x1 := N.lxor (fst (snd o)) (N.land y1 d1) in
  let m0 := N.lxor x0 x1 in
  let m1 := N.lxor m0 y0 in
  let m2 := N.lxor m0 y1 in
  let t0 := N.lxor m0 u0 in
  let t1 := N.lxor (N.lxor (N.lxor (N.lxor t0 m1) u0) u1) (N.ones 128) in
  let t2 := N.lxor (N.lxor t0 m2) u1 in
  ((t1, t2), t0).

(* receiver, AltModPrfProto.cpp:744-747 and 795-798 *)
Definition ole_derand (o : ole * ole) (u0 u1 : N) : N * N :=
  (N.lxor u0 (snd (fst o)), N.lxor u1 (snd (snd o))).
(* the receiver's output, AltModPrfProto.cpp:795-798 *)
Definition ole_recv1 (o : ole * ole) (u0 u1 t1 t2 : N) : N :=
  N.lxor (N.lxor (N.lxor (N.land u0 t1) (N.land u1 t2)) (fst (fst o))) (fst (snd o)).

(* With a segment of T positions the loops do min(cols - j, (T - tIdx)/2) elements at a
   time and fetch the next segment only when tIdx = T.  After the floor(T/2) elements that
   fit, an odd T leaves tIdx = T - 1 and step = 0 for ever: Hang.  The result is the number
   of elements done with this segment. *)
Definition ole_step (T todo : nat) : outcome nat :=
  let m := Nat.min todo (T / 2) in
  if (m <? todo) && negb (2 * m =? T) then Hang else Ok m.

(* AltModWPrfReceiver::mod2Ole, first loop, AltModPrfProto.cpp:722-763.  A segment that is
   not used up is sent after the loop (762-763), its unused part is whatever the buffer held
   (0 here). *)
Fixpoint ole_recv_derand (segs : list (list ole)) (u : list (N * N)) : outcome (list (list N)) :=
  match u with
  | [] => Ok []
  | _ => match segs with
    | [] => Throw
    | t :: segs' =>
      do m <- ole_step (length t) (length u);
      do r <- ole_recv_derand segs' (skipn m u);
      Ok ((inter2 (map2 (fun o u => ole_derand o (fst u) (snd u)) (pairs_of t) (firstn m u))
            ++ repeat 0%N (length t - 2 * m)) :: r)
    end
  end.

(* second loop, AltModPrfProto.cpp:766-819 *)
Fixpoint ole_recv_out (segs : list (list ole)) (u : list (N * N)) (msgs : list (list N)) : outcome (list N) :=
  match u with
  | [] => Ok []
  | _ => match segs with
    | [] => UB
    | t :: segs' =>
      do d <- recv_n (length t) msgs;
      do m <- ole_step (length t) (length u);
      do r <- ole_recv_out segs' (skipn m u) (snd d);
      Ok (map2 (fun ou t => ole_recv1 (fst ou) (fst (snd ou)) (snd (snd ou)) (fst t) (snd t))
            (combine (firstn m (pairs_of t)) (firstn m u)) (firstn m (pairs2 (fst d))) ++ r)
    end
  end.

(* AltModWPrfSender::mod2Ole, AltModPrfProto.cpp:565-683; a segment that is not used up is
   not sent (672-675) *)
Fixpoint ole_send (segs : list (list ole)) (u : list (N * N)) (msgs : list (list N))
  : outcome (list (list N) * list N) :=
  match u with
  | [] => Ok ([], [])
  | _ => match segs with
    | [] => Throw
    | t :: segs' =>
      do d <- recv_n (length t) msgs;
      do m <- ole_step (length t) (length u);
      let o := map2 (fun ou d => ole_send1 (fst ou) (fst (snd ou)) (snd (snd ou)) (fst d) (snd d))
                 (combine (firstn m (pairs_of t)) (firstn m u)) (firstn m (pairs2 (fst d))) in
      do r <- ole_send segs' (skipn m u) (snd d);
      Ok ((if 2 * m =? length t then [inter2 (map fst o)] else []) ++ fst r, map snd o ++ snd r)
    end
  end.
