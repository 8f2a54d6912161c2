(* Model of the permutation correlations (secure-join/Perm/PermCorrelation.{h,cpp}), of the
   composed permutation (ComposedPerm.{h,cpp}) and of the PRF based generation of the
   correlations (AltModPerm.cpp).
   Matrices of blocks are byte matrices here: oc::Matrix<block> with k columns is 16k bytes per
   row (matrixCast<u8>, Util/Matrix.h).  Bytes are N below 256. *)
From Verif Require Import Base Words PermModel Mod3Model ConvModel KeyMultModel PrfModel.

(* PermCorSender, PermCorrelation.h:21-34; PermCorReceiver, PermCorrelation.h:83-92 *)
Record cor_s := CorS { csPerm : list nat; csDelta : mat N; csOff : nat }.
(* PermCorReceiver, PermCorrelation.h:83-92 *)
Record cor_r := CorR { crA : mat N; crB : mat N; crOff : nat }.

(* corSize, PermCorrelation.h:35 and :95: cols()*16 - mByteOffset in u64 *)
Definition cor_left (c off : nat) : N := (N.of_nat c + 2 ^ 64 - N.of_nat off) mod 2 ^ 64.

(* xorShare(v1, byteOffset, v2, s), PermCorrelation.cpp:37-53: vc bytes per row of v1; s has r
   rows of c bytes *)
Definition xorShare (v1 : list N) (vc off : nat) (v2 : list N) (r c : nat) (s : list N) : outcome (list N) :=
  forN 0 r (fun i s => forN 0 c (fun j s =>
    do a <- get v1 (i * vc + off + j);
    do b <- get v2 (i * c + j);
    set s (i * c + j) (N.lxor a b)) s) s.

(* the same with v2 = s, PermCorrelation.cpp:101 *)
Definition xorShareIn (v1 : list N) (vc off r c : nat) (s : list N) : outcome (list N) :=
  forN 0 r (fun i s => forN 0 c (fun j s =>
    do a <- get v1 (i * vc + off + j);
    do b <- get s (i * c + j);
    set s (i * c + j) (N.lxor a b)) s) s.

(* xorShare(v1, v2, s) with s = v2, PermCorrelation.cpp:55-66 and :131 *)
Definition xorAdd (v1 s : mat N) : outcome (mat N) :=
  do _ <- throw_if (negb (rows v1 =? rows s));
  do _ <- throw_if (negb (cols v1 =? cols s));
  do d <- forN 0 (rows v1 * cols v1) (fun i d =>
    do a <- get (dat v1) i; do b <- get d i; set d i (N.lxor a b)) (dat s);
  Ok (Mat (rows s) (cols s) d).

(* a resized matrix, PermCorrelation.h:21-92 *)
Definition zmat (r c : nat) : mat N := Mat r c (repeat 0%N (r * c)).

(* PermCorSender::apply(op, sout, chl), PermCorrelation.cpp:71-107.  The message is xEncrypted.
   A message of another size is a coproto error. *)
Definition cor_send_apply (S : cor_s) (op : PermOp) (sout : mat N) (msg : list N) : outcome (mat N * cor_s) :=
  let n := rows (csDelta S) in
  let w := cols sout in
  do _ <- throw_if (n =? 0);
  do _ <- throw_if (negb (n =? rows sout));
  do _ <- throw_if (cor_left (cols (csDelta S)) (csOff S) <? N.of_nat w)%N;
  do _ <- throw_if (negb (length msg =? n * w));
  do out <- match op with
    | Regular =>
      do xp <- perm_apply true (csPerm S) (Mat n w msg) (zmat n w) Regular;
      do d <- xorShare (dat (csDelta S)) (cols (csDelta S)) (csOff S) (dat xp) (rows sout) w (dat sout);
      Ok (Mat (rows sout) w d)
    | Inverse =>
      do x <- xorShareIn (dat (csDelta S)) (cols (csDelta S)) (csOff S) n w msg;
      perm_apply true (csPerm S) (Mat n w x) sout Inverse
    end;
  Ok (out, CorS (csPerm S) (csDelta S) (csOff S + w)).

(* PermCorSender::apply(op, in, sout, chl), PermCorrelation.cpp:114-132 *)
Definition cor_send_apply_in (S : cor_s) (op : PermOp) (x sout : mat N) (msg : list N) : outcome (mat N * cor_s) :=
  do _ <- throw_if (rows (csDelta S) =? 0);
  do r <- cor_send_apply S op sout msg;
  do xp <- perm_apply true (csPerm S) x (zmat (rows x) (cols x)) op;
  do out <- xorAdd xp (fst r);
  Ok (out, snd r).

(* the std::copy loops, PermCorrelation.cpp:159-167, 173-181 *)
Definition copy_window (m : mat N) (off n : nat) (sout : mat N) : outcome (list N) :=
  forN 0 n (fun i d =>
    do x <- readN (dat m) (i * cols m + off) (cols sout);
    writeN d (i * cols sout) x) (dat sout).

(* PermCorReceiver::apply, PermCorrelation.cpp:136-190; result (message, sout, receiver) *)
Definition cor_recv_apply (R : cor_r) (op : PermOp) (x sout : mat N) : outcome (list N * (mat N * cor_r)) :=
  let n := rows (crA R) in
  let w := cols sout in
  do _ <- throw_if (negb (rows x =? n) || negb (rows sout =? n) || negb (cols x =? w));
  do _ <- throw_if (n =? 0);
  do _ <- throw_if (cor_left (cols (crA R)) (crOff R) <? N.of_nat w)%N;
  let enc := match op with Regular => crA R | Inverse => crB R end in
  let out := match op with Regular => crB R | Inverse => crA R end in
  do msg <- xorShare (dat enc) (cols enc) (crOff R) (dat x) n w (repeat 0%N (n * w));
  do d <- copy_window out (crOff R) n sout;
  Ok (msg, (Mat (rows sout) w d, CorR (crA R) (crB R) (crOff R + w))).

(* PermCorSender::derandomize, PermCorrelation.h:62-75; result (message, sender) *)
Definition cor_send_derand (S : cor_s) (p : list nat) : outcome (list nat * cor_s) :=
  do inv <- perm_inverse p;
  do delta <- perm_compose inv (csPerm S);
  Ok (delta, CorS p (csDelta S) (csOff S)).

(* PermCorReceiver::derandomize, PermCorrelation.h:116-141 (rows of blocks are rows of bytes) *)
Definition cor_recv_derand (R : cor_r) (delta : list nat) : outcome cor_r :=
  do _ <- throw_if (negb (length delta =? rows (crA R)));
  do a <- perm_apply true delta (crA R) (zmat (rows (crA R)) (cols (crA R))) Regular;
  Ok (CorR a (crB R) (crOff R)).

(* PermCorSender::validate and PermCorReceiver::validate, PermCorrelation.cpp:6-34.  Bytewise
   where the code compares blocks.  The receiver sends mA, mB. *)
Definition cor_validate (S : cor_s) (a b : list N) : outcome unit :=
  do _ <- perm_validate (csPerm S);
  do _ <- throw_if (negb (length a =? length (dat (csDelta S))));
  do _ <- throw_if (negb (length b =? length (dat (csDelta S))));
  let c := cols (csDelta S) in
  forN 0 (length (csPerm S)) (fun i _ => forN 0 c (fun j _ =>
    do x <- get b (i * c + j);
    do y <- get (dat (csDelta S)) (i * c + j);
    do p <- get (csPerm S) i;
    do z <- get a (p * c + j);
    throw_if (negb (N.eqb (N.lxor x y) z))) tt) tt.

(* ---------------- both parties ---------------- *)

(* One online operation: apply with the sender's input (Some, cpp:114) or without (None,
   cpp:71), or derandomize to a new permutation. *)
Inductive cop := OApply (op : PermOp) (w : nat) (xs : option (list N)) (xr : list N) | ODerand (p : list nat).

(* Output matrices are freshly allocated. (one operation on both parties, PermCorrelation.cpp:72-190, .h:62-130) *)
Definition cor_step (st : cor_s * cor_r) (o : cop) : outcome ((list N * list N) * (cor_s * cor_r)) :=
  let '(Se, R) := st in
  match o with
  | OApply op w xs xr =>
    let n := rows (csDelta Se) in
    let nr := rows (crA R) in
    do r <- cor_recv_apply R op (Mat nr w xr) (zmat nr w);
    do s <- match xs with
      | Some x => cor_send_apply_in Se op (Mat n w x) (zmat n w) (fst r)
      | None => cor_send_apply Se op (zmat n w) (fst r)
      end;
    Ok ((dat (fst s), dat (fst (snd r))), (snd s, snd (snd r)))
  | ODerand p =>
    do s <- cor_send_derand Se p;
    do R' <- cor_recv_derand R (fst s);
    Ok (([], []), (snd s, R'))
  end.

(* a history of operations, PermCorrelation.cpp:72-190, .h:62-130 *)
Fixpoint cor_hist (st : cor_s * cor_r) (h : list cop) : outcome (list (list N * list N) * (cor_s * cor_r)) :=
  match h with
  | [] => Ok ([], st)
  | o :: r =>
    do x <- cor_step st o;
    do y <- cor_hist (snd x) r;
    Ok (fst x :: fst y, snd y)
  end.

(* ---------------- ComposedPerm ---------------- *)
(* ComposedPerm.h:12-22; mPartyIdx is 0 for the first party of a pair and 1 for the second *)
Record comp := Comp { cpIdx : nat; cpS : cor_s; cpR : cor_r }.

(* ComposedPerm::apply<u8>, ComposedPerm.cpp:6-42: the checks *)
Definition comp_checks (c : comp) (x out : mat N) : outcome unit :=
  let size := rows (csDelta (cpS c)) in
  do _ <- throw_if (negb (rows out =? size));
  do _ <- throw_if (negb (rows out =? rows x) || negb (cols out =? cols x));
  do _ <- throw_if (1 <? cpIdx c);
  throw_if (cor_left (cols (csDelta (cpS c))) (csOff (cpS c)) <? N.of_nat (cols x))%N.

(* the two roles of a party in the order it plays them, ComposedPerm.cpp:31-41 *)
Inductive role := RSend | RRecv.
(* the roles of a party, ComposedPerm.cpp:31-41 *)
Definition comp_roles (c : comp) (op : PermOp) : role * role :=
  if xorb (match op with Inverse => true | Regular => false end) (negb (cpIdx c =? 0))
  then (RRecv, RSend) else (RSend, RRecv).

(* one sub-protocol between the party playing RSend and the one playing RRecv (ComposedPerm.cpp:31-41) *)
Definition comp_round (S : cor_s) (R : cor_r) (op : PermOp) (xs xr : mat N) : outcome ((mat N * cor_s) * (mat N * cor_r)) :=
  do r <- cor_recv_apply R op xr (zmat (rows xr) (cols xr));
  do s <- cor_send_apply_in S op xs (zmat (rows xs) (cols xs)) (fst r);
  Ok (s, snd r).

(* the two parties' apply; if both play the same role at the same time they wait for ever (ComposedPerm.cpp:6-42) *)
Definition comp_apply (c0 c1 : comp) (op : PermOp) (x0 x1 out0 out1 : mat N) : outcome ((mat N * comp) * (mat N * comp)) :=
  do _ <- comp_checks c0 x0 out0;
  do _ <- comp_checks c1 x1 out1;
  match comp_roles c0 op, comp_roles c1 op with
  | (RSend, RRecv), (RRecv, RSend) =>
    do a <- comp_round (cpS c0) (cpR c1) op x0 x1;
    let '((y0, s0), (y1, r1)) := a in
    do b <- comp_round (cpS c1) (cpR c0) op y1 y0;
    let '((z1, s1), (z0, r0)) := b in
    Ok ((z0, Comp (cpIdx c0) s0 r0), (z1, Comp (cpIdx c1) s1 r1))
  | (RRecv, RSend), (RSend, RRecv) =>
    do a <- comp_round (cpS c1) (cpR c0) op x1 x0;
    let '((y1, s1), (y0, r0)) := a in
    do b <- comp_round (cpS c0) (cpR c1) op y0 y1;
    let '((z0, s0), (z1, r1)) := b in
    Ok ((z0, Comp (cpIdx c0) s0 r0), (z1, Comp (cpIdx c1) s1 r1))
  | _, _ => Hang
  end.

(* the bytes of a vector of u32 (matrixCast of a span of u32), little endian.  Bytes do not
   overlap, so xor puts them together. *)
Definition u32_bytes (v : N) : list N := map (fun b => N.land (N.shiftr v (8 * N.of_nat b)) 255) (seq 0 4).
(* matrixCast between u32 and u8, ComposedPerm.h:70-81 *)
Definition bytes_of_u32s (l : list N) : list N := concat (map u32_bytes l).
(* matrixCast between u32 and u8, ComposedPerm.h:70-81 *)
Definition u32_of_bytes (b : list N) : N := fold_right (fun x acc => N.lxor x (N.shiftl acc 8)) 0%N b.
(* matrixCast between u32 and u8, ComposedPerm.h:70-81 *)
Fixpoint u32s_of_bytes (n : nat) (b : list N) : list N :=
  match n with 0 => [] | S n' => u32_of_bytes (firstn 4 b) :: u32s_of_bytes n' (skipn 4 b) end.

(* ComposedPerm::compose, ComposedPerm.h:70-81: shares of *this o perm *)
Definition comp_compose (c0 c1 : comp) (a0 a1 : list N) : outcome ((list N * comp) * (list N * comp)) :=
  let m a := Mat (length a) 4 (bytes_of_u32s a) in
  do r <- comp_apply c0 c1 Regular (m a0) (m a1) (zmat (length a0) 4) (zmat (length a1) 4);
  let '((z0, c0'), (z1, c1')) := r in
  Ok ((u32s_of_bytes (length a0) (dat z0), c0'), (u32s_of_bytes (length a1) (dat z1), c1')).

(* ComposedPerm::derandomize, ComposedPerm.cpp:44-101, party 0 (c0) and party 1 (c1) *)
Definition comp_derand (c0 c1 : comp) (a0 a1 : list N) : outcome (comp * comp) :=
  let m a := Mat (length a) 4 (bytes_of_u32s a) in
  (* d = p1^-1 o newPerm *)
  do r <- cor_recv_apply (cpR c0) Inverse (m a0) (zmat (length a0) 4);
  do s <- cor_send_apply_in (cpS c1) Inverse (m a1) (zmat (length a1) 4) (fst r);
  let d0 := u32s_of_bytes (length a0) (dat (fst (snd r))) in
  let d1 := u32s_of_bytes (length a1) (dat (fst s)) in
  do _ <- throw_if (negb (length d1 =? length a0));
  let p0 := map N.to_nat (map2 N.lxor d1 d0) in
  do x <- cor_send_derand (cpS c0) p0;
  do y <- cor_recv_derand (cpR c1) (fst x);
  Ok (Comp (cpIdx c0) (snd x) (snd (snd r)), Comp (cpIdx c1) (snd s) y).

(* ---------------- generation ---------------- *)

(* genPerm(p, s, r, sizeBytes, prng), PermCorrelation.h:147-166, with the random matrices given *)
Definition gen_cor (p : list nat) (c : nat) (delta b : list N) : outcome (cor_s * cor_r) :=
  let n := length p in
  do a <- forN 0 n (fun i a => do pi <- get p i; forN 0 c (fun j a =>
    do x <- get delta (i * c + j);
    do y <- get b (i * c + j);
    set a (pi * c + j) (N.lxor x y)) a) (repeat 0%N (n * c));
  Ok (CorS p (Mat n c delta) 0, CorR (Mat n c a) (Mat n c b) 0).

(* genPerm for a ComposedPerm, ComposedPerm.h:134-150; sp0 is the random permutation *)
Definition gen_comp (p sp0 : list nat) (c : nat) (d0 b0 d1 b1 : list N) : outcome (comp * comp) :=
  do inv <- perm_inverse sp0;
  do sp1 <- perm_compose p inv;
  do x0 <- gen_cor sp0 c d0 b0;
  do x1 <- gen_cor sp1 c d1 b1;
  Ok (Comp 0 (fst x0) (snd x1), Comp 1 (fst x1) (snd x0)).

(* oc::block(high, low), and the bytes of a block matrix (AltModPerm.cpp:77 and 145) *)
Definition mkblock (hi lo : nat) : N := (N.of_nat hi * 2 ^ 64 + N.of_nat lo)%N.
(* the bytes of mDelta and mA, AltModPerm.cpp:72-81 and 139-147 *)
Definition block_bytes (v : N) : list N := map (fun b => N.land (N.shiftr v (8 * N.of_nat b)) 255) (seq 0 16).
(* the bytes of mDelta and mA, AltModPerm.cpp:72-81 and 139-147 *)
Definition bytes_of_blocks (l : list N) : list N := concat (map block_bytes l).

(* the block matrix (j, idx_i) before AES, AltModPerm.cpp:72-81 and 139-147 *)
Definition gen_points (idx : list nat) (bpr : nat) : list N :=
  concat (map (fun i => map (fun j => mkblock j i) (seq 0 bpr)) idx).

(* AltModPermGenSender::generate and AltModPermGenReceiver::generate, AltModPerm.cpp:42-153.
   [aes] is AES under the key the sender draws and sends.  The sender is the receiver of the
   PRF protocol.  [so] and [ro] are the offsets of the dst objects, which neither function
   touches. *)
Definition altmod_gen (fuel : nat) (p : prf) (cor : mod2_cor) (aes : N -> N) (pi : list nat) (mN bytesPerRow : nat)
    (ros : list (prng * prng)) (sos : list prng) (key : list bool) (so ro : nat) : outcome (cor_s * cor_r) :=
  do _ <- throw_if (mN =? 0);
  do _ <- throw_if (negb (length pi =? mN));
  let bpr := (bytesPerRow + 15) / 16 in
  let x := map aes (gen_points pi bpr) in
  do r <- prf_run_ro fuel p cor (mN * bpr) ros None sos key x;
  let '(ys, yr) := r in
  let a := map aes (gen_points (seq 0 mN) bpr) in
  do ya <- prf_eval p key a (mN * bpr);
  Ok (CorS pi (Mat mN (16 * bpr) (bytes_of_blocks yr)) so,
      CorR (Mat mN (16 * bpr) (bytes_of_blocks ya)) (Mat mN (16 * bpr) (bytes_of_blocks ys)) ro).
