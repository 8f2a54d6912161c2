(* Model of the silent F4 VOLE:
   secure-join/CorGenerator/F4Vole/SilentF4VoleSender.h (class SilentF4VoleSender) and
   SilentF4VoleReceiver.h (class SilentF4VoleReceiver), and of the way
   CorGenerator/F4BitOtBatch.cpp (configure 56-60, setBase 73-91, recvTask 305-388, sendTask
   390-441) drives them.
   libOTe is not part of /repo; it enters as the parameters of the section:
   - [sdconf]: syndromeDecodingConfigure (number of partitions, size of each, noise vector size);
   - [otCount]: baseOtCount of the punctured PRF;
   - [enc]: the straight line program of field operations done by dualEncode of the configured
     code, with the number of temporary cells it uses.  Both codes only call plus, mulConst,
     copy and zero of the coefficient context.  Simplified: temporary cells start at zero (in
     the source they are mEncodeTemp, which the encoder initialises itself);
   - [pprf]: the programmable PPRF, points and programmed values to the two expansions.
   Base OTs are only counted.  Simplified: the debug checks (mDebug, checkRT), timers, and the
   malicious hash exchange, which throws before it is reached, are left out. *)
From Verif Require Import Base Words GF4Model CompressModel.

(* oc::MultType as used in the switch SilentF4VoleSender.h:425-453, Receiver.h:557-588 *)
Inductive mult := ExConv7x24 | ExConv21x24 | Tungsten | OtherCode.

(* enum class State, SilentF4VoleSender.h:44-49, Receiver.h:43-48 *)
Inductive vstate := SDefault | SConfigured | SHasBase.

(* the operations of CoeffCtxGF4 a linear encoder performs: plus (F4CoeffCtx.h:33-36), mulConst
   (123-133), copy and zero (oc::CoeffCtxInteger) on the cells of a vector *)
Inductive lin :=
| LPlus (d x y : nat)
| LMul (d x : nat)
| LCopy (d x : nat)
| LZero (d : nat).

(* one operation on blocks, F4CoeffCtx.h:33-36, 123-133; out of bounds is UB *)
Definition lin_step (s : list N) (i : lin) : outcome (list N) :=
  match i with
  | LPlus d x y => do a <- get s x; do b <- get s y; set s d (f4_plus a b)
  | LMul d x => do a <- get s x; do r <- f4_mulConst_block a; set s d r
  | LCopy d x => do a <- get s x; set s d a
  | LZero d => set s d 0%N
  end.

(* the whole encoder, called at SilentF4VoleSender.h:440, 446 and Receiver.h:572-575, 582 *)
Fixpoint lin_run (p : list lin) (s : list N) : outcome (list N) :=
  match p with
  | [] => Ok s
  | i :: p' => do s' <- lin_step s i; lin_run p' s'
  end.

(* & block(~0ull, ~0ull << 2), SilentF4VoleSender.h:291, Receiver.h:405: mask3 of CompressModel *)
Definition clear3 (x : N) : N := N.land x mask3.

(* members of SilentF4VoleSender, SilentF4VoleSender.h:54-101; vsGen: mGen.hasBaseOts() *)
Record vsender := VS {
  vsState : vstate; vsReq : nat; vsNoise : nat; vsParts : nat; vsSizePer : nat;
  vsMal : bool; vsMult : mult; vsGen : bool; vsBaseB : list N; vsB : list N }.

(* members of SilentF4VoleReceiver, SilentF4VoleReceiver.h:54-104; vrGen: mGen.hasBaseOts() *)
Record vreceiver := VR {
  vrState : vstate; vrReq : nat; vrNoise : nat; vrParts : nat; vrSizePer : nat;
  vrMal : bool; vrMult : mult; vrGen : bool; vrS : list nat;
  vrBaseA : list N; vrBaseC : list N; vrA : list N }.

(* vector::resize; new cells are only meaningful as zero, used at SilentF4VoleSender.h:456 *)
Definition resizeN (l : list N) (n : nat) : list N := firstn n l ++ repeat 0%N (n - length l).

(* oc::roundUpTo, used at SilentF4VoleSender.h:445 *)
Definition round_up (x s : nat) : nat := (x + s - 1) / s * s.

(* isConfigured, SilentF4VoleSender.h:243, Receiver.h:288 *)
Definition is_configured (s : vstate) : bool := match s with SDefault => false | _ => true end.

(* baseVoleCount, SilentF4VoleSender.h:114-117, Receiver.h:120-123 *)
Definition base_vole_count (parts : nat) (mal : bool) : nat := parts + (if mal then 1 else 0).

Section Lib.
Variable sdconf : nat -> mult -> nat * nat * nat.
Variable otCount : nat -> nat -> nat.
Variable enc : mult -> nat -> nat -> nat * list lin.
Variable pprf : list nat -> list N -> list N * list N.

(* the encoder selected by the switch on mMultType, SilentF4VoleSender.h:425-453,
   Receiver.h:557-588, applied to the noise vector *)
Definition encode (m : mult) (req noise : nat) (v : list N) : outcome (list N) :=
  match m with
  | OtherCode => Throw
  | _ => let k := match m with Tungsten => round_up req 8 | _ => req end in
         let '(tmp, prog) := enc m k noise in
         lin_run prog (v ++ repeat 0%N tmp)
  end.

(* ---------------- sender ---------------- *)

(* configure, SilentF4VoleSender.h:222-240; mGen.configure drops the base OTs (libOTe) *)
Definition vs_configure (s : vsender) (n : nat) : vsender :=
  let '(parts, szPer, noise) := sdconf n (vsMult s) in
  VS SConfigured n noise parts szPer (vsMal s) (vsMult s) false (vsBaseB s) (vsB s).

(* silentBaseOtCount, SilentF4VoleSender.h:247-253 *)
Definition vs_otcount (s : vsender) : outcome nat :=
  if is_configured (vsState s) then Ok (otCount (vsSizePer s) (vsParts s)) else Throw.

(* setSilentBaseOts, SilentF4VoleSender.h:257-293; [nOts]: sendBaseOts.size().  minus is xor
   with the zero vector. *)
Definition vs_setBase (s : vsender) (nOts : nat) (b : list N) : outcome vsender :=
  do k <- vs_otcount s;
  do _ <- throw_if (negb (nOts =? k));
  do _ <- throw_if (negb (length b =? base_vole_count (vsParts s) (vsMal s)));
  Ok (VS (vsState s) (vsReq s) (vsNoise s) (vsParts s) (vsSizePer s) (vsMal s) (vsMult s) true
         (map (fun x => clear3 (f4_plus 0 x)) b) (vsB s)).

(* silentSendInplace up to mGen.expand, SilentF4VoleSender.h:372-409.  [gen]: what the noisy
   VOLE of genSilentBaseOts (123-215) leaves in b; the OTs have the right count there (139).
   Result: the state and the values programmed into the PPRF. *)
Definition vs_pre (s : vsender) (n : nat) (gen : list N) : outcome (vsender * list N) :=
  let s := if is_configured (vsState s) then s else vs_configure s n in
  do _ <- throw_if (vsReq s <? n);
  do s <- (if vsGen s then Ok s else do k <- vs_otcount s; vs_setBase s k gen);
  do baseB <- readN (vsBaseB s) 0 (vsParts s);
  Ok (s, baseB).

(* silentSendInplace after mGen.expand, SilentF4VoleSender.h:409-460; [out]: mB as expanded *)
Definition vs_post (s : vsender) (out : list N) : outcome vsender :=
  do _ <- throw_if (vsMal s);
  do v <- encode (vsMult s) (vsReq s) (vsNoise s) out;
  Ok (VS SDefault (vsReq s) (vsNoise s) (vsParts s) (vsSizePer s) (vsMal s) (vsMult s) (vsGen s) []
         (resizeN (firstn (vsNoise s) v) (vsReq s))).

(* sendChosen after silentSendInplace, SilentF4VoleSender.h:326-346; [B]: mB, [n]: b.size(),
   [diff]: the received bytes, of which divCeil(n, 4) are read (330-331) *)
Definition vs_derand (delta : N) (B : list N) (n : nat) (diff : list N) : outcome (list N) :=
  do b0 <- readN B 0 n;
  do _ <- throw_if (negb (length diff =? (n + 3) / 4));
  forN 0 (length diff) (fun i b =>
    let m := Nat.min (n - i * 4) 4 in
    do w <- get diff i;
    forN 0 m (fun j b =>
      let d := N.land (N.shiftr w (2 * N.of_nat j)) 3 in
      do u <- f4_mul_block delta d;
      do x <- get b (4 * i + j);
      set b (4 * i + j) (N.lxor x u)) b) b0.

(* ---------------- receiver ---------------- *)

(* configure, SilentF4VoleReceiver.h:267-285; mGen.configure drops the base OTs (libOTe) *)
Definition vr_configure (r : vreceiver) (n : nat) : vreceiver :=
  let '(parts, szPer, noise) := sdconf n (vrMult r) in
  VR SConfigured n noise parts szPer (vrMal r) (vrMult r) false (vrS r) (vrBaseA r) (vrBaseC r) (vrA r).

(* silentBaseOtCount, SilentF4VoleReceiver.h:292-299 *)
Definition vr_otcount (r : vreceiver) : outcome nat :=
  if is_configured (vrState r) then Ok (otCount (vrSizePer r) (vrParts r)) else Throw.

(* the rejection loop of sampleBaseVoleVals, SilentF4VoleReceiver.h:338-342: draw until the low
   two bits are not zero.  [rnd]: the blocks prng.get<block>() returns; running out is Hang.
   isField is true (F4CoeffCtx.h:147-150), so 344-349 is never entered. *)
Fixpoint sample_val (rnd : list N) : outcome (N * list N) :=
  match rnd with
  | [] => Hang
  | b :: rnd' => let c := f4_fromBlock_G b in
                 if (c =? 0)%N then sample_val rnd' else Ok (c, rnd')
  end.

(* the loop over the partitions, SilentF4VoleReceiver.h:336-350 *)
Definition sample_vals (n : nat) (rnd : list N) : outcome (list N * list N) :=
  forN 0 n (fun _ (st : list N * list N) =>
    do p <- sample_val (snd st);
    Ok (fst st ++ [fst p], snd p)) ([], rnd).

(* sampleBaseVoleVals, SilentF4VoleReceiver.h:315-380; [pts]: mGen.getPoints.  Result: the state
   and the remaining randomness. *)
Definition vr_sample (r : vreceiver) (pts : list nat) (rnd : list N) : outcome (vreceiver * list N) :=
  do _ <- throw_if (negb (is_configured (vrState r)));
  do p <- sample_vals (vrParts r) rnd;
  do _ <- throw_if (vrMal r);
  Ok (VR (vrState r) (vrReq r) (vrNoise r) (vrParts r) (vrSizePer r) (vrMal r) (vrMult r) (vrGen r)
         pts (vrBaseA r) (fst p) (vrA r), snd p).

(* setSilentBaseOts, SilentF4VoleReceiver.h:384-408: the size of baseA is not checked *)
Definition vr_setBase (r : vreceiver) (nOts : nat) (a : list N) : outcome vreceiver :=
  do _ <- throw_if (negb (is_configured (vrState r)));
  do k <- vr_otcount r;
  do _ <- throw_if (negb (nOts =? k));
  Ok (VR SHasBase (vrReq r) (vrNoise r) (vrParts r) (vrSizePer r) (vrMal r) (vrMult r) true (vrS r)
         (map clear3 a) (vrBaseC r) (vrA r)).

(* silentReceiveInplace up to mGen.expand, SilentF4VoleReceiver.h:486-532.  genSilentBaseOts
   (143-261): [pts], [rnd] as for vr_sample, [gen]: what the noisy VOLE returns for the values *)
Definition vr_pre (r : vreceiver) (n : nat) (pts : list nat) (rnd : list N) (gen : list N -> list N)
  : outcome vreceiver :=
  let r := if is_configured (vrState r) then r else vr_configure r n in
  do _ <- throw_if (vrReq r <? n);
  if vrGen r then Ok r else
    do p <- vr_sample r pts rnd;
    do k <- vr_otcount (fst p);
    vr_setBase (fst p) k (gen (vrBaseC (fst p))).

(* mCtx.plus(mA[pnt], mA[pnt], mBaseA[i]), SilentF4VoleReceiver.h:536-541 *)
Definition vr_add (pts : list nat) (ba : list N) (n : nat) (A : list N) : outcome (list N) :=
  forN 0 n (fun i A => do p <- get pts i; do x <- get A p; do y <- get ba i; set A p (f4_plus x y)) A.

(* mA[mS[i]] | block(0, mBaseC[i].mVal), SilentF4VoleReceiver.h:550-551 *)
Definition vr_or (pts : list nat) (bc : list N) (n : nat) (A : list N) : outcome (list N) :=
  forN 0 n (fun i A => do p <- get pts i; do x <- get A p; do c <- get bc i; set A p (N.lor x c)) A.

(* silentReceiveInplace after mGen.expand, SilentF4VoleReceiver.h:532-602; the assert of 543-548
   (debug builds) is UB when it fails *)
Definition vr_post (r : vreceiver) (out : list N) : outcome vreceiver :=
  do A1 <- vr_add (vrS r) (vrBaseA r) (vrParts r) out;
  do _ <- (if forallb (fun x => N.land x 3 =? 0)%N A1 then Ok tt else UB);
  do A2 <- vr_or (vrS r) (vrBaseC r) (vrParts r) A1;
  do _ <- throw_if (vrMal r);
  do v <- encode (vrMult r) (vrReq r) (vrNoise r) A2;
  Ok (VR SDefault (vrReq r) (vrNoise r) (vrParts r) (vrSizePer r) (vrMal r) (vrMult r) (vrGen r)
         (vrS r) [] [] (resizeN (firstn (vrNoise r) v) (vrReq r))).

(* receiveChosen after silentReceiveInplace, SilentF4VoleReceiver.h:448-464: the correction
   bytes; [A]: mA, [c]: the chosen values (c.size() is not checked), [n]: a.size().  The assert
   of 458 is UB when it fails. *)
Definition vr_diff (A c : list N) (n : nat) : outcome (list N) :=
  forN 0 ((n + 3) / 4) (fun i diff =>
    let m := Nat.min (n - i * 4) 4 in
    forN 0 m (fun j diff =>
      do cv <- get c (4 * i + j);
      do _ <- (if (cv <? 4)%N then Ok tt else UB);
      do x <- get A (4 * i + j);
      let d := N.land (N.lxor (N.land x 255) cv) 3 in
      do w <- get diff i;
      set diff i (N.land (N.lor w (N.shiftl d (N.of_nat j * 2))) 255)) diff) (repeat 0%N ((n + 3) / 4)).

(* ---------------- both parties ---------------- *)

(* silentSendInplace against silentReceiveInplace: SilentF4VoleSender.h:359-509 and
   Receiver.h:476-612.  The PPRF runs on the points of the receiver and the values of the sender. *)
Definition vole_run (s : vsender) (r : vreceiver) (n : nat) (pts : list nat) (rnd : list N)
    (genB : list N) (genA : list N -> list N) : outcome (vsender * vreceiver) :=
  do p <- vs_pre s n genB;
  do r1 <- vr_pre r n pts rnd genA;
  let '(outS, outR) := pprf (vrS r1) (snd p) in
  do s2 <- vs_post (fst p) outS;
  do r2 <- vr_post r1 outR;
  Ok (s2, r2).

(* silentSend (300-319) and silentReceive (414-429): the first n entries *)
Definition vole_silent (s : vsender) (r : vreceiver) (n : nat) pts rnd genB genA : outcome (list N * list N) :=
  do p <- vole_run s r n pts rnd genB genA;
  do b <- readN (vsB (fst p)) 0 n;
  do a <- readN (vrA (snd p)) 0 n;
  Ok (b, a).

(* sendChosen (321-352) against receiveChosen (435-472) *)
Definition vole_chosen (delta : N) (s : vsender) (r : vreceiver) (c : list N) (n : nat) pts rnd genB genA
  : outcome (list N * list N) :=
  do p <- vole_run s r n pts rnd genB genA;
  do a <- readN (vrA (snd p)) 0 n;
  do diff <- vr_diff (vrA (snd p)) c n;
  do b <- vs_derand delta (vsB (fst p)) n diff;
  Ok (b, a).

(* an F4BitOtBatch: getBaseRequest (F4BitOtBatch.cpp:51-71) configures both with mSize and the
   default code and samples the receiver's values; setBase (73-91) sets the base correlations;
   sendTask/recvTask (305-441) switch to Tungsten, run the VOLE for mRequestSize and compress.
   [dflt]: oc::DefaultMultType; [nOts]: number of base OTs handed out; [bS], [bR]: the base VOLE
   as sender's values and as function of the receiver's choices. *)
Definition f4_batch (H : N -> N) (dflt : mult) (delta : N) (size nOts : nat) (pts : list nat)
    (rnd : list N) (bS : list N) (bR : list N -> list N)
  : outcome ((list N * list N * list N * list N) * (list N * list N * list N)) :=
  let s := vs_configure (VS SDefault 0 0 0 0 false dflt false [] []) size in
  let r := vr_configure (VR SDefault 0 0 0 0 false dflt false [] [] [] []) size in
  do p <- vr_sample r pts rnd;
  let r := fst p in
  do s <- vs_setBase s nOts bS;
  do r <- vr_setBase r nOts (bR (vrBaseC r));
  let s := VS (vsState s) (vsReq s) (vsNoise s) (vsParts s) (vsSizePer s) (vsMal s) Tungsten (vsGen s) (vsBaseB s) (vsB s) in
  let r := VR (vrState r) (vrReq r) (vrNoise r) (vrParts r) (vrSizePer r) (vrMal r) Tungsten (vrGen r)
              (vrS r) (vrBaseA r) (vrBaseC r) (vrA r) in
  do q <- vole_run s r (vsReq s) [] [] [] (fun x => x);
  do os <- f4_compress_sender H delta (vsB (fst q));
  do or <- f4_compress_recver H (vrA (snd q));
  Ok (os, or).

End Lib.
