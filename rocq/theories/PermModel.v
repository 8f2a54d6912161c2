(* Model of secure-join/Perm/Permutation.h and Permutation.cpp.
   A permutation (class Perm, Permutation.h:21-309) is its vector mPi, here a
   [list nat].  Simplification: entries are u32 in the code; sizes are assumed to
   stay below 2^32 (the assert at Permutation.h:59), so nat does not wrap. *)
From Verif Require Import Base.

(* oc::MatrixView<T>: row-major memory with dimensions (cryptoTools; used at
   Permutation.h:77).  [wf_mat] is the container's own invariant. *)
Record mat (A : Type) := Mat { rows : nat; cols : nat; dat : list A }.
Arguments Mat {A}. Arguments rows {A}. Arguments cols {A}. Arguments dat {A}.
(* the view spans rows * cols elements (Permutation.h:77) *)
Definition wf_mat {A} (m : mat A) : Prop := length (dat m) = rows m * cols m.

(* enum class PermOp, Permutation.h:14-18 *)
Inductive PermOp := Regular | Inverse.

(* Perm::Perm(u64 n), Permutation.h:38-43: mPi[i] = i *)
Definition perm_identity (n : nat) : list nat := seq 0 n.

(* std::copy(s, s + cols, d), Permutation.h:124-131, 189-196, and
   copyBytes(dst[i], src[j]), Permutation.h:138, 203: one row of [c] elements
   copied from flat offset [so] of the source to flat offset [o] of the target. *)
Definition copy_row {A} (src : list A) (so : nat) (dst : list A) (o c : nat)
  : outcome (list A) :=
  do x <- readN src so c; writeN dst o x.

(* Body of the unrolled loop for op == Regular, Permutation.h:95-134: the eight
   textually unrolled copies q = 0..7 from row mPi[i+q] of src to d + q*cols, then
   d = d7 + cols.  State: (destination pointer d, destination memory).
   Simplification: the code loads the eight source pointers before the eight
   copies; mPi is not written, so loading each right before its copy is the same. *)
Definition apply_reg_body8 {A} (pi : list nat) (c : nat) (src : list A)
  (k : nat) (s : nat * list A) : outcome (nat * list A) :=
  let i := 8 * k in
  let '(d, dst) := s in
  do dst' <- forN 0 8 (fun q m => do p <- get pi (i + q);
                                  copy_row src (p * c) m (d + q * c) c) dst;
  Ok (d + 7 * c + c, dst').

(* Perm::apply for op == Regular and trivially constructible T,
   Permutation.h:87-140: size8 = size()/8*8, unrolled loop, remainder loop. *)
Definition apply_reg_unrolled {A} (pi : list nat) (c : nat) (src dst : list A)
  : outcome (list A) :=
  let n := length pi in
  let size8 := n / 8 * 8 in
  do s <- forN 0 (n / 8) (apply_reg_body8 pi c src) (0, dst);
  forN size8 (n - size8)
    (fun i m => do p <- get pi i; copy_row src (p * c) m (i * c) c) (snd s).

(* Perm::apply for op == Regular and other T, Permutation.h:141-151:
   d advances by cols each iteration. *)
Definition apply_reg_generic {A} (pi : list nat) (c : nat) (src dst : list A)
  : outcome (list A) :=
  do s <- forN 0 (length pi)
    (fun i (s : nat * list A) => let '(d, m) := s in
       do p <- get pi i; do m' <- copy_row src (p * c) m d c; Ok (d + c, m')) (0, dst);
  Ok (snd s).

(* Body of the unrolled loop for op == Inverse, Permutation.h:160-199; state:
   (source pointer s, destination memory). *)
Definition apply_inv_body8 {A} (pi : list nat) (c : nat) (src : list A)
  (k : nat) (st : nat * list A) : outcome (nat * list A) :=
  let i := 8 * k in
  let '(s, dst) := st in
  do dst' <- forN 0 8 (fun q m => do p <- get pi (i + q);
                                  copy_row src (s + q * c) m (p * c) c) dst;
  Ok (s + 7 * c + c, dst').

(* Perm::apply for op == Inverse and trivially constructible T,
   Permutation.h:153-205. *)
Definition apply_inv_unrolled {A} (pi : list nat) (c : nat) (src dst : list A)
  : outcome (list A) :=
  let n := length pi in
  let size8 := n / 8 * 8 in
  do s <- forN 0 (n / 8) (apply_inv_body8 pi c src) (0, dst);
  forN size8 (n - size8)
    (fun i m => do p <- get pi i; copy_row src (i * c) m (p * c) c) (snd s).

(* Perm::apply for op == Inverse and other T, Permutation.h:206-216. *)
Definition apply_inv_generic {A} (pi : list nat) (c : nat) (src dst : list A)
  : outcome (list A) :=
  do s <- forN 0 (length pi)
    (fun i (s : nat * list A) => let '(sp, m) := s in
       do p <- get pi i; do m' <- copy_row src sp m (p * c) c; Ok (sp + c, m')) (0, dst);
  Ok (snd s).

(* Perm::apply(MatrixView src, MatrixView dst, PermOp), Permutation.h:76-218.
   [triv] is std::is_trivially_constructible<T>. Returns the new dst memory. *)
Definition perm_apply {A} (triv : bool) (pi : list nat) (src dst : mat A) (op : PermOp)
  : outcome (mat A) :=
  do _ <- throw_if (negb (rows src =? length pi));
  do _ <- throw_if (negb (rows dst =? length pi));
  do _ <- throw_if (negb (cols src =? cols dst));
  let c := cols src in
  do d <- match op, triv with
          | Regular, true => apply_reg_unrolled pi c (dat src) (dat dst)
          | Regular, false => apply_reg_generic pi c (dat src) (dat dst)
          | Inverse, true => apply_inv_unrolled pi c (dat src) (dat dst)
          | Inverse, false => apply_inv_generic pi c (dat src) (dat dst)
          end;
  Ok (Mat (rows dst) (cols dst) d).

(* Perm::apply(const std::vector<T>&), Permutation.h:236-247: one column;
   dst(size()) is value initialised with [z]. *)
Definition perm_apply_vec {A} (z : A) (pi : list nat) (src : list A) : outcome (list A) :=
  do d <- perm_apply true pi (Mat (length src) 1 src)
            (Mat (length pi) 1 (repeat z (length pi))) Regular;
  Ok (dat d).

(* Perm::applyInv(const std::vector<T>&), Permutation.h:255-266. *)
Definition perm_applyInv_vec {A} (z : A) (pi : list nat) (src : list A) : outcome (list A) :=
  do d <- perm_apply true pi (Mat (length src) 1 src)
            (Mat (length pi) 1 (repeat z (length pi))) Inverse;
  Ok (dat d).

(* Perm::compose, Permutation.cpp:19-22 *)
Definition perm_compose (a b : list nat) : outcome (list nat) := perm_apply_vec 0 a b.

(* Perm::inverse, Permutation.cpp:8-15 *)
Definition perm_inverse (pi : list nat) : outcome (list nat) :=
  forN 0 (length pi) (fun i r => do p <- get pi i; set r p i) (repeat 0 (length pi)).

(* std::swap(mPi[i], mPi[idx]), Permutation.h:63 *)
Definition swap {A} (l : list A) (i j : nat) : outcome (list A) :=
  do a <- get l i; do b <- get l j; do l' <- set l i b; set l' j a.

(* Perm::randomize, Permutation.h:53-65. [ws] are the successive results of
   prng.get<u32>(); [UB] stands for a stream that is too short (cannot happen:
   the PRNG never runs dry). *)
Definition perm_randomize (n : nat) (ws : list N) : outcome (list nat) :=
  forN 0 n (fun i l => do w <- get ws i;
                       let idx := N.to_nat (w mod N.of_nat (n - i)) + i in
                       swap l i idx) (seq 0 n).

(* Perm::validate, Permutation.h:289-302; state: the flag vector v *)
Definition perm_validate (pi : list nat) : outcome unit :=
  do _ <- forN 0 (length pi)
    (fun i v => do p <- get pi i;
                do _ <- throw_if (length pi <=? p);
                do vv <- get v p;
                do _ <- throw_if vv;
                set v p true) (repeat false (length pi));
  Ok tt.
