(* C01-C04: local permutations. *)
From Verif Require Import Base PermModel PermSpec PermProofs.

(* C01: Regular gathers, for both the unrolled (triv = true) and the generic code path. *)
Theorem C01_apply_regular : forall A (triv : bool) (pi : list nat) (src dst : mat A),
  wf_mat src -> wf_mat dst ->
  rows src = length pi -> rows dst = length pi -> cols src = cols dst ->
  (forall i p, nth_error pi i = Some p -> p < length pi) ->
  exists d, perm_apply triv pi src dst Regular = Ok (Mat (rows dst) (cols dst) d) /\
            gathered (cols src) pi (dat src) d.
Proof. exact perm_apply_regular_spec. Qed.
Print Assumptions C01_apply_regular.

(* C01: Inverse scatters. *)
Theorem C01_apply_inverse : forall A (triv : bool) (pi : list nat) (src dst : mat A),
  wf_mat src -> wf_mat dst -> is_perm (length pi) pi ->
  rows src = length pi -> rows dst = length pi -> cols src = cols dst ->
  exists d, perm_apply triv pi src dst Inverse = Ok (Mat (rows dst) (cols dst) d) /\
            scattered (cols src) pi (dat src) d.
Proof. exact perm_apply_inverse_spec. Qed.
Print Assumptions C01_apply_inverse.

(* C01: either order is the identity. *)
Theorem C01_round_trip : forall A (t1 t2 : bool) (pi : list nat) (src d1 d2 : mat A) n,
  is_perm n pi -> wf_mat src -> wf_mat d1 -> wf_mat d2 ->
  rows src = n -> rows d1 = n -> rows d2 = n -> cols d1 = cols src -> cols d2 = cols src ->
  (exists y, perm_apply t1 pi src d1 Regular = Ok y /\ wf_mat y /\
             perm_apply t2 pi y d2 Inverse = Ok src) /\
  (exists y, perm_apply t1 pi src d1 Inverse = Ok y /\ wf_mat y /\
             perm_apply t2 pi y d2 Regular = Ok src).
Proof. exact perm_apply_roundtrip. Qed.
Print Assumptions C01_round_trip.

(* C01: every size mismatch is an exception. *)
Theorem C01_mismatch_throws : forall A (triv : bool) pi (src dst : mat A) op,
  rows src <> length pi \/ rows dst <> length pi \/ cols src <> cols dst ->
  perm_apply triv pi src dst op = Throw.
Proof. exact perm_apply_throw. Qed.
Print Assumptions C01_mismatch_throws.

(* a permutation of 11 rows (one unrolled block and a remainder), two columns *)
Definition ex_pi : list nat := [3; 10; 0; 7; 1; 9; 2; 8; 6; 4; 5].
Definition ex_src : mat nat := Mat 11 2 (seq 100 22).
Definition ex_dst : mat nat := Mat 11 2 (repeat 0 22).
Example C01_ex :
  wf_mat ex_src /\ wf_mat ex_dst /\ is_perm (length ex_pi) ex_pi /\
  rows ex_src = length ex_pi /\ rows ex_dst = length ex_pi /\ cols ex_src = cols ex_dst /\
  perm_apply true ex_pi ex_src ex_dst Regular =
    Ok (Mat 11 2 [106;107;120;121;100;101;114;115;102;103;118;119;104;105;116;117;112;113;108;109;110;111]) /\
  perm_apply true ex_pi ex_src (Mat 10 2 (repeat 0 20)) Regular = Throw.
Proof. repeat split; try reflexivity. apply perm_validate_iff. reflexivity. Qed.

(* C02: the composition order of the API *)
Theorem C02_compose_apply : forall A (t1 t2 t3 : bool) n a b c (x d1 d2 d3 : mat A),
  is_perm n a -> is_perm n b -> perm_compose a b = Ok c ->
  wf_mat x -> wf_mat d1 -> wf_mat d2 -> wf_mat d3 ->
  rows x = n -> rows d1 = n -> rows d2 = n -> rows d3 = n ->
  cols d1 = cols x -> cols d2 = cols x -> cols d3 = cols x ->
  exists y z, perm_apply t1 b x d1 Regular = Ok y /\
              perm_apply t2 a y d2 Regular = Ok z /\
              perm_apply t3 c x d3 Regular = Ok z.
Proof. exact perm_compose_apply. Qed.
Print Assumptions C02_compose_apply.

(* C02: closure *)
Theorem C02_compose_closed : forall n a b, is_perm n a -> is_perm n b ->
  exists c, perm_compose a b = Ok c /\ is_perm n c /\
   forall i p, nth_error a i = Some p -> nth_error c i = nth_error b p.
Proof. exact perm_compose_ok. Qed.
Print Assumptions C02_compose_closed.

Theorem C02_compose_assoc : forall n a b c,
  is_perm n a -> is_perm n b -> is_perm n c ->
  exists ab bc r, perm_compose a b = Ok ab /\ perm_compose b c = Ok bc /\
    perm_compose ab c = Ok r /\ perm_compose a bc = Ok r.
Proof. exact perm_compose_assoc. Qed.
Print Assumptions C02_compose_assoc.

Theorem C02_identity : forall n a, is_perm n a ->
  perm_compose a (perm_identity n) = Ok a /\ perm_compose (perm_identity n) a = Ok a.
Proof. exact perm_compose_identity. Qed.
Print Assumptions C02_identity.

Theorem C02_inverse : forall n a, is_perm n a ->
  exists b, perm_inverse a = Ok b /\ is_perm n b /\ perm_inverse b = Ok a /\
    perm_compose a b = Ok (seq 0 n) /\ perm_compose b a = Ok (seq 0 n).
Proof. exact perm_inverse_compose. Qed.
Print Assumptions C02_inverse.

Theorem C02_apply_inverse_agrees : forall A (t1 t2 : bool) n a b (x d1 d2 : mat A),
  is_perm n a -> perm_inverse a = Ok b ->
  wf_mat x -> wf_mat d1 -> wf_mat d2 ->
  rows x = n -> rows d1 = n -> rows d2 = n -> cols d1 = cols x -> cols d2 = cols x ->
  exists y, perm_apply t1 a x d1 Inverse = Ok y /\ perm_apply t2 b x d2 Regular = Ok y.
Proof. exact perm_apply_inverse_eq. Qed.
Print Assumptions C02_apply_inverse_agrees.

(* two permutations that do not commute *)
Example C02_ex : is_perm 3 [1; 2; 0] /\ is_perm 3 [1; 0; 2] /\
  perm_compose [1; 2; 0] [1; 0; 2] = Ok [0; 2; 1] /\
  perm_compose [1; 0; 2] [1; 2; 0] = Ok [2; 1; 0] /\
  perm_inverse [1; 2; 0] = Ok [2; 0; 1].
Proof.
  split; [apply (perm_validate_iff [1; 2; 0]); reflexivity|].
  split; [apply (perm_validate_iff [1; 0; 2]); reflexivity|].
  repeat split; reflexivity.
Qed.

(* C03: whatever the words *)
Theorem C03_randomize_perm : forall n (ws : list N), n <= length ws ->
  exists pi, perm_randomize n ws = Ok pi /\ is_perm n pi.
Proof. exact perm_randomize_perm. Qed.
Print Assumptions C03_randomize_perm.

Theorem C03_randomize_onto : forall n target, is_perm n target -> (N.of_nat n <= 2 ^ 32)%N ->
  exists ws, length ws = n /\ (forall w, In w ws -> (w < 2 ^ 32)%N) /\ perm_randomize n ws = Ok target.
Proof. exact perm_randomize_onto. Qed.
Print Assumptions C03_randomize_onto.

Example C03_ex : perm_randomize 4 [4294967295; 7; 5; 3]%N = Ok [3; 2; 0; 1].
Proof. vm_compute. reflexivity. Qed.

(* C04 *)
Theorem C04_validate_iff : forall pi, perm_validate pi = Ok tt <-> is_perm (length pi) pi.
Proof. exact perm_validate_iff. Qed.
Print Assumptions C04_validate_iff.

Theorem C04_validate_total : forall pi, perm_validate pi = Ok tt \/ perm_validate pi = Throw.
Proof. exact perm_validate_total. Qed.
Print Assumptions C04_validate_total.

Example C04_ex : perm_validate ex_pi = Ok tt /\ perm_validate [0; 2; 2] = Throw /\
  perm_validate [0; 3; 1] = Throw /\ perm_validate [] = Ok tt.
Proof. repeat split. Qed.
