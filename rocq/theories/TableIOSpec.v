(* Specification of the hex text and of the table files. *)
From Verif Require Import Base ShuffleModel ShuffleSpec TableModel TableSpec.

(* the hexadecimal digits, lower and upper case *)
Definition lower_digits : list N := [48; 49; 50; 51; 52; 53; 54; 55; 56; 57; 97; 98; 99; 100; 101; 102]%N.
Definition upper_digits : list N := [48; 49; 50; 51; 52; 53; 54; 55; 56; 57; 65; 66; 67; 68; 69; 70]%N.
(* character a is a digit of value v *)
Definition digit_is (a : N) (v : nat) : Prop := v < 16 /\ (a = nth v lower_digits 0 \/ a = nth v upper_digits 0)%N.
(* text s spells the bytes d, two digits per byte, the high one first *)
Fixpoint spells (s d : list N) : Prop :=
  match s, d with
  | [], [] => True
  | a :: b :: s, x :: d => (exists h l, digit_is a h /\ digit_is b l /\ x = N.of_nat (16 * h + l)) /\ spells s d
  | _, _ => False
  end.

(* a column the binary format can hold *)
Definition bin_ok (c : column) : Prop := bytes (cName c) /\ length (cName c) <= 512 /\ (N.of_nat (cBits c) <= 16384)%N.

(* zeros only at the end *)
Fixpoint padded (r : list N) : Prop :=
  match r with [] => True | x :: r => (x = 0%N -> Forall (fun y => y = 0%N) r) /\ padded r end.
(* a column the text format can hold *)
Definition csv_ok (c : column) : Prop :=
  ~ In 32%N (cName c) /\ (Z.of_nat (cBits c) < 2 ^ 63)%Z /\
  match cType c with
  | 0 => cBits c <= 64
  | 1 => 0 < cBits c /\ Forall (fun r => exists b m, (b < 2)%N /\ r = b :: repeat 0%N m) (bRows (cDat c))
  | 2 => Forall (fun r => ~ In 59%N r /\ padded r) (bRows (cDat c))
  | _ => True
  end.

(* tables the two formats can hold *)
Definition bin_table_ok (n : nat) (t : table) : Prop :=
  t_ok n t /\ Forall bin_ok (tCols t) /\ (N.of_nat n < 2 ^ 64)%N /\ (N.of_nat (length (tCols t)) < 2 ^ 64)%N.
Definition csv_table_ok (n : nat) (t : table) : Prop :=
  t_ok n t /\ Forall csv_ok (tCols t) /\ (Z.of_nat n < 2 ^ 63)%Z /\ (Z.of_nat (length (tCols t)) < 2 ^ 63)%Z.

(* the rows from k on are zero *)
Definition blank (n k : nat) (c : column) : column := with_rows c (firstn k (bRows (cDat c)) ++ repeat (repeat 0%N (bCols (cDat c))) (n - k)).
