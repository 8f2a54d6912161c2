(* C11-C13: table files and hex text. *)
From Coq Require Import String Ascii.
From Verif Require Import Base KeyMultModel BitInjProofs ShuffleModel ShuffleSpec TableModel TableSpec TableProofs TableIOModel TableIOSpec HexProofs BinFileProofs CsvProofs.

(* text constants of the examples *)
Fixpoint txt (s : string) : list N := match s with EmptyString => [] | String a s => N_of_ascii a :: txt s end.

(* ---------------- C13 ---------------- *)

(* hex spells the bytes in lower case, and fromHex reads them back *)
Theorem C13_hex d : bytes d -> spells (hex d) d /\ Forall (fun c => In c lower_digits) (hex d) /\ from_hex (hex d) (length d) = Ok d.
Proof. intro H. split; [now apply hex_spells|]. split; [now apply hex_chars|now apply from_hex_hex]. Qed.
(* fromHex accepts exactly the spellings (upper or lower case) of k bytes and throws otherwise *)
Theorem C13_fromHex s k d : from_hex s k = Ok d <-> length d = k /\ spells s d.
Proof. split; [apply from_hex_inv|]. intros [<- H]. now apply from_hex_ok. Qed.
Theorem C13_fromHex_throws s k : ~ (exists d, length d = k /\ spells s d) -> from_hex s k = Throw.
Proof. apply from_hex_throw. Qed.
Print Assumptions C13_hex.
Print Assumptions C13_fromHex.
Print Assumptions C13_fromHex_throws.

Example C13_ex : hex [0; 171; 16; 255]%N = txt "00ab10ff" /\ from_hex (txt "00aB10Ff") 4 = Ok [0; 171; 16; 255]%N.
Proof. split; vm_compute; reflexivity. Qed.
Example C13_ex_hyp : bytes [0; 171; 16; 255]%N.
Proof. repeat constructor. Qed.
Example C13_ex_throws : from_hex (txt "0g") 1 = Throw /\ from_hex (txt "012") 1 = Throw /\ from_hex (txt "0:") 1 = Throw /\ from_hex (txt "`0") 1 = Throw.
Proof. repeat split. Qed.

(* ---------------- C11 ---------------- *)

(* reading what was written, followed by anything, gives the same columns *)
(* Missing from C11: the rejection of truncated files, which is false (C11_truncated_refuted). *)
Theorem C11_roundtrip_partial n act t x : bin_table_ok n t -> read_bin act (write_bin t ++ x) = Ok (Tab act (tCols t)).
Proof. apply bin_roundtrip. Qed.
(* a bad column header is rejected: long name, unknown type, too many bits, a string of a broken byte *)
Theorem C11_rejects n act l k r bad : Forall (col_ok n) l -> Forall bin_ok l -> length l < k -> (N.of_nat k < 2 ^ 64)%N -> (r < 2 ^ 64)%N ->
  (exists x s, (512 < x < 2 ^ 64)%N /\ bad = store 8 x ++ s) \/
  (exists name ty s, length name <= 512 /\ (3 < ty)%N /\ bad = store 8 (N.of_nat (length name)) ++ name ++ ty :: s) \/
  (exists name ty bits s, length name <= 512 /\ (ty <= 3)%N /\ (bits < 2 ^ 64)%N /\ ((16384 < bits)%N \/ (ty = 2 /\ bits mod 8 <> 0)%N) /\
     bad = store 8 (N.of_nat (length name)) ++ name ++ ty :: store 8 bits ++ s) ->
  read_bin act (store 8 (N.of_nat k) ++ store 8 r ++ bin_heads l ++ bad) = Throw.
Proof.
  intros HC HB L K R H. apply (@read_bin_bad n); try easy.
  destruct H as [[x [s [X ->]]] | [[na [ty [s [A [B ->]]]]] | [na [ty [bi [s [A [B [C [D ->]]]]]]]]]]; [now apply bad_name_size|now apply bad_type|now apply bad_bits].
Qed.
(* a file cut anywhere in the data is accepted, the missing bytes read as zero *)
Theorem C11_cut_data n act t k : bin_table_ok n t -> exists cs,
  read_bin act (firstn (16 + length (bin_heads (tCols t)) + k) (write_bin t)) = Ok (Tab act cs) /\ Forall2 same_info (tCols t) cs /\ Forall (col_ok n) cs /\
  bin_data cs = firstn k (bin_data (tCols t)) ++ repeat 0%N (length (bin_data (tCols t)) - k).
Proof. apply bin_cut_data. Qed.
(* no cut file is ever rejected: it is accepted, or the uninitialised type is used *)
Theorem C11_cut_never_rejected n act t k : bin_table_ok n t ->
  (exists t', read_bin act (firstn k (write_bin t)) = Ok t') \/ read_bin act (firstn k (write_bin t)) = UB.
Proof. apply bin_cut. Qed.

Definition col (name : string) (ty bits : nat) (rows : list (list N)) : column := Col (txt name) ty bits (BM bits (div_ceil bits 8) rows).
Definition ex_tab : table := Tab [] [col "id" 0 12 [[5; 1]; [255; 15]]; col "s" 2 24 [[97; 98; 0]; [0; 0; 0]]; col "b" 1 1 [[1]; [0]]; col "x" 3 9 [[171; 1]; [0; 0]]]%N.
Ltac solve_ok := repeat first [ split | lia | (cbn; lia) | constructor | discriminate | reflexivity ].
Lemma ex_tab_ok : t_ok 2 ex_tab.
Proof. solve_ok. Qed.
Lemma ex_tab_bin : bin_table_ok 2 ex_tab.
Proof. split; [apply ex_tab_ok|]. split; [|split; cbn; lia]. repeat (constructor; [split; [repeat constructor|split; cbn; lia]|]). constructor. Qed.

(* C11 says that a truncated file is rejected *)
Theorem C11_truncated_refuted : ~ forall n act t k, bin_table_ok n t -> k < length (write_bin t) -> read_bin act (firstn k (write_bin t)) = Throw.
Proof.
  intro H. specialize (H 2 [] ex_tab 0). assert (A : bin_table_ok 2 ex_tab) by exact ex_tab_bin.
  specialize (H A). assert (L : 0 < length (write_bin ex_tab)) by (vm_compute; lia). specialize (H L). cbn [firstn] in H. vm_compute in H. discriminate.
Qed.
Print Assumptions C11_roundtrip_partial.
Print Assumptions C11_rejects.
Print Assumptions C11_cut_data.
Print Assumptions C11_cut_never_rejected.
Print Assumptions C11_truncated_refuted.

Example C11_ex_hyp : bin_table_ok 2 ex_tab.
Proof. exact ex_tab_bin. Qed.
Example C11_ex : read_bin [1; 0]%N (write_bin ex_tab ++ [9]%N) = Ok (Tab [1; 0]%N (tCols ex_tab)) /\ length (write_bin ex_tab) = 105.
Proof. split; vm_compute; reflexivity. Qed.
(* cut in the middle of the data; after the second column's name; inside the last width (256 becomes 0) *)
Example C11_ex_cut : read_bin [] (firstn 94 (write_bin ex_tab)) =
  Ok (Tab [] [col "id" 0 12 [[5; 1]; [255; 15]]; col "s" 2 24 [[97; 0; 0]; [0; 0; 0]]; col "b" 1 1 [[0]; [0]]; col "x" 3 9 [[0; 0]; [0; 0]]]%N) /\
  read_bin [] (firstn 44 (write_bin ex_tab)) = UB /\
  read_bin [] (firstn 27 (write_bin (Tab [] [col "a" 3 256 []]%N))) = Ok (Tab [] [col "a" 3 0 []]%N).
Proof. split; [|split]; vm_compute; reflexivity. Qed.
Example C11_ex_rejects : read_bin [] (store 8 1 ++ store 8 0 ++ store 8 1 ++ [97; 4]%N ++ store 8 8) = Throw /\
  read_bin [] (store 8 1 ++ store 8 0 ++ store 8 1 ++ [97; 2]%N ++ store 8 9) = Throw /\
  read_bin [] (store 8 1 ++ store 8 0 ++ store 8 1 ++ [97; 3]%N ++ store 8 16385) = Throw /\
  read_bin [] (store 8 1 ++ store 8 0 ++ store 8 513) = Throw.
Proof. repeat split; vm_compute; reflexivity. Qed.

(* ---------------- C12 ---------------- *)

(* Reading what was written gives the same columns.  Missing from C12: two's complement for columns narrower than 8 bytes, which is false (C12_negative_refuted). *)
Theorem C12_roundtrip_partial n act t x : csv_table_ok n t -> exists s, write_csv t = Ok s /\ read_csv act (s ++ x) = Ok (Tab act (tCols t)).
Proof. apply csv_roundtrip. Qed.
(* a number is accepted exactly in the form in which it is written *)
Theorem C12_u64 s n : csv_u64 s = Ok n <-> s = dec n /\ (Z.of_N n < 2 ^ 63)%Z.
Proof. apply csv_u64_iff. Qed.
Theorem C12_i64 s z : csv_i64 s = Ok z <-> s = dec_z z /\ (- 2 ^ 63 <= z < 2 ^ 63)%Z.
Proof. apply csv_i64_iff. Qed.
(* the decimal text: digits, at least one, with this value *)
Theorem C12_decimal n : dec n <> [] /\ Forall (fun c => (48 <= c <= 57)%N) (dec n) /\ fold_left (fun a c => (10 * a + (c - 48))%N) (dec n) 0%N = n.
Proof.
  split; [destruct (dec_cons n) as [c [s [-> _]]]; discriminate|]. split; [|apply digits_val_dec]. eapply Forall_impl; [|apply dec_digits]. intros c H. apply digit_cases in H. lia.
Qed.
(* strings the format cannot hold are rejected by the writer *)
Theorem C12_string_throws c r : cType c = 2 -> In 59%N r \/ ~ padded r -> csv_cell c r = Throw.
Proof. apply string_cell_throw. Qed.
Theorem C12_int_throws c r : cType c = 0 -> 64 < cBits c -> csv_cell c r = Throw.
Proof. intros T B. unfold csv_cell. rewrite T. apply Nat.ltb_lt in B. now rewrite B. Qed.
(* integers of fewer than 8 bytes are written as unsigned numbers *)
Theorem C12_int_unsigned c r : cType c = 0 -> cBits c <= 64 -> length r < 8 -> bytes r -> csv_cell c r = Ok (dec (load r) ++ [32%N]).
Proof. apply int_cell_text. Qed.
(* a string that fits is padded, a longer one is rejected by the reader *)
Theorem C12_string_read i s buf x : iType i = 2 -> ~ In 59%N s ->
  (length s <= div_ceil (iBits i) 8 -> csv_read_cell i buf (Some (s ++ 59%N :: x)) = Ok (s ++ repeat 0%N (div_ceil (iBits i) 8 - length s), (s, Some x))) /\
  (div_ceil (iBits i) 8 < length s -> csv_read_cell i buf (Some (s ++ 59%N :: x)) = Throw).
Proof.
  intros T N. rewrite string_cell_read by easy. split; intro H; [apply Nat.ltb_ge in H|apply Nat.ltb_lt in H]; now rewrite H.
Qed.
(* a row with anything behind its last cell is rejected *)
Theorem C12_extra n act t k y x : csv_table_ok n t -> k < n -> y <> [] -> ~ In 10%N y -> exists head rows line,
  length rows = n /\ write_csv t = Ok (head ++ concat rows) /\ nth k rows [] = line ++ [10%N] /\
  read_csv act (head ++ concat (firstn k rows) ++ line ++ y ++ 10%N :: x) = Throw.
Proof. apply csv_extra. Qed.
(* an integer of any 64 bit value is accepted and cut to the width of the column *)
Theorem C12_int_cut i z buf x : iType i = 0 -> iBits i <= 64 -> (- 2 ^ 63 <= z < 2 ^ 63)%Z -> exists b,
  csv_read_cell i buf (Some (dec_z z ++ 32%N :: x)) = Ok (store (div_ceil (iBits i) 8) (Z.to_N (z mod 2 ^ 64)), (b, Some x)).
Proof. apply int_cell_read. Qed.
(* a file of strings cut between rows is accepted, the missing rows read as empty strings *)
Theorem C12_cut n act t k : csv_table_ok n t -> Forall (fun c => cType c = 2) (tCols t) -> tCols t <> [] -> k <= n -> exists head rows,
  length rows = n /\ write_csv t = Ok (head ++ concat rows) /\
  read_csv act (head ++ concat (firstn k rows)) = Ok (Tab act (map (blank n k) (tCols t))).
Proof. apply csv_cut. Qed.

(* claims that fail: values that do not fit the column, negative Booleans, truncated files, and the
   sign of a negative value narrower than 8 bytes *)
Theorem C12_int_range_refuted : ~ forall s t, read_csv [] s = Ok t -> write_csv t = Ok s.
Proof.
  intro H. specialize (H (txt "1 1" ++ [10%N] ++ txt "a 0 8" ++ [10%N] ++ txt "256 " ++ [10%N]) (Tab [] [col "a" 0 8 [[0]]]%N)).
  assert (E : forall A : Prop, (A -> False) -> A -> False) by auto. revert H. apply E. intro H. vm_compute in H. specialize (H eq_refl). discriminate.
Qed.
Theorem C12_boolean_refuted : ~ forall s t, read_csv [] s = Ok t ->
  Forall (fun c => cType c = 1 -> Forall (fun r => r = [0%N] \/ r = [1%N]) (bRows (cDat c))) (tCols t).
Proof.
  intro H. specialize (H (txt "1 1" ++ [10%N] ++ txt "a 1 1" ++ [10%N] ++ txt "-5 " ++ [10%N]) (Tab [] [col "a" 1 1 [[251]]]%N)).
  assert (R : read_csv [] (txt "1 1" ++ [10%N] ++ txt "a 1 1" ++ [10%N] ++ txt "-5 " ++ [10%N]) = Ok (Tab [] [col "a" 1 1 [[251]]]%N)) by (vm_compute; reflexivity).
  specialize (H R). cbn [tCols] in H. apply Forall_cons_iff in H. destruct H as [H _]. specialize (H eq_refl). cbn in H. apply Forall_cons_iff in H. destruct H as [[H|H] _]; discriminate.
Qed.
Theorem C12_truncated_refuted : ~ forall n t s k, csv_table_ok n t -> write_csv t = Ok s -> k < length s -> read_csv [] (firstn k s) = Throw.
Proof.
  intro H. set (t := Tab [] [col "a" 2 8 [[97]; [98]]]%N). specialize (H 2 t (txt "1 2" ++ [10%N] ++ txt "a 2 8" ++ [10%N] ++ txt "a;" ++ [10%N] ++ txt "b;" ++ [10%N]) 10).
  assert (A : csv_table_ok 2 t). { split; [solve_ok|]. split; [|split; [cbn; lia|cbn; lia]]. constructor; [|constructor]. split; [cbn; intuition discriminate|]. split; [cbn; lia|].
    cbn. repeat constructor; try (intro; discriminate); cbn; intuition discriminate. }
  specialize (H A). assert (W : write_csv t = Ok (txt "1 2" ++ [10%N] ++ txt "a 2 8" ++ [10%N] ++ txt "a;" ++ [10%N] ++ txt "b;" ++ [10%N])) by (vm_compute; reflexivity).
  specialize (H W). assert (L : 10 < length (txt "1 2" ++ [10%N] ++ txt "a 2 8" ++ [10%N] ++ txt "a;" ++ [10%N] ++ txt "b;" ++ [10%N])) by (cbn; lia). specialize (H L). vm_compute in H. discriminate.
Qed.
(* the text of a value is the signed number of the column's width *)
Theorem C12_negative_refuted : ~ forall c r, cType c = 0 -> cBits c <= 64 -> length r * 8 = cBits c -> bytes r ->
  csv_cell c r = Ok (dec_z (if sbit r (cBits c - 1) then Z.of_N (load r) - 2 ^ Z.of_nat (cBits c) else Z.of_N (load r)) ++ [32%N]).
Proof.
  intro H. specialize (H (col "a" 0 8 []) [255%N] eq_refl). cbn [col cBits length Nat.mul Nat.add] in H. specialize (H ltac:(lia) eq_refl ltac:(repeat constructor)).
  vm_compute in H. discriminate.
Qed.
Print Assumptions C12_roundtrip_partial.
Print Assumptions C12_u64.
Print Assumptions C12_i64.
Print Assumptions C12_decimal.
Print Assumptions C12_string_throws.
Print Assumptions C12_int_throws.
Print Assumptions C12_string_read.
Print Assumptions C12_extra.
Print Assumptions C12_int_unsigned.
Print Assumptions C12_int_cut.
Print Assumptions C12_cut.
Print Assumptions C12_int_range_refuted.
Print Assumptions C12_boolean_refuted.
Print Assumptions C12_truncated_refuted.
Print Assumptions C12_negative_refuted.

Definition ex_csv : list N := Eval vm_compute in
  (txt "4 2" ++ [10] ++ txt "id 0 12" ++ [10] ++ txt "s 2 24" ++ [10] ++ txt "b 1 1" ++ [10] ++ txt "x 3 9" ++ [10] ++ txt "261 ab;1 ab01 " ++ [10] ++ txt "4095 ;0 0000 " ++ [10])%N.
Example C12_ex_hyp : csv_table_ok 2 ex_tab.
Proof.
  split; [apply ex_tab_ok|]. split; [|split; cbn; lia]. repeat constructor; try (cbn; intuition (try discriminate; try lia)).
  - exists 1%N, 0. split; [lia|easy].
  - exists 0%N, 0. split; [lia|easy].
Qed.
Example C12_ex : write_csv ex_tab = Ok ex_csv /\ read_csv [1; 0]%N ex_csv = Ok (Tab [1; 0]%N (tCols ex_tab)).
Proof. split; vm_compute; reflexivity. Qed.
Example C12_ex_signed : csv_cell (col "a" 0 64 []) (store 8 (2 ^ 64 - 1)) = Ok (txt "-1 ") /\ csv_cell (col "a" 0 8 []) [255]%N = Ok (txt "255 ").
Proof. split; vm_compute; reflexivity. Qed.
Example C12_ex_rejects : csv_u64 (txt "007") = Throw /\ csv_u64 (txt "-1") = Throw /\ csv_i64 (txt "12a") = Throw /\ csv_i64 (txt "") = Throw /\
  csv_i64 (txt "9223372036854775808") = Throw /\ csv_i64 (txt "-9223372036854775808") = Ok (- 2 ^ 63)%Z.
Proof. repeat split; vm_compute; reflexivity. Qed.
Example C12_ex_throws : csv_cell (col "a" 2 24 []) [97; 59; 0]%N = Throw /\ csv_cell (col "a" 2 24 []) [97; 0; 98]%N = Throw.
Proof. split; reflexivity. Qed.
Example C12_ex_cut : read_csv [] (txt "1 2" ++ [10%N] ++ txt "a 2 16" ++ [10%N] ++ txt "ab;" ++ [10%N]) = Ok (Tab [] [col "a" 2 16 [[97; 98]; [0; 0]]]%N).
Proof. vm_compute; reflexivity. Qed.
Example C12_ex_long : csv_read_cell (Info [] 2 24) [] (Some (txt "abc;")) = Ok ([97; 98; 99]%N, ([97; 98; 99]%N, Some [])) /\
  csv_read_cell (Info [] 2 24) [] (Some (txt "abcd;")) = Throw.
Proof. vm_compute. auto. Qed.
Example C12_ex_extra : read_csv [] (txt "1 1" ++ [10%N] ++ txt "a 0 8" ++ [10%N] ++ txt "7 8 " ++ [10%N]) = Throw.
Proof. vm_compute. reflexivity. Qed.
