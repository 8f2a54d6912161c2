(* C36: WhereParser::parse. *)
From Verif Require Import Base Words KeyMultModel ShuffleModel ShuffleSpec TableModel TableIOModel ParserModel ParserSpec CsvProofs TrimProofs BitInjProofs ShuffleSpanProofs ParserArith ParserProofs.

(* Whenever the clause has a value on a row (v_run: every operator on operands that have one in the
   common width), parse returns a circuit and the circuit gives it.  Partial: clauses with binary
   literals, and integers compared with strings or booleans that are not narrower, are accepted as well
   and get something else (C36_bin_literal_refuted, C36_mixed_refuted). *)
Theorem C36_parse_partial st gates ins lits types cs rows vc vl vs b :
  Forall2 (first_named st) ins cs -> Forall2 (fun c l => length l = iBits c) cs rows ->
  Forall2 (fun cl v => col_value (iType (fst cl)) (snd cl) v) (combine cs rows) vc ->
  length lits = length types -> Forall2 (fun l v => lit_value (fst l) (snd l) v) (combine types lits) vl ->
  gates <> [] -> v_run (vc ++ vl) gates = Some vs -> last vs (VBin []) = VBool b ->
  exists c, parse st gates ins lits types = Ok c /\ cSizes c = map iBits cs /\ cir_eval c rows = b.
Proof. exact (@parse_ok st gates ins lits types cs rows vc vl vs b). Qed.
Print Assumptions C36_parse_partial.

(* for any widths: the comparisons are of the values modulo 2 to the common width, as signed numbers *)
Theorem C36_modular st gates ins lits types cs rows vc vl vs b :
  Forall2 (first_named st) ins cs -> Forall2 (fun c l => length l = iBits c) cs rows ->
  Forall2 (fun cl v => col_value (iType (fst cl)) (snd cl) v) (combine cs rows) vc ->
  length lits = length types -> Forall2 (fun l v => lit_value (fst l) (snd l) v) (combine types lits) vl ->
  gates <> [] -> v_run_mod (vc ++ vl) gates = Some vs -> last vs (VBin []) = VBool b ->
  exists c, parse st gates ins lits types = Ok c /\ cSizes c = map iBits cs /\ cir_eval c rows = b.
Proof. exact (@parse_mod st gates ins lits types cs rows vc vl vs b). Qed.
Print Assumptions C36_modular.

(* columns "a" Int 8, "n" String 16, "k" Boolean; literals 30 and "bo" *)
Definition ex_st : list cinfo := [Info [97] 0 8; Info [110] 2 16; Info [107] 1 1]%N.
Definition ex_lits : list (list N) := [[51; 48]; [98; 111]]%N.
(* ((a < 30) and (n = "bo")) xor k *)
Definition ex_gates : list agate := [AGate 6 0 3 5; AGate 1 4 1 6; AGate 3 5 6 7; AGate 8 7 2 8].
Definition ex_row (a : N) (s : list N) (k : bool) : list (list bool) := [row_bits 8 [a]; row_bits 16 s; [k]].
Example C36_ex : let vc := [VInt 8 (-5); VStr [98; 111]; VBool false]%N in let vl := [VInt 6 30; VStr [98; 111]]%N in
  Forall2 (first_named ex_st) [[97]; [110]; [107]]%N ex_st /\
  Forall2 (fun cl v => col_value (iType (fst cl)) (snd cl) v) (combine ex_st (ex_row 251 [98; 111]%N false)) vc /\
  Forall2 (fun l v => lit_value (fst l) (snd l) v) (combine [0; 2] ex_lits) vl /\
  v_run (vc ++ vl) ex_gates = Some (vc ++ vl ++ [VBool true; VBool true; VBool true; VBool true]) /\
  exists c, parse ex_st ex_gates [[97]; [110]; [107]]%N ex_lits [0; 2] = Ok c /\
    cir_eval c (ex_row 251 [98; 111]%N false) = true /\ cir_eval c (ex_row 30 [98; 111]%N false) = false /\ cir_eval c (ex_row 29 [98; 112]%N true) = true.
Proof.
  cbv zeta. split; [|split; [|split; [|split]]].
  - constructor; [exists [], (skipn 1 ex_st)|constructor; [exists (firstn 1 ex_st), (skipn 2 ex_st)|constructor; [exists (firstn 2 ex_st), []|constructor]]];
      (split; [reflexivity|]; split; [reflexivity|]); repeat constructor; easy.
  - constructor; [split; [easy|reflexivity]|constructor; [exists [98; 111]%N; split; [repeat constructor|split; reflexivity]|constructor; [exists false; easy|constructor]]].
  - constructor; [|constructor; [split; [repeat constructor|easy]|constructor]].
    exists 30%Z, 6. split; [reflexivity|]. split; [reflexivity|]. split; [lia|]. split; [split; easy|].
    intros w W [_ F]. destruct w as [|[|[|[|[|[|w]]]]]]; try lia; vm_compute in F; discriminate F.
  - reflexivity.
  - destruct (parse ex_st ex_gates [[97]; [110]; [107]]%N ex_lits [0; 2]) as [c| | |] eqn:E; vm_compute in E; try discriminate E.
    injection E as <-. eexists. split; [reflexivity|]. vm_compute. easy.
Qed.

Example C36_modular_ex : v_run_mod [VInt 8 (-1); VStr [255]%N] [AGate 1 0 1 2] = Some [VInt 8 (-1); VStr [255]%N; VBool true] /\
  v_run [VInt 8 (-1); VStr [255]%N] [AGate 1 0 1 2] = None /\ v_run [VInt 9 (-1); VStr [255]%N] [AGate 1 0 1 2] = Some [VInt 9 (-1); VStr [255]%N; VBool false].
Proof. vm_compute. repeat split. Qed.

(* what parse accepts: known columns, gates that use earlier values and number their results in order *)
Theorem C36_rejects st gates ins lits types c : parse st gates ins lits types = Ok c ->
  gates_in_order (length ins + length lits) gates /\ length lits = length types /\ Forall (fun name => exists d, In d st /\ iName d = name) ins.
Proof. exact (@parse_rejects st gates ins lits types c). Qed.
Print Assumptions C36_rejects.
Example C36_rejects_ex : parse ex_st [AGate 1 0 2 2] [[97]]%N [[51]]%N [0] = Throw /\ parse ex_st [AGate 1 0 1 3] [[97]]%N [[51]]%N [0] = Throw /\
  parse ex_st [AGate 1 0 1 2] [[98]]%N [[51]]%N [0] = Throw /\ parse ex_st [AGate 9 0 1 2] [[97]]%N [[51]]%N [0] = Throw.
Proof. vm_compute. easy. Qed.

(* and operands of the types the gates need; the last gate gives a bit *)
Theorem C36_typed st gates ins lits types c : parse st gates ins lits types = Ok c ->
  exists ks0 ks1, Forall2 (fun name k => exists d, first_named st name d /\ k = (iType d, iBits d)) ins ks0 /\
    Forall2 (fun l k => exists v, literal (fst l) (snd l) = Ok v /\ k = (fst l, length v)) (combine types lits) ks1 /\
    well_typed (ks0 ++ ks1) gates.
Proof. exact (@parse_typed st gates ins lits types c). Qed.
Print Assumptions C36_typed.
Example C36_typed_ex : parse ex_st [AGate 3 0 1 2] [[97]]%N [[51]]%N [0] = Throw /\ parse ex_st [AGate 5 0 1 2] [[97]]%N [[51]]%N [0] = Throw /\
  parse ex_st [AGate 6 0 0 1] [[49]]%N [] [] = Throw /\ match parse ex_st [AGate 1 0 1 2; AGate 3 2 2 3] [[97]]%N [[51]]%N [0] with Ok _ => True | _ => False end.
Proof. vm_compute. easy. Qed.

(* every i64 as a literal: two's complement in the fewest bits, but at least 2 *)
Theorem C36_literal z : (- 2 ^ 63 <= z < 2 ^ 63)%Z ->
  exists l, literal 0 (dec_z z) = Ok l /\ two_comp l = z /\ 2 <= length l <= 64 /\ forall w, 2 <= w -> fits w z -> length l <= w.
Proof.
  intro R. destruct (literal_int (stoll_dec_z R)) as (l & E & _ & T & z' & w & _ & Ev & W & _ & M). injection Ev as <- <-. exists l. auto.
Qed.
Print Assumptions C36_literal.
Example C36_literal_ex : literal 0 [45; 56]%N = Ok [false; false; false; true] /\ literal 0 [56]%N = Ok [false; false; false; true; false] /\
  two_comp [false; false; false; true] = (-8)%Z.
Proof. vm_compute. easy. Qed.

(* strings are equal up to zeros at the end *)
Theorem C36_strings s t : bytes s -> bytes t -> (v_num (VStr s) = v_num (VStr t) <-> forall i, nth i s 0%N = nth i t 0%N).
Proof. exact (@str_num_eq s t). Qed.
Print Assumptions C36_strings.
Example C36_strings_ex : v_num (VStr [98; 111]%N) = v_num (VStr [98; 111; 0; 0]%N) /\ v_num (VStr [98; 111]%N) <> v_num (VStr [98; 111; 1]%N).
Proof. vm_compute. easy. Qed.

(* the sum is exact when it fits in the wider operand, and congruent to the sum otherwise *)
Theorem C36_sum w z : 1 <= w -> fits w (wrap w z) /\ (wrap w z mod 2 ^ Z.of_nat w = z mod 2 ^ Z.of_nat w)%Z /\ (fits w z -> wrap w z = z).
Proof. intro H. split; [now apply wrap_fits|]. split; [apply wrap_mod|]. now apply wrap_id. Qed.
Print Assumptions C36_sum.
Example C36_sum_ex : wrap 8 200 = (-56)%Z /\ wrap 8 (-100) = (-100)%Z /\ fits 8 (-100)%Z.
Proof. vm_compute. repeat split; discriminate. Qed.

(* a + b < 0 with a = b = 100 in 8 bits *)
Theorem C36_sum_refuted : exists st gates ins lits types c rows,
  parse st gates ins lits types = Ok c /\ map two_comp rows = [100; 100]%Z /\ lits = [[48]]%N /\
  gates = [AGate 5 0 1 3; AGate 6 3 2 4] /\ cir_eval c rows = true.
Proof.
  destruct (parse [Info [97] 0 8; Info [98] 0 8]%N [AGate 5 0 1 3; AGate 6 3 2 4] [[97]; [98]]%N [[48]]%N [0]) as [c| | |] eqn:E; pose proof E as E'; vm_compute in E'; try discriminate E'.
  exists [Info [97] 0 8; Info [98] 0 8]%N, [AGate 5 0 1 3; AGate 6 3 2 4], [[97]; [98]]%N, [[48]]%N, [0], c, [row_bits 8 [100]%N; row_bits 8 [100]%N].
  split; [exact E|]. injection E' as <-. vm_compute. repeat split.
Qed.
Print Assumptions C36_sum_refuted.

(* an 8 bit binary column against the literal "ff": of a literal of k bytes only k bits are kept, and
   the two sides have different sizes *)
Theorem C36_bin_literal_refuted : literal 3 [102; 102]%N = Ok [true] /\
  parse [Info [97] 3 8]%N [AGate 1 0 1 2] [[97]]%N [[102; 102]]%N [3] = UB /\
  exists c, parse [Info [97] 3 2]%N [AGate 1 0 1 2] [[97]]%N [[48; 51; 48; 49]]%N [3] = Ok c /\ cir_eval c [[true; true]] = true.
Proof.
  split; [reflexivity|]. split; [reflexivity|].
  destruct (parse [Info [97] 3 2]%N [AGate 1 0 1 2] [[97]]%N [[48; 51; 48; 49]]%N [3]) as [c| | |] eqn:E; vm_compute in E; try discriminate E.
  injection E as <-. eexists. split; [reflexivity|]. vm_compute. easy.
Qed.
Print Assumptions C36_bin_literal_refuted.

(* an 8 bit integer column equals the string of the byte 255 when it holds -1; as numbers they differ *)
Theorem C36_mixed_refuted : exists c, parse [Info [97] 0 8]%N [AGate 1 0 1 2] [[97]]%N [[255]]%N [2] = Ok c /\
  cir_eval c [row_bits 8 [255]%N] = true /\ v_num (VInt 8 (two_comp (row_bits 8 [255]%N))) = (-1)%Z /\ v_num (VStr [255]%N) = 255%Z.
Proof.
  destruct (parse [Info [97] 0 8]%N [AGate 1 0 1 2] [[97]]%N [[255]]%N [2]) as [c| | |] eqn:E; vm_compute in E; try discriminate E.
  injection E as <-. eexists. split; [reflexivity|]. vm_compute. easy.
Qed.
Print Assumptions C36_mixed_refuted.

(* binary columns of different sizes are not rejected, the builder is called with different sizes *)
Theorem C36_bin_sizes_refuted : parse [Info [97] 3 8; Info [98] 3 4]%N [AGate 1 0 1 2] [[97]; [98]]%N [] [] = UB.
Proof. reflexivity. Qed.
Print Assumptions C36_bin_sizes_refuted.

(* no gates: accepted, and nothing writes the output *)
Theorem C36_no_gates_refuted st ins lits types c : parse st [] ins lits types = Ok c -> cOps c = [] /\ ~ In (cOut c) (map fst (cConst c)).
Proof.
  unfold parse. destruct (mapM (find_col st) ins) as [cs| | |]; cbn [bind]; try easy. destruct (negb _); cbn [throw_if bind]; [easy|].
  set (out := fold_right (fun c n => iBits c + n) 0 cs).
  destruct (parse_lits (in_bundles 0 cs) (combine types lits) (PSt (out + 1) [] [])) as [[bs s]| | |] eqn:E; cbn [bind fst snd parse_gates]; try easy. intro H. injection H as <-. cbn [cOps cOut cConst].
  assert (G : forall lits bs s bs' s', parse_lits bs lits s = Ok (bs', s') -> out < pNext s -> pOps s' = pOps s /\ (~ In out (map fst (pConst s)) -> ~ In out (map fst (pConst s')))).
  { clear. induction lits as [|l lits IH]; intros bs s bs' s' H L; cbn [parse_lits] in H; [injection H as <- <-; easy|].
    destruct (literal (fst l) (snd l)) as [v| | |]; try discriminate H. cbn [bind] in H. unfold consts in H. destruct (IH _ _ _ _ H) as [A B]; cbn [pNext] in *; [lia|].
    cbn [pOps pConst] in *. split; [easy|]. intro X. apply B. rewrite map_app, map_fst_combine by apply seq_length. rewrite in_app_iff, in_seq. intros [Y|Y]; [easy|lia]. }
  destruct (G _ _ _ _ _ E) as [A B]; cbn [pNext pOps pConst] in *; [lia|]. split; [easy|]. now apply B.
Qed.
Print Assumptions C36_no_gates_refuted.
Example C36_no_gates_ex : parse ex_st [] [[97]]%N [[51]]%N [0] = Ok (PCir [8] 8 [(9, true); (10, true); (11, false)] []).
Proof. reflexivity. Qed.

(* the constructor that takes a number does not take the xor gate, the parser does *)
Theorem C36_xor_refuted a b o : arr_gate 8 a b o = UB /\ forall t, 1 <= t <= 7 -> arr_gate t a b o = Ok (AGate t a b o).
Proof. split; [easy|]. intros t H. unfold arr_gate. destruct (Nat.ltb_spec t 8); [easy|lia]. Qed.
Print Assumptions C36_xor_refuted.
