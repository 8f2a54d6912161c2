(* Specification of Where. *)
From Verif Require Import Base ShuffleSpec GmwModel GmwSpec TableModel TableSpec OmJoinSpec ExtractSpec WhereModel.

(* the wires of ins carry these bits *)
Definition input_env (ins : list nat) (bits : list bool) : env :=
  fun i => existsb (fun q => (fst q =? i) && snd q) (combine ins bits).
(* the value of a clause on one row of every input *)
Definition clause_on (cl : clause) (xs : list (list N)) : bool :=
  let c := clCir cl in
  flag_val (clFlag cl) (eval (cGates c)
    (input_env (concat (cIns c)) (concat (map2 (fun w x => row_bits (length w) x) (cIns c) xs))) (nth 0 (concat (cOuts c)) 0)).

(* row r of the selected columns of a shared table *)
Definition selected (sel : list nat) (t0 t1 : table) (r : nat) : list (list N) :=
  map (fun i => nth r (nth i (map2 shared_rows (tCols t0) (tCols t1)) []) []) sel.
(* the name, type and width of the columns *)
Definition infos (t : table) : list cinfo := map (fun c => Info (cName c) (cType c) (cBits c)) (tCols t).
(* a clause Gmw can run *)
Definition runnable (cl : clause) : Prop :=
  inlinable (clCir cl) /\ Forall (fun l => l <> []) (cIns (clCir cl)) /\ (exists o, cOuts (clCir cl) = [[o]]) /\
  forall g, In g (cGates (clCir cl)) -> gType g <> GOther.
(* the clause's inputs have the widths of the selected columns *)
Definition fits (cols : list cinfo) (sel : list nat) (cl : clause) : Prop :=
  Forall2 (fun i l => i < length cols /\ iBits (nth i cols (Info [] 0 0)) = length l) sel (cIns (clCir cl)).
(* the rows that are active and meet the clause *)
Definition where_rows (n : nat) (cl : clause) (sel : list nat) (t0 t1 : table) : list nat :=
  filter (fun r => is_active t0 t1 r && clause_on cl (selected sel t0 t1 r)) (seq 0 n).
