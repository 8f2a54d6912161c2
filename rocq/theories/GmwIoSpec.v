(* Vocabulary of the properties of the input/output side of Gmw. *)
From Verif Require Import Base GmwModel GmwSpec ShuffleSpec GmwIoModel.

(* a bundle that the code accepts: one or more consecutive wires of the circuit *)
Definition bundle_ok (wires : nat) (b : list nat) : Prop :=
  exists s, b = seq s (length b) /\ 0 < length b /\ s + length b <= wires.

(* a transposed matrix of k rows for n entries as resize with alignment 16 makes it *)
Definition tmat_ok (n k : nat) (d : tmat) : Prop :=
  tmEntries d = n /\ length (tmRows d) = k /\ tmBytes d = 16 * ((n + 127) / 128) /\
  Forall (fun r => length r = (n + 127) / 128) (tmRows d).
(* bit j of entry i of rows of blocks in transposed format *)
Definition lane (rows : list (list N)) (i j : nat) : bool :=
  N.testbit (nth (i / 128) (nth j rows []) 0%N) (N.of_nat (i mod 128)).

(* what a party gives for an input: nothing (setZeroInput), a matrix with its element size,
   bytes per row and rows (setInput), or a transposed matrix (mapInput) *)
Inductive given := GZero | GRows (al cols : nat) (rows : list (list N)) | GMap (d : tmat).
Definition given_ok (n k : nat) (x : given) : Prop :=
  match x with
  | GZero => True
  | GRows al cols rows => 0 < al /\ (k + al * 8 - 1) / (al * 8) = cols / al /\ length rows = n
  | GMap d => tmat_ok n k d
  end.
(* bit j of row i *)
Definition given_bit (x : given) (i j : nat) : bool :=
  match x with GZero => false | GRows _ _ rows => sbit (nth i rows []) j | GMap d => lane (tmRows d) i j end.

(* setInput, setZeroInput or mapInput for each input in turn *)
Definition give_all junk (pad : nat -> nat -> nat -> bool) (xs : list given) (g : gmw) : outcome gmw :=
  forN 0 (length xs) (fun i g =>
    do x <- get xs i;
    match x with
    | GRows al cols rows => set_input junk (pad i) i al cols rows g
    | GZero => set_zero_input junk i g
    | GMap d => map_bundle (gIns g) i d g
    end) g.

(* mapOutput for some of the outputs; also tells in which region each matrix is *)
Definition take_all (ys : list (option tmat)) (g : gmw) : outcome (gmw * list (option nat)) :=
  forN 0 (length ys) (fun i s =>
    do y <- get ys i;
    match y with
    | None => Ok (fst s, snd s ++ [None])
    | Some d => do g <- map_bundle (gOuts (fst s)) i d (fst s); Ok (g, snd s ++ [Some (length (gHeap (fst s)))])
    end) (g, []).
(* one party: give the inputs, then map some outputs *)
Definition prepare junk pad (xs : list given) (ys : list (option tmat)) (g : gmw) : outcome (gmw * list (option nat)) :=
  do g <- give_all junk pad xs g;
  take_all ys g.
(* the matrices fit, and a mapped output shares no wire with another output *)
Definition take_ok (n : nat) (outs : list (list nat)) (ys : list (option tmat)) : Prop :=
  length ys = length outs /\
  forall i b d, nth_error outs i = Some b -> nth_error ys i = Some (Some d) ->
    tmat_ok n (length b) d /\ forall i' b' w, nth_error outs i' = Some b' -> In w b -> In w b' -> i' = i.

(* the circuit's wires: inputs are disjoint bundles, outputs are bundles that contain no input *)
Definition io_ok (wires : nat) (ins outs : list (list nat)) : Prop :=
  Forall (bundle_ok wires) ins /\ NoDup (concat ins) /\ Forall (bundle_ok wires) outs /\
  forall w, In w (concat outs) -> ~ In w (concat ins).
