(* Opening a shared table over the socket: revealRemote sends the columns and the flags, revealLocal receives them and
   calls reveal; Join/Table.cpp:320-353. *)
From Verif Require Import Base Words PermModel KeyMultModel ShuffleModel RadixModel TableModel TableIOModel.

(* The socket (coproto): a list of messages.  A message of no bytes ends in whatever the library makes of it, [empty]:
   sock.send in Table.cpp:345, 351 *)
Definition sock_send (empty : outcome unit) (m : list N) : outcome (list N) := match m with [] => do _ <- empty; Ok m | _ => Ok m end.
(* sock.recv into memory of a fixed size (a Matrix cannot be resized by the library), Table.cpp:328; a message of another size throws *)
Definition sock_recv (empty : outcome unit) (size : nat) (q : list (list N)) : outcome (list N * list (list N)) :=
  do _ <- (if size =? 0 then empty else Ok tt);
  match q with [] => Hang | m :: q => do _ <- throw_if (negb (length m =? size)); Ok (m, q) end.
(* sock.recv into a vector, which takes the size of the message, Table.cpp:333 *)
Definition sock_recv_vec (q : list (list N)) : outcome (list N * list (list N)) := match q with [] => Hang | m :: q => Ok (m, q) end.

(* Table::revealRemote, Table.cpp:340-353: the messages it sends *)
Definition open_remote (empty : outcome unit) (t : table) : outcome (list (list N)) :=
  do l <- mapM (fun c => sock_send empty (concat (bRows (cDat c)))) (tCols t);
  if 0 <? length (tAct t) then do a <- sock_send empty (tAct t); Ok (l ++ [a]) else Ok l.

(* the loop Table.cpp:326-329 *)
Fixpoint open_cols (empty : outcome unit) (cols : list column) (q : list (list N)) : outcome (list column * list (list N)) :=
  match cols with
  | [] => Ok ([], q)
  | c :: cols =>
    let d := cDat c in
    do r <- sock_recv empty (bm_n d * bCols d) q;
    do s <- open_cols empty cols (snd r);
    Ok (Col (cName c) (cType c) (cBits c) (BM (bBits d) (bCols d) (chunks (bCols d) (bm_n d) (fst r))) :: fst s, snd s)
  end.
(* Table::revealLocal, Table.cpp:320-337; the rest of the messages stay in the socket *)
Definition open_local (empty : outcome unit) (t : table) (q : list (list N)) : outcome (table * list (list N)) :=
  do i <- t_info t;
  do cols <- t_init (t_rows t) i;
  do r <- open_cols empty cols q;
  do a <- (if 0 <? length (tAct t) then sock_recv_vec (snd r) else Ok ([], snd r));
  do o <- t_reveal t (Tab (fst a) (fst r)) false;
  Ok (o, snd a).
