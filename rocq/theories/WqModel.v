(* The linked queues of wepoll: wepoll.c 908-915 (the links), 1447-1504.  A node is known by its number; a queue is
   known by the node that is its head.  Memory holds two links for each node, written in the order of the code. *)
From Verif Require Import Base.

Record mem := { nx : nat -> nat; pv : nat -> nat }.
Definition put (f : nat -> nat) (a b : nat) : nat -> nat := fun x => if Nat.eqb x a then b else f x.
Definition set_next (m : mem) (a b : nat) : mem := {| nx := put (nx m) a b; pv := pv m |}.
Definition set_prev (m : mem) (a b : nat) : mem := {| nx := nx m; pv := put (pv m) a b |}.

(* 1451-1454; 1447-1449 queue_init is the same for the head *)
Definition node_init (m : mem) (n : nat) : mem := let m := set_prev m n n in set_next m n n.
(* 1456-1459 *)
Definition detach (m : mem) (n : nat) : mem :=
  let m := set_next m (pv m n) (nx m n) in set_prev m (nx m n) (pv m n).
(* 1502-1504 *)
Definition is_enqueued (m : mem) (n : nat) : bool := negb (Nat.eqb (pv m n) n).
(* 1498-1500 *)
Definition is_empty (m : mem) (q : nat) : bool := negb (is_enqueued m q).
(* 1461-1467 *)
Definition first (m : mem) (q : nat) : option nat := if negb (is_empty m q) then Some (nx m q) else None.
Definition last_ (m : mem) (q : nat) : option nat := if negb (is_empty m q) then Some (pv m q) else None.
(* 1469-1474 *)
Definition prepend (m : mem) (q n : nat) : mem :=
  let m := set_next m n (nx m q) in let m := set_prev m n q in let m := set_prev m (nx m n) n in set_next m q n.
(* 1476-1481 *)
Definition append (m : mem) (q n : nat) : mem :=
  let m := set_next m n q in let m := set_prev m n (pv m q) in let m := set_next m (pv m n) n in set_prev m q n.
(* 1483-1491 *)
Definition move_to_start (m : mem) (q n : nat) : mem := prepend (detach m n) q n.
Definition move_to_end (m : mem) (q n : nat) : mem := append (detach m n) q n.
(* 1493-1496 *)
Definition remove (m : mem) (n : nat) : mem := node_init (detach m n) n.

Inductive op := Init (q : nat) | Node (n : nat) | Append (q n : nat) | Prepend (q n : nat) | ToStart (q n : nat) | ToEnd (q n : nat) | Remove (n : nat)
  | First (q : nat) | Last (q : nat) | Empty (q : nat) | Enqueued (n : nat).
Inductive answer := Nothing | Got (n : option nat) | Is (b : bool).
Definition exec (m : mem) (o : op) : mem * answer :=
  match o with
  | Init q => (node_init m q, Nothing) | Node n => (node_init m n, Nothing)
  | Append q n => (append m q n, Nothing) | Prepend q n => (prepend m q n, Nothing)
  | ToStart q n => (move_to_start m q n, Nothing) | ToEnd q n => (move_to_end m q n, Nothing)
  | Remove n => (remove m n, Nothing)
  | First q => (m, Got (first m q)) | Last q => (m, Got (last_ m q)) | Empty q => (m, Is (is_empty m q)) | Enqueued n => (m, Is (is_enqueued m n))
  end.
Fixpoint runs (m : mem) (os : list op) : mem * list answer :=
  match os with [] => (m, []) | o :: r => let x := exec m o in let y := runs (fst x) r in (fst y, snd x :: snd y) end.
