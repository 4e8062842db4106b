(* Named pipes on Unix: os_unix.c 159-180 (os_mkfifo, os_open), 378-390 (events_pseudo_fd), and the part of events_new_fd 391-418
   that chooses a slot for os_mkfifo.
   Texts are lists of bytes without 0.  pre: SYS_PIPE.  n: 260, the bytes of the buffers for names, which hold a 0 at the end.  port: the descriptor hIoCompPort, which is above 0.  A slot of
   the table is unused, a pipe with its path, or something else that is in use (with the path it may have).  What is opened is
   given as a path.  Left out: that the table grows with the number of watched descriptors, os_close (C48), no memory for a path. *)
From Coq Require Import ZArith List Bool Arith.
From Verif Require Import Base.
Import ListNotations.
Local Open Scope nat_scope.

Definition text := list Z.
Fixpoint teq (a b : text) : bool :=
  match a, b with
  | [], [] => true
  | x :: a, y :: b => Z.eqb x y && teq a b
  | _, _ => false
  end.

Inductive slot := Unused | Pipe (path : text) | Other (path : option text).
Definition table := list slot.

Section S.
Variable pre : text.
Variable n port : nat.

(* snprintf(buffer, n, "%s%s", SYS_PIPE, name) *)
Definition named (name : text) : text := firstn (n - 1) (pre ++ name).

(* the first unused slot, from 1 on: i is the number of the first of the list *)
Fixpoint unused_from (i : nat) (l : table) : option nat :=
  match l with
  | [] => None
  | Unused :: r => if i =? 0 then unused_from (S i) r else Some i
  | _ :: r => unused_from (S i) r
  end.
Definition choose (t : table) : option nat :=
  match nth_error t port with
  | Some Unused => Some port
  | _ => unused_from 0 t
  end.

(* made: whether mkfifo makes it; gives the answer, the path and the table *)
Definition os_mkfifo (made : bool) (t : table) (name : text) : Z * text * table :=
  let p := named name in
  (if made then 0%Z else (-1)%Z, p, match choose t with Some i => set_nth i (Pipe p) t | None => t end).

Definition path_of (s : slot) : option text := match s with Unused => None | Pipe p => Some p | Other p => p end.
Fixpoint pseudo (name : text) (l : table) : option slot :=
  match l with
  | [] => None
  | s :: r => match path_of s with
              | Some p => if teq (named name) p || teq name p then Some s else pseudo name r
              | None => pseudo name r
              end
  end.
(* the path that is given to open *)
Definition os_open (t : table) (name : text) : text :=
  match pseudo name t with
  | Some (Pipe p) => p
  | _ => name
  end.

(* pipes are made, with whether mkfifo makes them *)
Fixpoint makes (t : table) (l : list (bool * text)) : table :=
  match l with
  | [] => t
  | (b, name) :: r => makes (snd (os_mkfifo b t name)) r
  end.
End S.
