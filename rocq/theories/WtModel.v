(* Descriptor table of the Windows back end: os_windows.c 58-79, 106-133, 154-283, 333-351, 371-398, 400-468,
   549-577, 611-693, 707-708.  One thread (the critical section is left out).  Kernel handles, sockets and CRT
   descriptors are numbers; the kernel's answers are arguments.  Of a slot only type, handle and path matter
   here; a path is a name (the prefix of pipe names is left out, so two spellings of a name are one).  Buffers,
   watches and processes, and the results of reads and writes, are left out: what is recorded is which object a
   call reaches. *)
From Verif Require Import Base.

(* events.h 160-185: 0 FD_UNUSED *)
Definition FD_FILE_ASYNC := 9.
Definition FD_PIPE_ASYNC := 11.
Record ent := { ety : nat; eh : Z; epath : option nat }.
Definition ent0 : ent := {| ety := 0; eh := 0; epath := None |}.

(* what is called *)
Inductive act :=
| ReadH (h : Z) | WriteH (h : Z) | CloseH (h : Z)      (* ReadFile, WriteFile, CloseHandle *)
| ReadC (n : Z) | WriteC (n : Z) | CloseC (n : Z)      (* _read, _write, _close *)
| Recv (s : Z) | Send (s : Z) | CloseS (s : Z)         (* recv, send, closesocket *)
| EventH.                                              (* CreateEventA: a handle that is never closed *)

(* live: os_init ran and os_shutdown did not; tab: fdTable; loops: num_loops <> 0; fdn: length of sys_event.fds;
   port: hIoCompPort; socks: numbers that are sockets for WSAEnumNetworkEvents *)
Record st := { live : bool; tab : list ent; loops : bool; fdn : Z; port : Z; socks : list Z }.
Definition with_tab s t := {| live := live s; tab := t; loops := loops s; fdn := fdn s; port := port s; socks := socks s |}.
Definition with_socks s k := {| live := live s; tab := tab s; loops := loops s; fdn := fdn s; port := port s; socks := k |}.

(* os_windows.c 106-119 (memory for the table is always found) and 181-182; [a]: active descriptors of the loop of
   the target, if it has one *)
Fixpoint grows (fuel : nat) (a : option nat) (t : list ent) : outcome (list ent) :=
  match a with
  | None => Ok t
  | Some n => if length t <=? n then match fuel with 0 => Fuel | S f => grows f a (t ++ repeat ent0 (length t)) end else Ok t
  end.

Definition entry (t : list ent) (p : Z) : option ent := if (p <? 0)%Z then None else nth_error t (Z.to_nat p).
(* os_windows.c 154-156 with a table *)
Definition valid_in (t : list ent) (p : Z) : bool := match entry t p with Some e => negb (ety e =? 0) | None => false end.
Definition free_in (t : list ent) (p : Z) : bool := match entry t p with Some e => ety e =? 0 | None => false end.
(* os_windows.c 198-203 *)
Fixpoint first_free (t : list ent) (k : nat) : option nat :=
  match t with [] => None | e :: r => if (0 <? k) && (ety e =? 0) then Some k else first_free r (S k) end.
(* os_windows.c 189-205, desiredFd -1 as in all calls *)
Definition pick (t : list ent) (fd : Z) : option nat :=
  if (0 <? fd)%Z then if free_in t fd then Some (Z.to_nat fd) else first_free t 0 else None.

(* os_windows.c 177-243.  Line 179 with events.c 446-448: the target of the descriptor, read at 181. *)
Definition new_fd (fuel : nat) (a : option nat) (s : st) (ty : nat) (fd : Z) : outcome (st * Z * list act) :=
  if negb (live s) then UB
  else if (fd <? 0)%Z || (fdn s <=? fd)%Z then UB
  else do t <- grows fuel a (tab s);
  match pick t fd with
  | None => Ok (with_tab s t, -1, [])%Z
  | Some i => Ok (with_tab s (set_nth i {| ety := ty; eh := fd; epath := None |} t), Z.of_nat i, [EventH])
  end.
(* os_windows.c 245-280 *)
Definition free_fd (s : st) (p : Z) : st :=
  match entry (tab s) p with
  | Some e => with_tab s (set_nth (Z.to_nat p) {| ety := 0; eh := eh e; epath := None |} (tab s))
  | None => s
  end.
(* os_windows.c 158-171; [ok]: the handle joins the completion port *)
Definition assign (ok : bool) (s : st) (h p : Z) : st * Z * list act :=
  if (p =? -1)%Z then (s, -1, [CloseH h])%Z
  else if ok then (s, p, []) else (free_fd s p, -1, [CloseH h])%Z.

(* os_windows.c 639-678 with an answer [h] of CreateFileA (-1: it failed); the flags are WpModel's matter *)
Definition open_file (fuel : nat) (a : option nat) (ok : bool) (s : st) (ty : nat) (h : Z) : outcome (st * Z * list act) :=
  do '(s1, p, e1) <- new_fd fuel a s ty h;
  let '(s2, r, e2) := assign ok s1 h p in Ok (s2, r, e1 ++ e2).

(* os_windows.c 121-133 *)
Fixpoint by_path (t : list ent) (k : nat) (name : nat) : option nat :=
  match t with
  | [] => None
  | e :: r => if negb (ety e =? 0) && match epath e with Some x => x =? name | None => false end then Some k else by_path r (S k) name
  end.
(* os_windows.c 611-636; [h]: CreateNamedPipeA's answer.  The call itself returns 0; the slot is given here. *)
Definition mkfifo (fuel : nat) (a : option nat) (s : st) (h : Z) (name : nat) : outcome (st * Z * list act) :=
  if (h =? -1)%Z then Ok (s, -1, [])%Z
  else do '(s1, p, e) <- new_fd fuel a s FD_PIPE_ASYNC (port s);
  if (p =? -1)%Z then Ok (s1, -1, e)%Z
  else Ok (with_tab s1 (set_nth (Z.to_nat p) {| ety := FD_PIPE_ASYNC; eh := h; epath := Some name |} (tab s1)), p, e).
(* os_windows.c 549-577 and 686-690; [conn]: ConnectNamedPipe went well.  A failed accept gives -1, which assign takes. *)
Definition open_pipe (fuel : nat) (a : option nat) (conn ok : bool) (s : st) (name : nat) : outcome (option (st * Z * list act)) :=
  if negb (live s) then UB else
  match by_path (tab s) 0 name with
  | None => Ok None
  | Some i =>
    do e <- rd (tab s) i;
    if ety e =? FD_PIPE_ASYNC then
      do '(s1, p, e1) <- (if conn then new_fd fuel a s FD_PIPE_ASYNC (eh e) else Ok (s, -1, [])%Z);
      let '(s2, r, e2) := assign ok s1 (eh e) p in Ok (Some (s2, r, e1 ++ e2))
    else Ok None
  end.

(* os_windows.c 333-338 *)
Definition is_socket (s : st) (fd : Z) : bool := if (fd <? 3)%Z then false else existsb (Z.eqb fd) (socks s).
(* fdTable[fd].type read without a check *)
Definition type_at (s : st) (fd : Z) : outcome nat :=
  if negb (live s) then UB else match entry (tab s) fd with Some e => Ok (ety e) | None => UB end.
(* os_windows.c 154-156: the table is read only for numbers in its range, whether it is there or not *)
Definition valid_fd (s : st) (fd : Z) : outcome bool :=
  match entry (tab s) fd with
  | None => Ok false
  | Some e => if live s then Ok (negb (ety e =? 0)) else UB
  end.
(* the first condition of os_read and os_write, evaluated from left to right *)
Definition not_slot (s : st) (fd : Z) : outcome bool :=
  if negb (loops s) then Ok true
  else do t <- type_at s fd; Ok ((t =? 0) || is_socket s fd).

(* os_windows.c 347-398; types other than files and pipes do not occur here *)
Definition os_read (s : st) (fd : Z) : outcome (list act) :=
  do b <- not_slot s fd;
  if b && is_socket s fd then Ok [Recv fd]
  else do v <- (if b then valid_fd s fd else Ok true);
  if negb v then Ok [ReadC fd]
  else match entry (tab s) fd with
  | None => Exn
  | Some e => if (ety e =? FD_FILE_ASYNC) || (ety e =? FD_PIPE_ASYNC) then Ok [ReadH (eh e)] else Exn
  end.
(* os_windows.c 400-430 *)
Definition os_write (s : st) (fd : Z) : outcome (list act) :=
  do b <- not_slot s fd;
  if b then Ok (if is_socket s fd then [Send fd] else [WriteC fd])
  else match entry (tab s) fd with
  | None => Exn
  | Some e => if (ety e =? FD_FILE_ASYNC) || (ety e =? FD_PIPE_ASYNC) then Ok [WriteH (eh e)] else Exn
  end.
(* os_windows.c 432-468; [fl], [dc]: FlushFileBuffers and DisconnectNamedPipe went well *)
Definition os_close (fl dc : bool) (s : st) (fd : Z) : outcome (st * Z * list act) :=
  if (fd =? -1)%Z then Ok (s, 0, [])%Z
  else do v <- (if loops s then valid_fd s fd else Ok false);
  if negb v && is_socket s fd then Ok (with_socks s (filter (fun x => negb (x =? fd)%Z) (socks s)), 0%Z, [CloseS fd])
  else do v2 <- (if v then Ok true else valid_fd s fd);
  if negb v2 then Ok (s, 0%Z, [CloseC fd])
  else match entry (tab s) fd with
  | None => Exn
  | Some e =>
    if (ety e =? FD_PIPE_ASYNC) && negb (fl && dc) then Ok (s, -1, [])%Z
    else Ok (free_fd s fd, 0%Z, [CloseH (eh e)])
  end.
(* os_windows.c 135-152, 310-330: only the types are cleared, no handle is closed, and the freed table stays in fdTable *)
Definition os_shutdown (s : st) : st :=
  if live s then {| live := false; tab := map (fun e => {| ety := 0; eh := eh e; epath := epath e |}) (tab s);
                    loops := loops s; fdn := fdn s; port := port s; socks := socks s |} else s.

(* what a program does; Sock and Crt: a number given by the socket library or the C library *)
Inductive op :=
| Open (fuel : nat) (a : option nat) (ok : bool) (h : Z)
| Fifo (fuel : nat) (a : option nat) (h : Z) (name : nat)
| Pipe (fuel : nat) (a : option nat) (conn ok : bool) (name : nat)
| Sock (n : Z) | Crt (n : Z)
| Read (n : Z) | Write (n : Z) | Close (fl dc : bool) (n : Z).
Definition step (s : st) (o : op) : outcome (st * Z * list act) :=
  match o with
  | Open f a ok h => open_file f a ok s FD_FILE_ASYNC h
  | Fifo f a h n => mkfifo f a s h n
  | Pipe f a c ok n => do r <- open_pipe f a c ok s n; Ok (match r with Some x => x | None => (s, -1, [])%Z end)
  | Sock n => Ok (with_socks s (n :: socks s), n, [])
  | Crt n => Ok (s, n, [])
  | Read n => do l <- os_read s n; Ok (s, 0%Z, l)
  | Write n => do l <- os_write s n; Ok (s, 0%Z, l)
  | Close fl dc n => os_close fl dc s n
  end.
Fixpoint steps (s : st) (l : list op) : outcome (st * list (Z * list act)) :=
  match l with
  | [] => Ok (s, [])
  | o :: k => do '(s1, r, e) <- step s o; do '(s2, rs) <- steps s1 k; Ok (s2, (r, e) :: rs)
  end.
Definition start (n : nat) (lp : bool) (fdn port : Z) : st :=
  {| live := true; tab := repeat ent0 n; loops := lp; fdn := fdn; port := port; socks := [] |}.
