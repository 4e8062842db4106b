(* Operations handed to a worker thread: async_io.c 488-510, 512-693, 950-1125 (arguments, bodies and results),
   arrays.h 101-129 and 391 (values_t, casting), arrays.c 321-336 (is_data), future.c 42-75 (promise_set,
   promise_wait, promise_clean), 249-331 (queue_work_handler, promise_work), 338-387 and 422-452 (queue_work,
   queue_get), events.c 2636-2655 (the worker).  LP64, little endian, two's complement; the system functions are an
   oracle. *)
From Verif Require Import Base.

(* a value of values_t: 64 bits *)
Definition W64 := 18446744073709551616%Z.
Definition W32 := 4294967296%Z.
Definition W16 := 65536%Z.
Definition sgn (m x : Z) : Z := let r := (x mod m)%Z in if (r <? m / 2)%Z then r else (r - m)%Z.
(* arrays.h 391 (ptrdiff_t has 64 bits); pointers and size_t are passed as they are *)
Definition casting (x : Z) : Z := (x mod W64)%Z.
(* members of the union, arrays.h 101-129 *)
Definition integer (w : Z) : Z := sgn W32 w.
Definition u_int (w : Z) : Z := (w mod W32)%Z.
Definition u_short (w : Z) : Z := (w mod W16)%Z.
Definition long_long (w : Z) : Z := sgn W64 w.
Definition whole (w : Z) : Z := (w mod W64)%Z.
Definition to_int (x : Z) : Z := sgn W32 x.

(* the operations; pointers are their addresses.  Both the call of the library and the system function called. *)
Inductive op :=
| Open (path flags mode : Z) | Read (fd buf n : Z) | Write (fd buf n : Z) | Sendfile (out inp off n : Z) | Close (fd : Z)
| Unlink (path : Z) | Rmdir (path : Z) | Mkdir (path mode : Z) | Stat (path st : Z) | Fstat (fd st : Z) | Access (path mode : Z)
| Rename (a b : Z) | Copy (a b : Z) | Chmod (path mode : Z) | Entropy (buf n : Z)
| Fopen (path mode : Z) | Fclose (f : Z) | Fgetc (f : Z) | Fgets (buf n f : Z) | Fread (buf size n f : Z) | Fwrite (buf size n f : Z)
| Addrinfo (name serv hints res : Z) | Nameinfo (sa len host hlen serv slen flags : Z).

(* the arguments of queue_work: 598-668 (fs_open to fs_access), 676-678, 691-693, 965-967, 1027, 1047-1113, 507-510, 489-502 *)
Definition args (c : op) : list Z :=
  match c with
  | Open p f m => [p; casting f; casting m]
  | Read fd b n => [casting fd; b; casting n]
  | Write fd b n => [casting fd; b; casting n]
  | Sendfile o i off n => [casting o; casting i; off; casting n]
  | Close fd => [casting fd]
  | Unlink p => [p] | Rmdir p => [p]
  | Mkdir p m => [p; casting m]
  | Stat p st => [p; st] | Fstat fd st => [casting fd; st]
  | Access p m => [p; casting m]
  | Rename a b => [a; b] | Copy a b => [a; b]
  | Chmod p m => [p; casting m]
  | Entropy b n => [b; casting n]
  | Fopen p m => [p; m] | Fclose f => [f] | Fgetc f => [f]
  | Fgets b n f => [b; casting n; f]
  | Fread b s n f => [b; casting s; casting n; f]
  | Fwrite b s n f => [b; casting s; casting n; f]
  | Addrinfo a s h r => [a; s; h; r]
  | Nameinfo sa l h hl s sl fl => [sa; casting l; h; casting hl; s; casting sl; casting fl]
  end.
(* the function given to queue_work, reading its arguments: 488-491, 503-505, 512-597, 672-674, 680-687, 961-963,
   1014-1025, 1033-1039, 1042-1044, 1055-1057, 1065-1067, 1074-1076, 1082-1084.  An argument that is not there is out
   of the array. *)
Definition body (c : op) (a : list Z) : outcome op :=
  match c with
  | Open _ _ _ => do x <- rd a 0; do y <- rd a 1; do z <- rd a 2; Ok (Open (whole x) (integer y) (integer z))
  | Read _ _ _ => do x <- rd a 0; do y <- rd a 1; do z <- rd a 2; Ok (Read (integer x) (whole y) (u_int z))
  | Write _ _ _ => do x <- rd a 0; do y <- rd a 1; do z <- rd a 2; Ok (Write (integer x) (whole y) (u_int z))
  | Sendfile _ _ _ _ => do x <- rd a 0; do y <- rd a 1; do z <- rd a 2; do t <- rd a 3; Ok (Sendfile (integer x) (integer y) (whole z) (whole t))
  | Close _ => do x <- rd a 0; Ok (Close (integer x))
  | Unlink _ => do x <- rd a 0; Ok (Unlink (whole x))
  | Rmdir _ => do x <- rd a 0; Ok (Rmdir (whole x))
  | Mkdir _ _ => do x <- rd a 0; do y <- rd a 1; Ok (Mkdir (whole x) (u_short y))
  | Stat _ _ => do x <- rd a 0; do y <- rd a 1; Ok (Stat (whole x) (whole y))
  | Fstat _ _ => do x <- rd a 0; do y <- rd a 1; Ok (Fstat (integer x) (whole y))
  | Access _ _ => do x <- rd a 0; do y <- rd a 1; Ok (Access (whole x) (integer y))
  | Rename _ _ => do x <- rd a 0; do y <- rd a 1; Ok (Rename (whole x) (whole y))
  | Copy _ _ => do x <- rd a 0; do y <- rd a 1; Ok (Copy (whole x) (whole y))
  | Chmod _ _ => do x <- rd a 0; do y <- rd a 1; Ok (Chmod (whole x) (u_int y))
  | Entropy _ _ => do x <- rd a 0; do y <- rd a 1; Ok (Entropy (whole x) (whole y))
  | Fopen _ _ => do x <- rd a 0; do y <- rd a 1; Ok (Fopen (whole x) (whole y))
  | Fclose _ => do x <- rd a 0; Ok (Fclose (whole x))
  | Fgetc _ => do x <- rd a 0; Ok (Fgetc (whole x))
  | Fgets _ _ _ => do x <- rd a 0; do y <- rd a 1; do z <- rd a 2; Ok (Fgets (whole x) (integer y) (whole z))
  | Fread _ _ _ _ => do x <- rd a 0; do y <- rd a 1; do z <- rd a 2; do t <- rd a 3; Ok (Fread (whole x) (whole y) (whole z) (whole t))
  | Fwrite _ _ _ _ => do x <- rd a 0; do y <- rd a 1; do z <- rd a 2; do t <- rd a 3; Ok (Fwrite (whole x) (whole y) (whole z) (whole t))
  | Addrinfo _ _ _ _ => do x <- rd a 0; do y <- rd a 1; do z <- rd a 2; do t <- rd a 3; Ok (Addrinfo (whole x) (whole y) (whole z) (whole t))
  | Nameinfo _ _ _ _ _ _ _ => do x <- rd a 0; do y <- rd a 1; do z <- rd a 2; do t <- rd a 3; do u <- rd a 4; do v <- rd a 5; do w <- rd a 6;
      Ok (Nameinfo (whole x) (u_int y) (whole z) (u_int t) (whole u) (u_int v) (integer w))
  end.
(* what the function returns, given what the system function returned: Read, Write, Fwrite and others keep it in an int first *)
Definition back (c : op) (r : Z) : Z :=
  match c with
  | Fopen _ _ | Fgets _ _ _ => r
  | Fread _ _ _ _ | Sendfile _ _ _ _ => casting r
  | _ => casting (to_int r)
  end.
(* the member of the union that is given to the caller *)
Definition member (c : op) (w : Z) : Z :=
  match c with
  | Sendfile _ _ _ _ => long_long w
  | Fopen _ _ | Fgets _ _ _ | Fread _ _ _ _ | Fwrite _ _ _ _ => whole w
  | _ => integer w
  end.

(* arrays.c 325-336 in promise_set (future.c 48) and events.c 2650: for a word above 0x20000000 the type in front of
   that address is read; [hdr]: what is there, None where nothing is mapped.  A word taken for an array is copied as one. *)
Definition is_array_type (t : Z) : bool := ((t =? 31) || (t =? 32) || (t =? 33) || (t =? 34))%Z.
Definition deliver (hdr : Z -> option Z) (w : Z) : outcome Z :=
  if (sgn W64 w <=? 0x20000000)%Z then Ok w
  else match hdr w with
       | None => UB
       | Some t => if is_array_type t then UB else Ok w
       end.
(* one call: the system function called with its arguments, and the result *)
Definition fs_call (hdr : Z -> option Z) (sys : op -> Z) (c : op) : outcome (op * Z) :=
  do s <- body c (args c);
  do w <- deliver hdr (back c (sys s));
  Ok (s, member c w).

(* ---- one promise for several operations: promise_fopen, then promise_fgets and so on, 1086-1125 ---- *)
(* the result kept in the promise, and whether its arguments have been freed by the worker (events.c 2649, after each job) *)
Record prm := { pv : Z; pfreed : bool }.
(* future.c 44-54: NULL is not stored *)
Definition p_set (p : prm) (w : Z) : prm := {| pv := if (w =? 0)%Z then pv p else w; pfreed := pfreed p |}.
Definition p_ran (p : prm) : prm := {| pv := pv p; pfreed := true |}.
(* future.c 345-346: zeroed *)
Definition p_new (w : Z) : prm := p_ran (p_set {| pv := 0%Z; pfreed := false |} w).
(* future.c 291-303: the freed arguments are read to see whether they are an array; without [strict] the freed memory is
   taken to be left as it was.  value.integer = 0 clears the low 32 bits. *)
Definition p_work (strict : bool) (p : prm) (w : Z) : outcome prm :=
  if strict && pfreed p then UB
  else Ok (p_ran (p_set {| pv := (pv p - pv p mod W32)%Z; pfreed := false |} w)).
(* the words seen by promise_wait for the results [ws] one after the other *)
Fixpoint p_works (strict : bool) (p : prm) (ws : list Z) : outcome (list Z) :=
  match ws with
  | [] => Ok []
  | w :: k => do q <- p_work strict p w; do r <- p_works strict q k; Ok (pv q :: r)
  end.
(* future.c 66-75, as in promise_fclose (1098-1105): the arguments are looked at again *)
Definition p_clean (strict : bool) (p : prm) : outcome unit := if strict && pfreed p then UB else Ok tt.

(* ---- errno of the caller ---- *)
(* The caller (queue_get, future.c 433-434) and the handler (261-265) are two tasks of one thread that look at the flag
   in turn; Fin: the worker ends; SetE: something else runs in that thread and sets errno; EndC: the caller's task ends,
   which frees the promise (444-445). *)
Inductive ev := Fin | PollH | PollC | SetE (e : Z) | EndC.
Record es := { errn : Z; perr : Z; pdone : bool; hend : bool; seen : option Z; gone : bool }.
Definition es0 (e : Z) : es := {| errn := e; perr := 0; pdone := false; hend := false; seen := None; gone := false |}.
(* [w]: the word returned by the job, [e]: errno in the worker (cleared before the job, events.c 2640) *)
Definition estep (w e : Z) (s : es) (v : ev) : outcome es :=
  match v with
  | Fin => Ok (if pdone s then s
               else {| errn := errn s; perr := if (w =? casting (-1))%Z then e else perr s; pdone := true; hend := hend s; seen := seen s; gone := gone s |})
  | PollH => if hend s then Ok s
             else if gone s then UB
             else Ok (if pdone s then {| errn := if (perr s =? 0)%Z then errn s else perr s; perr := perr s; pdone := true; hend := true; seen := seen s; gone := gone s |} else s)
  | PollC => Ok (match seen s with
                 | None => if pdone s then {| errn := errn s; perr := perr s; pdone := true; hend := hend s; seen := Some (errn s); gone := gone s |} else s
                 | Some _ => s end)
  | SetE x => Ok {| errn := x; perr := perr s; pdone := pdone s; hend := hend s; seen := seen s; gone := gone s |}
  | EndC => Ok (match seen s with
                | Some _ => {| errn := errn s; perr := perr s; pdone := pdone s; hend := hend s; seen := seen s; gone := true |}
                | None => s end)
  end.
Fixpoint esteps (w e : Z) (s : es) (l : list ev) : outcome es :=
  match l with [] => Ok s | v :: k => do s1 <- estep w e s v; esteps w e s1 k end.
