(* Directory-change notification on Linux: os_unix.c 1250-1262 (inotify_next), 1276-1304
   (inotify_handler), 1376-1400 and 1402-1440 (adding a watch). *)
From Verif Require Import Base StrModel FdModel.

(* <sys/inotify.h> *)
Definition IN_ACCESS := 1%Z.
Definition IN_MODIFY := 2%Z.
Definition IN_ATTRIB := 4%Z.
Definition IN_MOVED_FROM := 64%Z.
Definition IN_MOVED_TO := 128%Z.
Definition IN_CREATE := 256%Z.
Definition IN_DELETE := 512%Z.
Definition IN_DELETE_SELF := 1024%Z.
Definition IN_MOVE_SELF := 2048%Z.
(* async_io.h 132-138 *)
Definition WATCH_ADDED := 65536%Z.      (* 0x10000 *)
Definition WATCH_MODIFIED := 16384%Z.   (* 0x4000 *)
Definition WATCH_REMOVED := 4194304%Z.  (* 0x400000 *)
Definition WATCH_MOVED := 1024%Z.       (* 0x400 *)

(* a 32-bit field of the buffer, least significant byte first (x86-64, arm64) *)
Definition u32 (buf : bytes) (off : nat) : outcome Z :=
  do b0 <- rd buf off; do b1 <- rd buf (off + 1); do b2 <- rd buf (off + 2); do b3 <- rd buf (off + 3);
  Ok (b0 + 256 * b1 + 65536 * b2 + 16777216 * b3)%Z.
(* a name: up to its NUL; running off the buffer is undefined *)
Fixpoint cstr_of (l : bytes) : outcome bytes :=
  match l with [] => UB | c :: r => if (c =? 0)%Z then Ok [] else do s <- cstr_of r; Ok (c :: s) end.

(* os_unix.c 1286-1293: the kind of change, 0 none *)
Definition action_of (mask : Z) : Z :=
  (if negb (Z.land mask (Z.lor IN_CREATE IN_MOVED_TO) =? 0) then WATCH_ADDED
   else if negb (Z.land mask (Z.lor (Z.lor IN_DELETE IN_DELETE_SELF) IN_MOVED_FROM) =? 0) then WATCH_REMOVED
   else if negb (Z.land mask IN_MOVE_SELF =? 0) then WATCH_MOVED
   else if negb (Z.land mask (Z.lor IN_MODIFY IN_ATTRIB) =? 0) then WATCH_MODIFIED
   else 0)%Z.
(* os_unix.c 1299: action | ~mask as int *)
Definition events_arg (action : Z) : Z := Z.lor action (Z.lnot (Z.lor (Z.lor (Z.lor WATCH_MODIFIED WATCH_REMOVED) WATCH_ADDED) WATCH_MOVED)).

(* what the table holds for a watch number: outside the table None; changes flag and path (NULL: None) *)
Definition winfo := Z -> option (bool * option bytes).
Record call := { cwd : Z; cev : Z; cpath : bytes }.
Definition slash := 47%Z.
(* os_unix.c 1296-1299; PATH_MAX 4096 *)
Definition path_of (pm : nat) (info : winfo) (wd : Z) (name : bytes) : outcome bytes :=
  match info wd with
  | None => UB
  | Some (true, _) => Ok name
  | Some (false, None) => UB
  | Some (false, Some p) => Ok (firstn (pm - 1) (p ++ slash :: name))
  end.

(* os_unix.c 1276-1304.  [pm]: PATH_MAX; one step per record. *)
Fixpoint walk (fuel pm : nat) (info : winfo) (buf : bytes) (p : nat) : outcome (list call) :=
  if p <? length buf then
    match fuel with
    | 0 => Fuel
    | S f =>
      do len <- u32 buf (p + 12);
      do here <- (if (len =? 0)%Z then Ok []
                  else do mask <- u32 buf (p + 4);
                       let a := action_of mask in
                       if (a =? 0)%Z then Ok []
                       else do wd <- u32 buf p;
                            let wd := wraps 32 wd in
                            do name <- cstr_of (skipn (p + 16) buf);
                            do path <- path_of pm info wd name;
                            Ok [{| cwd := wd; cev := events_arg a; cpath := path |}]);
      do rest <- walk f pm info buf (p + 16 + Z.to_nat len);
      Ok (here ++ rest)
    end
  else Ok [].

(* os_unix.c 1250-1262 for a record at offset p of a buffer of n bytes: 'event += sizeof(inotify_t) + len'
   counts in whole records of 16 bytes, and only the start of the buffer is recognised *)
Definition next_rec (buf : bytes) (n p : nat) : outcome (option nat) :=
  if p =? 0 then do len <- u32 buf 12;
    let q := 16 * (16 + Z.to_nat len) in Ok (if q <? n then Some q else None)
  else Ok None.

(* Adding a watch: os_unix.c 1409-1422 (top directory, changes = 1) and 1363-1372 (sub-directories); the
   path is kept at the handle, the handler looks it up at the kernel's number *)
Record wst := { wtab : fst_; wpath : nat -> bool * option bytes }.
Definition add_watch (s : wst) (wd : Z) (top : bool) (path : bytes) : outcome (wst * Z) :=
  do r <- fd_new 0 0 None (wtab s) FD_MONITOR_SYNC wd wd;
  if (snd r <? 0)%Z then UB
  else Ok ({| wtab := fst r; wpath := fun k => if k =? Z.to_nat (snd r) then (top, Some path) else wpath s k |}, snd r).
Definition info_of (s : wst) : winfo := fun wd =>
  match fd_entry (tab (wtab s)) wd with Some (i, _) => Some (wpath s i) | None => None end.
(* os_unix.c 1306-1324: the notification descriptor itself takes an entry with its own number, without path *)
Definition notify_init (s : wst) (fd : Z) : outcome (wst * Z) :=
  do r <- fd_new 0 0 None (wtab s) FD_MONITOR_ASYNC fd fd;
  if (snd r <? 0)%Z then UB
  else Ok ({| wtab := fst r; wpath := fun k => if k =? Z.to_nat (snd r) then (false, None) else wpath s k |}, snd r).
Definition wst0 (n : nat) : wst := {| wtab := fst0 n; wpath := fun _ => (false, None) |}.
Fixpoint add_watches (s : wst) (l : list (Z * bytes)) : outcome wst :=
  match l with [] => Ok s | (wd, p) :: k => do r <- add_watch s wd false p; add_watches (fst r) k end.
