(* Directory changes on systems with kqueue (BSD, macOS), where the library finds out itself which file changed:
   os_unix.c 180-284 (inotify_update), 286-309 (inotify_task), 312-345 (os_read), 347-360 (os_close), 897-967
   (inotify_added, inotify_removed, inotify_modified, inotify_name, inotify_next, inotify_handler), 987-1030
   (inotify_init, inotify_del_monitor, inotify_close), 1032-1225 (inotify_recursive, kqueue_add_watch,
   inotify_add_watch, inotify_rm_watch).  File times and sizes are integers; the array of files grows without limit
   and stays where it is (its growth: ArrayModel); the memory given by calloc is never NULL.  One watched directory,
   whose descriptor is positive and is also its number in the table of pseudo descriptors. *)
From Verif Require Import Base StrModel.

(* <sys/event.h> *)
Definition NOTE_DELETE := 1%Z.
Definition NOTE_WRITE := 2%Z.
Definition NOTE_EXTEND := 4%Z.
Definition NOTE_ATTRIB := 8%Z.
Definition NOTE_RENAME := 32%Z.
Definition NOTE_REVOKE := 64%Z.
(* async_io.h 132-138 *)
Definition W_ADDED := 65536%Z.
Definition W_MODIFIED := 16384%Z.
Definition W_REMOVED := 4194304%Z.
Definition W_MOVED := 1024%Z.

(* what stat tells of a file: size, times of change and of modification *)
Record meta := { m_size : Z; m_ctime : Z; m_mtime : Z }.
(* os_unix.c 212 *)
Definition same_meta (a b : meta) : bool := (m_size a =? m_size b)%Z && (m_ctime a =? m_ctime b)%Z && (m_mtime a =? m_mtime b)%Z.
(* async_io.h 140-146: dirent_entry *)
Record ent := { e_name : bytes; e_meta : meta }.
(* what event->udata (or process->workdir) points at: nothing; a live string; the d_name of an entry of the
   directory stream, which goes away with closedir; the structure of the watched directory *)
Inductive ud := UNull | UText (b : bytes) | UEntry (b : bytes) | UDir.
(* of the table entry: inUse, path, process->workdir, offset, file_count; files: watched->files *)
Record st := { files : list ent; used : bool; path : option bytes; work : ud; off : nat; cnt : nat }.
(* d_type *)
Inductive kind := KDir | KReg | KOther.

Definition name_eqb (a b : bytes) : bool := if list_eq_dec Z.eq_dec a b then true else false.
Definition slash := 47%Z.
(* snprintf(subpath, path_max, "%s%s%s", path, SYS_DIRSEP, name) *)
Definition sub (pm : nat) (top n : bytes) : bytes := firstn (pm - 1) (top ++ slash :: n).
(* snprintf(file->filename, NAME_MAX, "%s", name): NAME_MAX 255 *)
Definition cut (n : bytes) : bytes := firstn 254 n.
(* data_remove, arrays.c 132-143 *)
Definition drop_at {A} (i : nat) (l : list A) : list A := firstn i l ++ skipn (S i) l.

(* os_unix.c 1083-1096: the files of a directory when its watch starts ([stat]: what stat tells of a path) *)
Fixpoint record (pm : nat) (stat : bytes -> option meta) (top : bytes) (l : list (kind * bytes)) : list ent :=
  match l with
  | [] => []
  | (KReg, n) :: r => match stat (sub pm top n) with
                      | Some m => {| e_name := cut n; e_meta := m |} :: record pm stat top r
                      | None => record pm stat top r
                      end
  | _ :: r => record pm stat top r
  end.
(* os_unix.c 418-437 (the new table entry) and 1036, 1098 *)
Definition start (fs : list ent) : st := {| files := fs; used := false; path := None; work := UNull; off := 0; cnt := length fs |}.

Section Look.
(* loop: sys_event.num_loops is not 0 (asynchronous use); pm: PATH_MAX; top: the path of the watched directory *)
Variables (loop : bool) (pm : nat) (stat : bytes -> option meta) (top : bytes).

(* os_unix.c 198-257: the directory read entry by entry; index counts the regular files met, max is index_max *)
Fixpoint scan (l : list (kind * bytes)) (index max : nat) (s : st) : outcome st :=
  match l with
  | [] => Ok s
  | (KReg, n) :: r =>
    if max <=? index then Ok s
    else do f <- rd (files s) index;
      if name_eqb (e_name f) n then
        match stat (sub pm top (e_name f)) with
        | Some m =>
          if same_meta m (e_meta f) then scan r (S index) max s
          else let fs := set_nth index {| e_name := e_name f; e_meta := m |} (files s) in
               Ok (if loop then {| files := fs; used := false; path := path s; work := UText (e_name f); off := off s; cnt := cnt s |}
                   else {| files := fs; used := true; path := Some (sub pm top (e_name f)); work := work s; off := off s; cnt := cnt s |})
        | None => scan r (S index) max s
        end
      else
        let s1 := {| files := files s; used := false; path := path s; work := UEntry n; off := off s; cnt := cnt s |} in
        let addable := negb (existsb (fun e => name_eqb n (e_name e)) (skipn index (firstn max (files s)))) in
        match stat (sub pm top (e_name f)) with
        | None => Ok {| files := drop_at index (files s); used := true; path := Some (sub pm top (e_name f));
                        work := UEntry n; off := off s; cnt := cnt s |}
        | Some _ =>
          if addable then
            match stat (sub pm top n) with
            | Some m => Ok {| files := files s ++ [{| e_name := cut n; e_meta := m |}]; used := false; path := path s;
                              work := UEntry n; off := off s; cnt := cnt s |}
            | None => scan r (S index) max s1
            end
          else scan r (S index) max s1
        end
  | _ :: r => scan r index max s
  end.

(* os_unix.c 267-278: the first recorded file that is no longer there *)
Fixpoint missing (l : list ent) (i : nat) : option (nat * bytes) :=
  match l with
  | [] => None
  | e :: r => match stat (sub pm top (e_name e)) with None => Some (i, sub pm top (e_name e)) | Some _ => missing r (S i) end
  end.

Definition text_of (p : option bytes) : ud := match p with Some b => UText b | None => UNull end.
(* os_unix.c 259-284; [max]: index_max *)
Definition finish (max : nat) (s : st) : st * ud :=
  if used s then ({| files := files s; used := true; path := path s; work := work s; off := length (files s); cnt := max |}, text_of (path s))
  else match work s with
    | UNull => match missing (firstn max (files s)) 0 with
      | Some (i, p) => ({| files := drop_at i (files s); used := true; path := Some p; work := UNull;
                           off := length (drop_at i (files s)); cnt := max |}, UText p)
      | None => ({| files := files s; used := false; path := path s; work := UNull; off := length (files s); cnt := max |}, UNull)
      end
    | u => ({| files := files s; used := false; path := path s; work := UNull; off := length (files s); cnt := max |}, u)
    end.

(* os_unix.c 180-284; [dir] is None when opendir fails *)
Definition look (dir : option (list (kind * bytes))) (s : st) : outcome (st * ud) :=
  match dir with
  | None => Ok (s, UText top)
  | Some l => do s1 <- scan l 0 (length (files s)) s; Ok (finish (length (files s)) s1)
  end.
End Look.

(* os_unix.c 897-915 with IN_CREATE, IN_DELETE, IN_MODIFY of os_unix.h 22-27; IN_MODIFY is not parenthesised, so
   'fflags & IN_MODIFY' is '(fflags & NOTE_ATTRIB) | NOTE_EXTEND | NOTE_REVOKE' *)
Definition is_added (s : st) (fflags : Z) : bool := negb (Z.land fflags NOTE_WRITE =? 0)%Z && (cnt s <? off s).
Definition is_removed (s : st) (fflags : Z) : bool := negb (Z.land fflags NOTE_DELETE =? 0)%Z || (off s <? cnt s).
Definition is_modified (fflags : Z) : bool := negb (Z.lor (Z.lor (Z.land fflags NOTE_ATTRIB) NOTE_EXTEND) NOTE_REVOKE =? 0)%Z.
(* os_unix.c 933-942 *)
Definition kind_of (s : st) (fflags : Z) : Z :=
  if is_added s fflags then W_ADDED else if is_removed s fflags then W_REMOVED
  else if negb (Z.land fflags NOTE_RENAME =? 0)%Z then W_MOVED else if is_modified fflags then W_MODIFIED else 0%Z.
(* a pointer printed with %s: nothing, a closed directory stream or a structure there is undefined *)
Definition shown (u : ud) : outcome bytes := match u with UText b => Ok b | _ => UB end.
(* os_unix.c 944-953: what the handler is called with ([None]: not called) *)
Definition handler (pm : nat) (top : bytes) (s : st) (fflags : Z) (u : ud) : outcome (option (Z * bytes)) :=
  let a := kind_of s fflags in
  if (a =? 0)%Z then Ok None
  else do b <- shown u;
    do t <- trim (if used s then firstn (pm - 1) b else firstn (pm - 1) (top ++ slash :: b));
    Ok (Some (Z.lor a (Z.lnot (Z.lor (Z.lor (Z.lor W_MODIFIED W_REMOVED) W_ADDED) W_MOVED)), cstr (fst t) (snd t))).

(* os_unix.c 292-309: an event of the loop *)
Definition event (pm : nat) (top : bytes) (s : st) (fflags : Z) (stat : bytes -> option meta) (dir : option (list (kind * bytes)))
  : outcome (st * option (Z * bytes)) :=
  do r <- look true pm stat top dir s;
  do h <- handler pm top (fst r) fflags (snd r);
  Ok ({| files := files (fst r); used := used (fst r); path := None; work := work (fst r); off := off (fst r); cnt := cnt (fst r) |}, h).
Fixpoint events (pm : nat) (top : bytes) (s : st) (l : list (Z * (bytes -> option meta) * option (list (kind * bytes))))
  : outcome (st * list (option (Z * bytes))) :=
  match l with
  | [] => Ok (s, [])
  | (fl, stat, dir) :: k => do r <- event pm top s fl stat dir; do r2 <- events pm top (fst r) k; Ok (fst r2, snd r :: snd r2)
  end.

(* os_unix.c 312-334: a blocking read of [len] bytes that finds events of one directory; [ks] is sizeof(struct
   kevent), [changes] the number of watches, [found] how many of them have an event: all are written to the buffer,
   whatever its length.  The name is event->udata (919-921); there is no next event (928-930). *)
Definition read_event (pm ks len changes found : nat) (top : bytes) (s : st) (stat : bytes -> option meta) (dir : option (list (kind * bytes)))
  : outcome (st * ud) :=
  if len <? ks * Nat.min changes found then UB
  else look false pm stat top dir {| files := files s; used := used s; path := None; work := work s; off := off s; cnt := cnt s |}.

(* ---- the watches of one notification descriptor ---- *)
(* wlist: inotify_wd (None NULL); opened: descriptors open in the process; reg: descriptors the loop watches;
   dirs: watch_dir_t structures allocated; own: the notification descriptor is in use; kq: the kernel queue it
   stands for; loops: whether the program has an event loop *)
Record watches := { wlist : option (list nat); opened : list nat; reg : list nat; dirs : list nat; own : bool; kq : nat; loops : bool }.
Definition minus (x : nat) (l : list nat) : list nat := filter (fun y => negb (y =? x)) l.
(* os_unix.c 987-995: with a loop the queue is the loop's own; otherwise [k] is new *)
Definition init (loops : bool) (loop_kq k : nat) : watches :=
  {| wlist := None; opened := [if loops then loop_kq else k]; reg := []; dirs := []; own := true;
     kq := if loops then loop_kq else k; loops := loops |}.
(* os_unix.c 1136-1185 and 1032-1100: the directory and those below it were opened as [ds]; nothing fails *)
Definition add (s : watches) (ds : list nat) : watches :=
  {| wlist := if loops s then Some (match wlist s with Some l => l | None => [] end ++ ds) else wlist s;
     opened := opened s ++ ds; reg := if loops s then reg s ++ ds else reg s; dirs := dirs s ++ ds; own := own s; kq := kq s; loops := loops s |}.
(* os_unix.c 1018-1023: 'foreach' counts up while the list shrinks *)
Fixpoint close_each (fuel i : nat) (l : list nat) (s : watches) : outcome watches :=
  match nth_error l i with
  | None => Ok s
  | Some d =>
    match fuel with
    | 0 => Fuel
    | S f => close_each f (S i) (drop_at i l) {| wlist := Some (drop_at i l); opened := minus d (opened s); reg := minus d (reg s);
                                                 dirs := dirs s; own := own s; kq := kq s; loops := loops s |}
    end
  end.
(* os_unix.c 1016-1030, with os_close 347-360 and 500-503 *)
Definition close_all (fuel : nat) (s : watches) : outcome (watches * bool) :=
  if own s then
    do s1 <- close_each fuel 0 (match wlist s with Some l => l | None => [] end) s;
    Ok ({| wlist := None; opened := minus (kq s) (opened s1); reg := reg s1; dirs := dirs s1; own := false; kq := kq s; loops := loops s |}, true)
  else Ok (s, false).
Fixpoint pos (d : nat) (l : list nat) : nat := match l with [] => 0 | x :: r => if x =? d then 0 else S (pos d r) end.
(* os_unix.c 1187-1212; events_valid_fd(wd): the descriptor is open *)
Definition rm (s : watches) (d : nat) : watches * bool :=
  if negb (existsb (Nat.eqb d) (opened s)) then (s, false)
  else if loops s then
    match wlist s with
    | Some l => if existsb (Nat.eqb d) l then
        ({| wlist := Some (drop_at (pos d l) l); opened := minus d (opened s); reg := minus d (reg s); dirs := minus d (dirs s); own := own s; kq := kq s; loops := loops s |}, true)
        else (s, false)
    | None => (s, false)
    end
  else ({| wlist := wlist s; opened := minus d (opened s); reg := reg s; dirs := dirs s; own := own s; kq := kq s; loops := loops s |}, true).
