(* Directory watches of the Windows back end: os_windows.c 1541-1545, 1547-1577 (fields of a notice), 1578-1617
   (handler), 1619-1641, 1643-1762 (adding and removing watches), 471-489 (reading again). *)
From Verif Require Import Base.

Definition bytes := list Z.
(* winnt.h: FILE_NOTIFY_INFORMATION is NextEntryOffset, Action, FileNameLength (32 bits each, little endian) and
   FileName, wide characters; its size with padding is 16 *)
Definition u16 (b : bytes) (p : nat) : outcome Z := do x <- rd b p; do y <- rd b (p + 1); Ok (x + 256 * y)%Z.
Definition u32 (b : bytes) (p : nat) : outcome Z := do x <- u16 b p; do y <- u16 b (p + 2); Ok (x + 65536 * y)%Z.
Definition REC_SIZE := 16.
Fixpoint wides (b : bytes) (p n : nat) : outcome (list Z) :=
  match n with 0 => Ok [] | S k => do x <- u16 b p; do r <- wides b (p + 2) k; Ok (x :: r) end.
(* the name of a notice: FileNameLength / 2 wide characters *)
Definition wname (b : bytes) (p : nat) : outcome (list Z) := do l <- u32 b (p + 8); wides b (p + 12) (Z.to_nat l / 2).
(* os_windows.c 1571-1576: the offset is added to a pointer to records, so it counts records, not bytes *)
Definition next (b : bytes) (p : nat) : outcome (option nat) :=
  do n <- u32 b p; Ok (if (n =? 0)%Z then None else Some (p + REC_SIZE * Z.to_nat n)).
(* a caller that goes through a buffer with the three functions *)
Fixpoint walk (fuel : nat) (b : bytes) (p : nat) : outcome (list (Z * list Z)) :=
  match fuel with
  | 0 => Fuel
  | S f => do a <- u32 b (p + 4); do w <- wname b p; do n <- next b p;
           match n with None => Ok [(a, w)] | Some q => do r <- walk f b q; Ok ((a, w) :: r) end
  end.

(* async_io.h 132-138 *)
Definition WATCH_ADDED := 0x10000%Z.
Definition WATCH_MODIFIED := 0x4000%Z.
Definition WATCH_REMOVED := 0x400000%Z.
Definition WATCH_MOVED := 0x400%Z.
Definition ALL := Z.lor (Z.lor (Z.lor WATCH_MODIFIED WATCH_REMOVED) WATCH_ADDED) WATCH_MOVED.
(* os_windows.c 1583-1597; FILE_ACTION_ADDED 1, REMOVED 2, MODIFIED 3, RENAMED_OLD_NAME 4, RENAMED_NEW_NAME 5 *)
Definition action_of (a : Z) : Z :=
  (if a =? 1 then WATCH_ADDED else if a =? 2 then WATCH_REMOVED else if a =? 3 then WATCH_MODIFIED
   else if (a =? 4) || (a =? 5) then WATCH_MOVED else 0)%Z.
Definition NAME_MAX := 255.
Fixpoint upto0 (l : bytes) : bytes := match l with [] => [] | c :: r => if (c =? 0)%Z then [] else c :: upto0 r end.
(* WideCharToMultiByte with a given count writes no terminator; without enough space it fails and what it left is
   [junk].  [conv]: the code page. *)
Definition to_bytes (conv : list Z -> bytes) (junk : bytes) (w : list Z) (room : nat) (old : bytes) : bytes :=
  let n := conv w in if length n <=? room then n ++ skipn (length n) old else junk.
(* os_windows.c 1578-1617: the events and the name given to the watcher; the record at the start of the buffer only *)
Definition handler (conv : list Z -> bytes) (junk : bytes) (b : bytes) : outcome (option (Z * bytes)) :=
  do a <- u32 b 4;
  let act := action_of a in
  if (act =? 0)%Z then Ok None
  else do w <- wname b 0;
  Ok (Some (Z.lor act (Z.lnot ALL), upto0 (to_bytes conv junk w NAME_MAX (repeat 0%Z (NAME_MAX + 1))))).
(* os_windows.c 1547-1565: [old] is what fdTable[i].path holds *)
Definition name_of (conv : list Z -> bytes) (junk : bytes) (b : bytes) (p : nat) (room : nat) (old : bytes) : outcome bytes :=
  do w <- wname b p; Ok (to_bytes conv junk w room old).

(* ---- watches of one monitor ---- *)
(* a watch: its slot and the handle of its directory.  mh, mlast: fid.fileHandle and _fd of the monitor's slot;
   mlist: inotify_wd, the slot and name of every directory (names as numbers); mwork: its workdir; mopen: the slot is
   in use, its buffer allocated *)
Record mon := { mh : Z; mlast : Z; mlist : list (Z * nat); mwork : option nat; mopen : bool; slots : list (Z * Z); closed : list Z }.
Definition mon0 : mon := {| mh := 0; mlast := 0; mlist := []; mwork := None; mopen := true; slots := []; closed := [] |}.
(* os_windows.c 1677-1713 with a loop; [subs]: the directories below, in the order they are found.  All calls of the
   system succeed.  Every watch reads into the buffer of the monitor. *)
Definition add (m : mon) (wd h : Z) (name : nat) (subs : list nat) : mon :=
  {| mh := h; mlast := wd; mlist := mlist m ++ (wd, name) :: map (fun d => (wd, d)) subs; mwork := Some name; mopen := mopen m;
     slots := slots m ++ [(wd, h)]; closed := closed m |}.
(* os_windows.c 1733-1743: the entries are freed, then os_close of the monitor's slot closes its handle and frees its buffer *)
Definition close_mon (m : mon) : mon :=
  {| mh := mh m; mlast := mlast m; mlist := []; mwork := mwork m; mopen := false; slots := slots m; closed := closed m ++ [mh m] |}.
Fixpoint drop_first (d : nat) (l : list (Z * nat)) : option (list (Z * nat)) :=
  match l with
  | [] => None
  | (w, n) :: r => if n =? d then Some r else match drop_first d r with Some q => Some ((w, n) :: q) | None => None end
  end.
(* os_windows.c 1626-1641 and 1745-1762; [work]: workdir of the watch's slot, set only while its watcher runs.  The second
   component: the monitor is taken from the loop. *)
Definition del (m : mon) (wd : Z) (work : option nat) : mon * bool * Z :=
  match work with
  | None => (close_mon m, true, 0%Z)
  | Some d =>
    let m' := match drop_first d (mlist m) with
              | Some l => {| mh := mh m; mlast := mlast m; mlist := l; mwork := mwork m; mopen := mopen m; slots := slots m; closed := closed m |}
              | None => m end in
    (m', match mlist m' with [] => true | _ => false end, 0%Z)
  end.
(* os_windows.c 1610-1612: the directory of a notice without a directory in its name *)
Definition path_at (m : mon) (wd : Z) : option nat := mwork m.
(* events_watch_count, 1643-1645 *)
Definition count (m : mon) : nat := length (mlist m).
(* reads that are under way into the monitor's buffer: every watch whose handle is open *)
Definition pending (m : mon) : list Z := filter (fun h => negb (existsb (Z.eqb h) (closed m))) (map snd (slots m)).
