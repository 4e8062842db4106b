(* Directory-watch tasks on Linux: events.c 458-537 (events_remove, events_del_watch, events_is_watching,
   fsevents_task, fsevents_init, fsevents_stop, events_watch), os_unix.c 392-416 and 488-513 (handles), 347-360
   (os_close), 892-894 (events_watch_count), 1326-1351 (inotify_del_monitor, inotify_close), 1353-1376
   (inotify_recursive), 1383-1440 (adding and removing a watch). *)
From Verif Require Import Base.

(* An entry of the handle table: unused; a watched directory (the notification descriptor it belongs to, whether
   it is the directory asked for, its path, the kernel's number); a notification descriptor with the list of its
   watches. *)
Inductive slot := Free | Watch (of : nat) (top : bool) (path : nat) (kwd : nat) | Mon (ws : list nat).
(* A watch task: its result id, the directory (a number standing for the name), the handler; [None] before its
   first turn, then the descriptor events_watch returned; whether it has returned. *)
Record task := { t_id : Z; t_path : nat; t_cb : nat; t_fd : option nat; t_cancel : bool; t_done : bool }.
(* size: entries of the handle table; loop_fd: loop->inotify_fd; target: callback kept for a descriptor;
   act: loop->active_descriptors; ids: events_fsevents_tasks; cnt: __thrd()->task_count; all tasks run by one
   thread, which is also the one starting and stopping them (one loop). *)
Record sys := { size : nat; tab : nat -> slot; loop_fd : option nat; target : nat -> option nat; act : Z;
                ids : list Z; cnt : Z; tasks : list task }.

Definition put (t : nat -> slot) (i : nat) (s : slot) : nat -> slot := fun k => if k =? i then s else t k.
Definition is_free (s : slot) : bool := match s with Free => true | _ => false end.
(* os_unix.c 399-416: the entry asked for if unused, otherwise the first unused from 1 up; [None] is -1 *)
Definition new_fd (n : nat) (t : nat -> slot) (want : nat) : option nat :=
  if (want <? n) && is_free (t want) then Some want
  else if 0 <? want then find (fun i => is_free (t i)) (seq 1 (n - 1)) else None.

Definition mon_list (t : nat -> slot) (fd : nat) : list nat := match t fd with Mon ws => ws | _ => [] end.
(* os_unix.c 1409-1420 and 1363-1369: the kernel gave number [kwd]; a handle -1 is used as an index *)
Definition add_one (n : nat) (t : nat -> slot) (fd : nat) (top : bool) (kwd path : nat) : outcome (nat -> slot) :=
  match new_fd n t kwd with
  | None => UB
  | Some h => Ok (put (put t h (Watch fd top path kwd)) fd (Mon (mon_list t fd ++ [h])))
  end.
Fixpoint add_subs (n : nat) (t : nat -> slot) (fd : nat) (l : list (nat * nat)) : outcome (nat -> slot) :=
  match l with [] => Ok t | (kwd, p) :: r => do t' <- add_one n t fd false kwd p; add_subs n t' fd r end.

(* events.c 521-537.  [kfd]: what the kernel's inotify_init1 gives (None -1); [top]: the number for the directory
   (None: refused); [subs]: numbers and paths of the directories below it, in the order they are met; directories
   the kernel refuses are skipped (1364-1366) and so not listed.  events_add does not fail here. *)
Definition watch (s : sys) (kfd : option nat) (top : option nat) (subs : list (nat * nat)) (path cb : nat)
  : outcome (sys * option nat) :=
  do r <- match loop_fd s with
          | Some fd => Ok (tab s, Some fd)
          | None => match kfd with
                    | None => Ok (tab s, None)
                    | Some k => match new_fd (size s) (tab s) k with
                                | None => Ok (tab s, None)
                                | Some h => Ok (put (tab s) h (Mon []), Some h)
                                end
                    end
          end;
  let with_tab t l tg a := {| size := size s; tab := t; loop_fd := l; target := tg; act := a;
                              ids := ids s; cnt := cnt s; tasks := tasks s |} in
  match snd r with
  | None => Ok (with_tab (fst r) None (target s) (act s), None)
  | Some fd =>
    match top with
    | None => Ok (with_tab (fst r) (Some fd) (target s) (act s), None)
    | Some kwd =>
      do t1 <- add_one (size s) (fst r) fd true kwd path;
      do t2 <- add_subs (size s) t1 fd subs;
      (* events.c 583-607: the callback is stored, the count of descriptors goes up *)
      Ok (with_tab t2 (Some fd) (fun k => if k =? fd then Some cb else target s k) (act s + 1)%Z, Some fd)
    end
  end.

(* os_unix.c 1337-1343 with arrays.h 416-418 (foreach) and $remove: the index goes up although the entry under it
   was taken out; one step per turn of the loop *)
Fixpoint sweep (fuel i : nat) (ws : list nat) (t : nat -> slot) : outcome (list nat * (nat -> slot)) :=
  if i <? length ws then
    match fuel with
    | 0 => Fuel
    | S f => do h <- match nth_error ws i with Some h => Ok h | None => UB end;
             sweep f (S i) (firstn i ws ++ skipn (S i) ws) (put t h Free)
    end
  else Ok (ws, t).
(* os_unix.c 1335-1351: true for 0, false for -1 *)
Definition close_fd (s : sys) (fd : option nat) : outcome (sys * bool) :=
  match fd with
  | None => Ok (s, false)
  | Some k =>
    if (k <? size s) && negb (is_free (tab s k)) then
      do r <- sweep (length (mon_list (tab s) k)) 0 (mon_list (tab s) k) (tab s);
      Ok ({| size := size s; tab := put (snd r) k Free; loop_fd := loop_fd s; target := target s; act := act s;
             ids := ids s; cnt := cnt s; tasks := tasks s |}, true)
    else Ok (s, false)
  end.
(* events.c 463-468 *)
Definition del_watch (s : sys) : outcome (sys * bool) :=
  close_fd {| size := size s; tab := tab s; loop_fd := None; target := target s; act := act s;
              ids := ids s; cnt := cnt s; tasks := tasks s |} (loop_fd s).
(* os_unix.c 892-894; the entry before the table is read for -1 *)
Definition watching (s : sys) (fd : option nat) : outcome bool :=
  match fd with None => UB | Some k => Ok (0 <? length (mon_list (tab s) k)) end.

Definition set_task (s : sys) (i : nat) (t : task) : sys :=
  {| size := size s; tab := tab s; loop_fd := loop_fd s; target := target s; act := act s; ids := ids s;
     cnt := cnt s; tasks := set_nth i t (tasks s) |}.
(* events.c 488-503: a new task; its id is given by task_push; -1 or 0 means it could not be started *)
Definition init (s : sys) (rid : Z) (path cb : nat) : sys :=
  if (0 <? rid)%Z then
    {| size := size s; tab := tab s; loop_fd := loop_fd s; target := target s; act := act s;
       ids := ids s ++ [rid]; cnt := (cnt s + 1)%Z;
       tasks := tasks s ++ [{| t_id := rid; t_path := path; t_cb := cb; t_fd := None; t_cancel := false; t_done := false |}] |}
  else s.
(* events.c 505-522; task_set_canceled marks the task with that id *)
Fixpoint drop (r : Z) (l : list Z) : list Z :=
  match l with [] => [] | x :: k => if (x =? r)%Z then k else x :: drop r k end.
Definition mark (r : Z) (t : task) : task :=
  {| t_id := t_id t; t_path := t_path t; t_cb := t_cb t; t_fd := t_fd t;
     t_cancel := if (t_id t =? r)%Z then true else t_cancel t; t_done := t_done t |}.
Definition stop (s : sys) (rid : Z) : sys * bool :=
  if (0 <? rid)%Z && existsb (fun x => (x =? rid)%Z) (ids s) then
    ({| size := size s; tab := tab s; loop_fd := loop_fd s; target := target s; act := act s;
        ids := drop rid (ids s); cnt := (cnt s - 1)%Z; tasks := map (mark rid) (tasks s) |}, true)
  else (s, false).
(* events.c 474-486: one turn of task i, up to its next yield or its return; the first one calls events_watch with
   the kernel's answers *)
Definition turn (s : sys) (i : nat) (kfd top : option nat) (subs : list (nat * nat)) : outcome sys :=
  match nth_error (tasks s) i with
  | None => Ok s
  | Some t =>
    if t_done t then Ok s else
    do r <- match t_fd t with
            | Some fd => Ok (s, Some fd)
            | None => watch s kfd top subs (t_path t) (t_cb t)
            end;
    do w <- watching (fst r) (snd r);
    let upd d := {| t_id := t_id t; t_path := t_path t; t_cb := t_cb t; t_fd := snd r; t_cancel := t_cancel t; t_done := d |} in
    if w && negb (t_cancel t) then Ok (set_task (fst r) i (upd false))
    else do e <- del_watch (fst r); Ok (set_task (fst e) i (upd true))
  end.

(* os_unix.c 1326-1333 and 1422-1440, called through events_remove *)
Fixpoint drop_h (r : nat) (l : list nat) : list nat :=
  match l with [] => [] | x :: k => if x =? r then k else x :: drop_h r k end.
Definition remove (s : sys) (wd : nat) : sys * bool :=
  match tab s wd with
  | Watch fd _ _ _ =>
    let ws := drop_h wd (mon_list (tab s) fd) in
    let t := put (match tab s fd with Mon _ => put (tab s) fd (Mon ws) | _ => tab s end) wd Free in
    let last := match ws with [] => true | _ => false end in
    ({| size := size s; tab := t; loop_fd := loop_fd s;
        target := if last then (fun k => if k =? fd then None else target s k) else target s;
        act := if last then (act s - 1)%Z else act s; ids := ids s; cnt := cnt s; tasks := tasks s |}, true)
  | _ => (s, false)
  end.

(* os_unix.c 1296-1299: the directory a change with the kernel's number [kwd] is reported under *)
Definition reported (s : sys) (kwd : nat) : option nat := match tab s kwd with Watch _ _ p _ => Some p | _ => None end.
(* events.c 631-639 for the counts of these tasks: whether the loop still has something to do *)
Definition busy (s : sys) : bool := (0 <? act s)%Z || (0 <? cnt s)%Z.
Definition sys0 (n : nat) : sys :=
  {| size := n; tab := fun _ => Free; loop_fd := None; target := fun _ => None; act := 0%Z; ids := []; cnt := 0%Z; tasks := [] |}.
(* any use of these *)
Inductive op := Init (rid : Z) (path cb : nat) | Stop (rid : Z) | Turn (i : nat) (kfd top : option nat) (subs : list (nat * nat)).
Definition step (s : sys) (o : op) : outcome sys :=
  match o with
  | Init r p c => Ok (init s r p c)
  | Stop r => Ok (fst (stop s r))
  | Turn i k t l => turn s i k t l
  end.
Fixpoint run (s : sys) (l : list op) : outcome sys :=
  match l with [] => Ok s | o :: r => do s' <- step s o; run s' r end.
