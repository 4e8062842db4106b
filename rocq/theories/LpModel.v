(* Passes of an event loop on Linux and the moments at which timers fire: events.c 647-656 (events_is_running),
   703-723 (events_once), 950-972 (events_execute), epoll.c 149-187 (the wait).  Timers are those of TimersModel.
   What descriptors' callbacks, timers' callbacks and tasks do to timers is an argument of the pass; so are the time
   they take and the numbers of tasks and descriptors they leave.  The timeouts of descriptors (721) are WheelModel's
   matter.  active_io is 0 on Linux; shutting down and unhandled signals are left out. *)
From Verif Require Import Base DllModel TimersModel.
Local Open Scope Z_scope.

Record loop := mkLoop {
  tm : timers;                 (* loop->timers, active_timers *)
  clk : Z;                     (* the clock, ns *)
  res : Z;                     (* loop->timeout.resolution, s *)
  tasks : Z;                   (* __thrd()->task_count *)
  descs : Z;                   (* active_descriptors *)
  sigs : Z }.                  (* active_signals *)

Record input := mkIn {
  early : option Z;            (* a descriptor is ready after so many ns of waiting; None: none ever *)
  broken : bool;               (* what ends the wait is a signal: epoll_wait gives -1 with EINTR, epoll.c 155-157 *)
  late1 : Z;                   (* ns until the clock is read at 962: waking up, descriptors' callbacks *)
  late2 : Z;                   (* ns from there to the end of the pass *)
  dacts : list tact;           (* descriptors' callbacks, epoll.c 158-187 *)
  acts : list tact;            (* the timer's callback *)
  tacts : list tact;           (* the tasks that run at 714 *)
  tasks1 : Z;                  (* task_count at 713 *)
  tasks2 : Z; descs2 : Z; sigs2 : Z }.   (* at the end *)

(* epoll.c 153-154: the time for epoll_wait in ms, an int *)
Definition wait_ms (w : Z) : outcome Z :=
  let p := w * 1000 in if (- 2 ^ 31 <=? p) && (p <? 2 ^ 31) then Ok p else UB.

(* epoll_wait: ns slept; None: for ever *)
Definition slept (ms : Z) (e : option Z) : option Z :=
  if ms <? 0 then e
  else Some (match e with Some z => Z.min z (ms * 1000000) | None => ms * 1000000 end).

(* events.c 703-723; None: it does not return *)
Definition pass (max_wait : Z) (i : input) (s : loop) : outcome (option loop) :=
  let w := if res s <? max_wait then res s else max_wait in
  do ms <- wait_ms (if tasks s =? 0 then w else 0);
  match slept ms (early i) with
  | None => Ok None
  | Some z =>
    let now := clk s + z + late1 i in
    if match early i with Some _ => broken i | None => false end then Ok (Some (mkLoop (tm s) now (res s) (tasks s) (descs s) (sigs s)))
    else
    do t1 <- do_acts (tm s) (match early i with Some _ => dacts i | None => [] end);
    do t2 <- iterate t1 now (acts i);
    do t3 <- do_acts t2 (if tasks1 i =? 0 then [] else tacts i);
    Ok (Some (mkLoop t3 (now + late2 i) (res s) (tasks2 i) (descs2 i) (sigs2 i)))
  end.

(* events.c 709-711, 722: what the pass [i] that left [s] returns, as an int for counts that fit one *)
Definition once_ret (i : input) (s : loop) : Z :=
  if match early i with Some _ => broken i | None => false end then -1 else descs s + active (tm s).
(* events.c 647-656 *)
Definition is_running (s : loop) : bool := (0 <? descs s) || (0 <? active (tm s)) || (0 <? sigs s) || (0 <? tasks s).

Fixpoint passes (max_wait : Z) (l : list input) (s : loop) : outcome (option loop) :=
  match l with
  | [] => Ok (Some s)
  | i :: r => do o <- pass max_wait i s; match o with Some s1 => passes max_wait r s1 | None => Ok None end
  end.
