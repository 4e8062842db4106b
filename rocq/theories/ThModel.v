(* One thread of tasks as a whole: ready tasks, sleeping tasks, tasks waiting for descriptors, the library's own task
   that wakes sleepers, and the special turn of the main task.  events.c 1041-1064 (start of a thread), 1157-1161
   (end of a task), 1177-1180 (task_sleep_switch), 1278-1354 (task_system, task_yielding_active, task_wait_system),
   1356-1420 (add_timeout, delay, wait_cb, async_wait), 1752-1776 (task_push), 1999-2008 (launch), 2337-2344
   (async_run), 2346-2390 (suspend, yield), 2410-2444 (tasks_schedulering).
   Task 0 is the library's task (sleep_handle), task 1 the main task (atexit_ctr_c_task).  The two queues are lists:
   DllModel and SleepModel show the linked ones represent them as long as no task is put in twice, which is UB here.
   Left out: cancelling, wait groups, generators, resume, timers, callbacks of the program, events_destroy; counters
   are integers without bound. *)
From Coq Require Import ZArith List Bool.
From Verif Require Import Base.
Import ListNotations.
Open Scope Z_scope.

(* What a task does between two switches: yield, delay(ms), async_wait(fd), launch of a new task (which yields),
   return from the task function. *)
Inductive tact := TYield | TSleep (ms : Z) | TWait (f : nat) | TSpawn | TEnd.

Record th := mkTh {
  runq : list nat;              (* __thrd()->run_queue *)
  sleepq : list (nat * Z);      (* __thrd()->sleep_queue: task, alarm_time *)
  waitq : list (nat * nat);     (* descriptors watched for async_wait: descriptor, task *)
  done : list nat;              (* tasks that returned *)
  pc : nat -> nat;              (* segments done, per task *)
  fresh : nat;                  (* next task *)
  count : Z;                    (* task_count *)
  asleep : Z;                   (* sleep_count *)
  ran : Z;                      (* num_others_ran *)
  seen : Z;                     (* the n of task_yielding_active in the library's task *)
  started : bool;               (* the library's task ran once: task_system done *)
  inyield : bool;               (* the main task is suspended in the suspend() of yield *)
  segs : list nat }.            (* history: tasks whose own code ran, oldest first *)

Definition with_runq (s : th) q := mkTh q (sleepq s) (waitq s) (done s) (pc s) (fresh s) (count s) (asleep s) (ran s) (seen s) (started s) (inyield s) (segs s).
Definition with_seen (s : th) n := mkTh (runq s) (sleepq s) (waitq s) (done s) (pc s) (fresh s) (count s) (asleep s) (ran s) n (started s) (inyield s) (segs s).
Definition with_wait (s : th) w := mkTh (runq s) (sleepq s) w (done s) (pc s) (fresh s) (count s) (asleep s) (ran s) (seen s) (started s) (inyield s) (segs s).
Definition with_inyield (s : th) b := mkTh (runq s) (sleepq s) (waitq s) (done s) (pc s) (fresh s) (count s) (asleep s) (ran s) (seen s) (started s) b (segs s).

(* enqueue at the tail; a task that is queued already corrupts the list (C30) *)
Definition enq (s : th) (t : nat) : outcome th :=
  if existsb (Nat.eqb t) (runq s) then UB else Ok (with_runq s (runq s ++ [t])).

(* 1332-1349: due sleepers, in the order of the sleep queue; with the last of them the thread counts one less *)
Fixpoint wake (now : Z) (l : list (nat * Z)) (s : th) : outcome th :=
  match l with
  | [] => Ok s
  | (t, a) :: r =>
    if a <=? now then
      let s1 := mkTh (runq s) r (waitq s) (done s) (pc s) (fresh s)
                  (if asleep s - 1 =? 0 then count s - 1 else count s) (asleep s - 1) (ran s) (seen s) (started s) (inyield s) (segs s) in
      do s2 <- enq s1 t; wake now r s2
    else Ok s
  end.

(* 1358-1382: before the first sleeper whose time is not before [when] *)
Fixpoint insert_at (when : Z) (t : nat) (l : list (nat * Z)) : list (nat * Z) :=
  match l with
  | [] => [(t, when)]
  | (u, a) :: r => if a <? when then (u, a) :: insert_at when t r else (t, when) :: l
  end.

(* 1356-1386 with 1388-1392 *)
Definition delay (s : th) (t : nat) (ms now : Z) : th :=
  let when := (now + ms * 1000000) mod 2 ^ 64 in
  mkTh (runq s) (insert_at when t (sleepq s)) (waitq s) (done s) (pc s) (fresh s)
    (if asleep s =? 0 then count s + 1 else count s) (asleep s + 1) (ran s) (seen s) (started s) (inyield s) (segs s).

(* 1406-1420: the descriptor is watched for this task and for no other *)
Definition async_wait (s : th) (t f : nat) : th :=
  with_wait s ((f, t) :: filter (fun x => negb (Nat.eqb (fst x) f)) (waitq s)).

(* 1397-1404 for every descriptor the poll reports *)
Fixpoint poll (batch : list nat) (s : th) : outcome th :=
  match batch with
  | [] => Ok s
  | f :: r =>
    match find (fun x => Nat.eqb (fst x) f) (waitq s) with
    | None => poll r s
    | Some (_, t) =>
      do s1 <- enq (with_wait s (filter (fun x => negb (Nat.eqb (fst x) f)) (waitq s))) t;
      poll r s1
    end
  end.

(* The library's task from where it was suspended to its next yield; [running] is the task the scheduler runs, which
   is what yield puts in the queue.  1291-1296, 1314-1349 *)
Definition system_turn (running : nat) (now : Z) (s : th) : outcome th :=
  do s1 <- (if 0 <? ran s - seen s - 1 then Ok s else wake now (sleepq s) s);
  enq (with_seen s1 (ran s1)) running.

(* 1302-1309 and 1280-1287: its first turn, up to its first yield *)
Definition system_start (s : th) : outcome th :=
  enq (mkTh (runq s) (sleepq s) (waitq s) (done s) (pc s) (fresh s) (count s - 1) (asleep s) (ran s) (ran s) true (inyield s) (segs s)) 0%nat.

Section Programs.
Variable prog : nat -> nat -> tact.

(* The code of task t up to its next switch. *)
Definition segment (t : nat) (now : Z) (s : th) : outcome th :=
  let s0 := mkTh (runq s) (sleepq s) (waitq s) (done s) (fun u => if Nat.eqb u t then S (pc s t) else pc s u) (fresh s)
              (count s) (asleep s) (ran s) (seen s) (started s) (if Nat.eqb t 1 then false else inyield s) (segs s ++ [t]) in
  match prog t (pc s t) with
  | TYield => enq (if Nat.eqb t 1 then with_inyield s0 true else s0) t
  | TSleep ms => Ok (delay s0 t ms now)
  | TWait f => Ok (async_wait s0 t f)
  | TSpawn =>
    let s1 := mkTh (runq s0) (sleepq s0) (waitq s0) (done s0) (pc s0) (S (fresh s0)) (count s0 + 1) (asleep s0) (ran s0)
                (seen s0) (started s0) (if Nat.eqb t 1 then true else inyield s0) (segs s0) in
    do s2 <- enq s1 (fresh s0); enq s2 t
  | TEnd => Ok (mkTh (runq s0) (sleepq s0) (waitq s0) (t :: done s0) (pc s0) (fresh s0) (count s0 - 1) (asleep s0) (ran s0)
                  (seen s0) (started s0) (inyield s0) (segs s0))
  end.

(* 2410-2444 tasks_schedulering(true): the head of the queue is taken, descriptors are polled, the task runs.
   2381-2389: the main task coming back from yield while exactly one task sleeps lets the library's task go on first
   and then waits for its next turn (before the first turn of the library's task this would make the main task a
   system task: UB).  None: TASK_ERRED. *)
Definition sched (now : Z) (batch : list nat) (s : th) : outcome (option th) :=
  match runq s with
  | [] => Ok None
  | t :: q =>
    do s1 <- poll batch (mkTh q (sleepq s) (waitq s) (done s) (pc s) (fresh s) (count s) (asleep s) (ran s + 1) (seen s)
                           (started s) (inyield s) (segs s));
    do s2 <- (if Nat.eqb t 0
              then if started s1 then system_turn 0 now s1 else system_start s1
              else if Nat.eqb t 1 && inyield s1 && (asleep s1 =? 1)
              then if started s1 then system_turn 1 now (with_inyield s1 false) else UB
              else segment t now s1);
    Ok (Some s2)
  end.

(* turns of the scheduler, each with the clock and what the kernel reports *)
Fixpoint turns (ins : list (Z * list nat)) (s : th) : outcome (option th) :=
  match ins with
  | [] => Ok (Some s)
  | (now, b) :: r => do o <- sched now b s; match o with None => Ok None | Some s1 => turns r s1 end
  end.

(* 2337-2344 async_run: (true, s) if it returned *)
Fixpoint async_run (ins : list (Z * list nat)) (s : th) : outcome (bool * th) :=
  match ins with
  | [] => Ok (count s =? 0, s)
  | (now, b) :: r =>
    if count s =? 0 then Ok (true, s)
    else do o <- sched now b s; match o with None => Ok (true, s) | Some s1 => async_run r s1 end
  end.
End Programs.

(* 1041-1064 and the push of the main task *)
Definition thread_start : th :=
  mkTh [0; 1]%nat [] [] [] (fun _ => 0%nat) 2 2 0 0 0 false false [].
