(* The cooperative scheduler of one thread: events.c 1752-1776 (task_push), 2350-2390 (resume, yield),
   2410-2444 (tasks_schedulering), 1157-1176 (task_done). *)
From Verif Require Import Base DllModel.

(* A task's behaviour between two switches: how many tasks it spawns before it yields.  A program is
   the list of these segments; after the last one the task function returns.  Task ids are handed out
   in spawn order (sys_event.id_generate); [prog] gives the program of every id.
   Sleeping, waiting on descriptors, results and cancellation are not part of this model. *)
Record sched := {
  queue : dll;                 (* __thrd()->run_queue *)
  fresh : nat;                 (* next task id *)
  rem : nat -> list nat;       (* segments left, per task *)
  count : Z;                   (* __thrd()->task_count *)
  ran : list nat }.            (* history: tasks switched to, oldest first *)

(* events.c 1752-1776 task_push of a non-threaded task: count it and append it to the run queue *)
Definition task_push (prog : nat -> list nat) (s : sched) : sched :=
  {| queue := enqueue (queue s) (fresh s); fresh := S (fresh s); rem := upd (rem s) (fresh s) (prog (fresh s));
     count := (count s + 1)%Z; ran := ran s |}.
Fixpoint task_pushes (prog : nat -> list nat) (k : nat) (s : sched) : sched :=
  match k with O => s | S k => task_pushes prog k (task_push prog s) end.

(* events.c 2410-2444 tasks_schedulering, with the segment of the task run inside task_switch:
   yield (2375-2380) appends the running task to the run queue; returning from the task function
   (task_done, 1157-1161) sets halt, after which the scheduler drops it from the count.
   None is TASK_ERRED: nothing to run. *)
Definition tasks_schedulering (prog : nat -> list nat) (s : sched) : option sched :=
  match task_dequeue (queue s) with
  | (None, _) => None
  | (Some t, q) =>
    let s0 := {| queue := q; fresh := fresh s; rem := upd (rem s) t (tl (rem s t)); count := count s; ran := ran s ++ [t] |} in
    let s1 := task_pushes prog (hd 0 (rem s t)) s0 in
    Some (match tl (rem s t) with
          | [] => {| queue := queue s1; fresh := fresh s1; rem := rem s1; count := (count s1 - 1)%Z; ran := ran s1 |}
          | _ => {| queue := enqueue (queue s1) t; fresh := fresh s1; rem := rem s1; count := count s1; ran := ran s1 |}
          end)
  end.

(* events.c 2334-2344: the scheduler loop; stops when nothing is counted or nothing is queued *)
Fixpoint scheduler_loop (fuel : nat) (prog : nat -> list nat) (s : sched) : outcome sched :=
  if (count s =? 0)%Z then Ok s
  else match fuel with
       | O => Fuel
       | S k => match tasks_schedulering prog s with
                | None => Ok s
                | Some s' => scheduler_loop k prog s'
                end
       end.

Fixpoint steps (n : nat) (prog : nat -> list nat) (s : sched) : option sched :=
  match n with
  | O => Some s
  | S k => match tasks_schedulering prog s with None => None | Some s' => steps k prog s' end
  end.

(* a thread about to run its first task *)
Definition sched_init (nx pv : nat -> option nat) (n0 : nat) (prog : nat -> list nat) : sched :=
  task_pushes prog n0 {| queue := dll_empty nx pv; fresh := 0; rem := fun _ => []; count := 0%Z; ran := [] |}.
