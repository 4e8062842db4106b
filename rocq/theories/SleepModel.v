(* Sleeping tasks: events.c 1298-1354 (task_wait_system), 1356-1386 (add_timeout), 1388-1395 (delay).
   The sleep queue and the run queue are threaded through the same next/prev fields of the tasks. *)
From Verif Require Import Base DllModel.
Local Open Scope Z_scope.

Record sleepers := {
  sh : option nat; st : option nat;              (* sleep_queue head, tail *)
  rh : option nat; rt : option nat;              (* run_queue head, tail *)
  nx : nat -> option nat; pv : nat -> option nat; (* t->next, t->prev *)
  alarm_time : nat -> Z;
  halt : nat -> bool;
  partner : nat -> option nat;                   (* t->sleeping *)
  sleep_count : Z;
  task_count : Z }.

Definition sleep_q (s : sleepers) : dll := {| head := sh s; tail := st s; next := nx s; prev := pv s |}.
Definition run_q (s : sleepers) : dll := {| head := rh s; tail := rt s; next := nx s; prev := pv s |}.
Definition put_sleep (s : sleepers) (q : dll) : sleepers :=
  {| sh := head q; st := tail q; rh := rh s; rt := rt s; nx := next q; pv := prev q; alarm_time := alarm_time s;
     halt := halt s; partner := partner s; sleep_count := sleep_count s; task_count := task_count s |}.
Definition put_run (s : sleepers) (q : dll) : sleepers :=
  {| sh := sh s; st := st s; rh := head q; rt := tail q; nx := next q; pv := prev q; alarm_time := alarm_time s;
     halt := halt s; partner := partner s; sleep_count := sleep_count s; task_count := task_count s |}.
Definition put_counts (s : sleepers) (sc tc : Z) : sleepers :=
  {| sh := sh s; st := st s; rh := rh s; rt := rt s; nx := nx s; pv := pv s; alarm_time := alarm_time s;
     halt := halt s; partner := partner s; sleep_count := sc; task_count := tc |}.

(* events.c 1356-1386 add_timeout(running, running, ms, now); [sys] is running->system.
   when is computed in size_t.  [fuel] bounds the scan only. *)
Definition add_timeout (fuel : nat) (sys : nat -> bool) (s : sleepers) (x : nat) (ms now : Z) : outcome sleepers :=
  let when := wrapu 64 (now + wrapu 64 (ms * 1000000)) in
  do t <- find_ge fuel (nx s) (alarm_time s) when (sh s);
  let s1 := put_sleep s (link_before (sleep_q s) x t) in
  let s2 := {| sh := sh s1; st := st s1; rh := rh s1; rt := rt s1; nx := nx s1; pv := pv s1;
               alarm_time := upd (alarm_time s1) x when; halt := halt s1; partner := partner s1;
               sleep_count := sleep_count s1; task_count := task_count s1 |} in
  Ok (if sys x then s2
      else put_counts s2 (sleep_count s2 + 1) (if sleep_count s2 =? 0 then task_count s2 + 1 else task_count s2)).

(* events.c 1332-1349: one pass over the sleep queue with clock value [now] *)
Fixpoint wake (fuel : nat) (sys : nat -> bool) (now : Z) (s : sleepers) : outcome sleepers :=
  match sh s with
  | None => Ok s
  | Some t =>
    if (alarm_time s t <=? now) || halt s t then
      match fuel with
      | O => Fuel
      | S k =>
        let s1 := put_sleep s (dequeue (sleep_q s) t) in
        let s2 := if sys t then s1
                  else put_counts s1 (sleep_count s1 - 1)
                         (if sleep_count s1 - 1 =? 0 then task_count s1 - 1 else task_count s1) in
        let s3 := if halt s2 t then s2
                  else let s3 := put_run s2 (enqueue (run_q s2) t) in
                       match partner s3 t with
                       | None => s3
                       | Some p =>
                         let s4 := {| sh := sh s3; st := st s3; rh := rh s3; rt := rt s3; nx := nx s3; pv := pv s3;
                                      alarm_time := alarm_time s3; halt := halt s3; partner := upd (partner s3) p None;
                                      sleep_count := sleep_count s3; task_count := task_count s3 |} in
                         put_run s4 (enqueue (run_q s4) p)
                       end in
        wake k sys now s3
      end
    else Ok s
  end.

(* the scheduler takes the head of the run queue *)
Definition run_next (s : sleepers) : option nat * sleepers :=
  let '(r, q) := task_dequeue (run_q s) in (r, put_run s q).

(* a task is marked finished/cancelled while asleep; a waiter attaches itself (events.c 2308-2311) *)
Definition set_halt (s : sleepers) (x : nat) : sleepers :=
  {| sh := sh s; st := st s; rh := rh s; rt := rt s; nx := nx s; pv := pv s; alarm_time := alarm_time s;
     halt := upd (halt s) x true; partner := partner s; sleep_count := sleep_count s; task_count := task_count s |}.
Definition set_partner (s : sleepers) (x p : nat) : sleepers :=
  {| sh := sh s; st := st s; rh := rh s; rt := rt s; nx := nx s; pv := pv s; alarm_time := alarm_time s;
     halt := halt s; partner := upd (partner s) x (Some p); sleep_count := sleep_count s; task_count := task_count s |}.

(* events.c 1394: (uint32_t)(events_nsec() - now) / 1000000 *)
Definition delay_result (start stop : Z) : Z := wrapu 32 (wrapu 64 (stop - start)) / 1000000.
