From Verif Require Import Base DllModel DllProofs SchedModel SchedProofs.

Theorem C29_run_queue_refines_fifo : forall ops nx pv, qvalid_run [] ops ->
  let s := fst (qrun (dll_empty nx pv) ops) in
  let l := fst (qspec_run [] ops) in
  snd (qrun (dll_empty nx pv) ops) = snd (qspec_run [] ops) /\
  NoDup l /\ head s = first l None /\ tail s = lastp l None /\
  walk (length l) (next s) (head s) = Ok l /\
  (forall a x y b, l = a ++ x :: y :: b -> next s x = Some y /\ prev s y = Some x).
Proof. exact (fun ops nx pv H => queue_links ops nx pv H). Qed.
Print Assumptions C29_run_queue_refines_fifo.

Example C29_applies : qvalid_run [] [QEnq 3; QEnq 5; QEnq 4; QUnlink 5; QDeq; QEnq 3; QDeq; QDeq; QDeq]
  /\ snd (qrun (dll_empty (fun _ => Some 9) (fun _ => Some 8)) [QEnq 3; QEnq 5; QEnq 4; QUnlink 5; QDeq; QEnq 3; QDeq; QDeq; QDeq])
     = [None; None; None; None; Some 3; None; Some 4; Some 3; None].
Proof. split; [cbn; intuition lia|reflexivity]. Qed.

(* enqueuing a task that is already queued loses everything queued after it *)
Theorem C30_enqueue_queued_task_loses_the_rest_refuted : forall s a x b, Rep s (a ++ x :: b) ->
  walk (length (a ++ x :: b)) (next (enqueue s x)) (head (enqueue s x)) = Ok (a ++ [x]).
Proof. exact enqueue_twice_loses. Qed.
Print Assumptions C30_enqueue_queued_task_loses_the_rest_refuted.

(* ... and the only queued task, enqueued again, can no longer be removed *)
Theorem C30_enqueue_only_task_again_sticks_refuted : forall s x n, Rep s [x] ->
  dequeues n (enqueue s x) = repeat (Some x) n.
Proof. exact enqueue_self_sticks. Qed.
Print Assumptions C30_enqueue_only_task_again_sticks_refuted.

Theorem C33_every_queued_task_runs_once_per_round : forall prog nx pv n0 s, progs_nonempty prog ->
  reaches prog (sched_init nx pv n0 prog) s ->
  exists l, walk (length l) (next (queue s)) (head (queue s)) = Ok l /\
    exists s', steps (length l) prog s = Some s' /\ ran s' = ran s ++ l.
Proof. exact fair_reachable. Qed.
Print Assumptions C33_every_queued_task_runs_once_per_round.

Theorem C33_tasks_run_to_completion_exactly : forall prog nx pv n0 s, progs_nonempty prog ->
  reaches prog (sched_init nx pv n0 prog) s ->
  (forall t, count_occ Nat.eq_dec (ran s) t <= length (prog t)) /\
  (forall t, t < fresh s -> count_occ Nat.eq_dec (ran s) t = length (prog t) ->
     forall s', reaches prog s s' -> count_occ Nat.eq_dec (ran s') t = length (prog t)) /\
  (tasks_schedulering prog s = None -> count s = 0%Z /\
     forall t, t < fresh s -> count_occ Nat.eq_dec (ran s) t = length (prog t)) /\
  (count s = 0%Z -> tasks_schedulering prog s = None).
Proof. exact runs_exactly. Qed.
Print Assumptions C33_tasks_run_to_completion_exactly.

(* task 0 spawns two children in its second segment *)
Example C33_applies :
  match scheduler_loop 20 (fun t => match t with 0 => [0; 2; 0] | _ => [0; 0] end)
          (sched_init (fun _ => None) (fun _ => None) 2 (fun t => match t with 0 => [0; 2; 0] | _ => [0; 0] end)) with
  | Ok s => ran s = [0; 1; 0; 1; 2; 3; 0; 2; 3] /\ count s = 0%Z
  | _ => False
  end.
Proof. vm_compute. auto. Qed.

(* the scheduler's loop stops only when everything created has run its whole program *)
Theorem C33_loop_ends_with_everything_done : forall prog nx pv n0 fuel s, progs_nonempty prog ->
  scheduler_loop fuel prog (sched_init nx pv n0 prog) = Ok s ->
  count s = 0%Z /\ head (queue s) = None /\ n0 <= fresh s /\
  forall t, count_occ Nat.eq_dec (ran s) t = if t <? fresh s then length (prog t) else 0.
Proof. exact loop_completes. Qed.
Print Assumptions C33_loop_ends_with_everything_done.

(* and stop it does, after no more switches than there are segments, when only so many tasks are created *)
Theorem C33_loop_ends : forall prog nx pv n0 N, progs_nonempty prog ->
  (forall s, reaches prog (sched_init nx pv n0 prog) s -> fresh s <= N) ->
  exists s, scheduler_loop (list_sum (map (fun t => length (prog t)) (seq 0 N))) prog (sched_init nx pv n0 prog) = Ok s.
Proof. exact loop_ends. Qed.
Print Assumptions C33_loop_ends.
