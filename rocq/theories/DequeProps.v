(* Properties C17, C20 and C87: the task queue used by one thread. *)
From Verif Require Import Base DequeModel DequeProofs.

(* outputs of every operation list agree with a plain double-ended sequence; 2^63 bounds the
   number of pushes in the queue's whole life (size_t indices must not wrap) *)
Theorem C17_queue_is_a_sequence : forall n ops, 1 <= n -> take_after_push ops ->
  (Z.of_nat (n + 2 * pushes ops) < 2 ^ 63)%Z ->
  exists q, drun (deque_init n) ops = Ok (q, snd (spec_run [] ops)).
Proof. exact deque_is_sequence. Qed.
Print Assumptions C17_queue_is_a_sequence.

(* enqueue_tasks / task_take: the pool thread receives exactly the queued tasks in order *)
Theorem C17_pool_thread_receives_all : forall q avail l, Counted q avail l -> (dbot q < 2 ^ 64)%Z ->
  exists q', task_take q avail = Ok (l, q', 0%Z) /\ Counted q' 0%Z [].
Proof. exact task_take_counted. Qed.
Print Assumptions C17_pool_thread_receives_all.

Theorem C17_enqueue_appends : forall q avail l w, Counted q avail l -> w <> EMPTY ->
  (dbot q + 1 < 2 ^ 64)%Z -> (Z.of_nat (length (dbuf q)) < 2 ^ 63)%Z ->
  exists q' avail', enqueue_tasks q avail w = Ok (q', avail') /\ Counted q' avail' (l ++ [w]).
Proof. exact enqueue_counted. Qed.
Print Assumptions C17_enqueue_appends.

(* growth from 1 slot through three resizes, mixed ends *)
Example ex_deque : snd (spec_run [] [DPush 1; DPush 2; DPush 3; DSteal; DPush 4; DPush 5; DTake; DSteal; DSteal; DSteal; DSteal; DTake]%Z)
  = [1; 5; 2; 3; 4; EMPTY; EMPTY]%Z /\
  match drun (deque_init 1) [DPush 1; DPush 2; DPush 3; DSteal; DPush 4; DPush 5; DTake; DSteal; DSteal; DSteal; DSteal; DTake]%Z with
  | Ok (_, o) => o = [1; 5; 2; 3; 4; EMPTY; EMPTY]%Z | _ => False end.
Proof. split; vm_compute; reflexivity. Qed.
Example ex_counted : Counted (deque_init 4) 0 [].
Proof. split; [apply init_repr; lia|]. split; [reflexivity|constructor]. Qed.

(* empty but used before: take reports empty and the queue stays a queue *)
Theorem C20_take_on_drained_queue : forall n ops, 1 <= n -> take_after_push ops -> 1 <= pushes ops ->
  (Z.of_nat (n + 2 * pushes ops) < 2 ^ 63)%Z -> fst (spec_run [] ops) = [] ->
  exists q q', drun (deque_init n) ops = Ok (q, snd (spec_run [] ops)) /\
    deque_take q = Ok (EMPTY, q') /\ Repr q' [].
Proof. exact take_on_empty. Qed.
Print Assumptions C20_take_on_drained_queue.

(* fresh: the index wraps, NULL is handed out as a task and the queue then claims 2^64 - 1 tasks *)
Theorem C20_take_on_fresh_queue_refuted : forall n, 1 <= n -> (Z.of_nat n < 2 ^ 63)%Z ->
  exists q, deque_take (deque_init n) = Ok (0%Z, q) /\ dbot q = (2 ^ 64 - 1)%Z /\
    (exists q', deque_steal q = Ok (0%Z, q')).
Proof. exact take_on_fresh. Qed.
Print Assumptions C20_take_on_fresh_queue_refuted.

(* ---- C87: looking at a queued task without taking it ---- *)
(* As long as nothing was removed the i-th task is shown. *)
Theorem C87_peek_partial : forall n ws i w, 1 <= n -> (Z.of_nat (n + 2 * length ws) < 2 ^ 63)%Z -> nth_error ws i = Some w ->
  exists q, drun (deque_init n) (map DPush ws) = Ok (q, []) /\ deque_peek q (Z.of_nat i) = Ok w.
Proof. exact peek_pushed. Qed.
Print Assumptions C87_peek_partial.

Theorem C87_outside : forall q i, (- 2 ^ 31 <= i < 0 \/ Z.of_nat (length (dbuf q)) < i < 2 ^ 31)%Z ->
  (Z.of_nat (length (dbuf q)) < 2 ^ 63)%Z -> deque_peek q i = Ok 0%Z.
Proof. exact peek_outside. Qed.
Print Assumptions C87_outside.

(* A removed task is still shown although the queue is empty. *)
Theorem C87_removed_refuted : forall n w, 1 <= n -> (Z.of_nat n < 2 ^ 62)%Z ->
  exists q, drun (deque_init n) [DPush w; DSteal] = Ok (q, [w]) /\ Repr q [] /\ deque_peek q 0 = Ok w.
Proof. exact peek_removed. Qed.
Print Assumptions C87_removed_refuted.

(* One past the last slot shows the first task again. *)
Theorem C87_past_end_refuted : forall q l w r, Repr q l -> dtop q = 0%Z -> (Z.of_nat (length (dbuf q)) < 2 ^ 63)%Z -> l = w :: r ->
  deque_peek q (Z.of_nat (length (dbuf q))) = Ok w.
Proof. exact peek_past_end. Qed.
Print Assumptions C87_past_end_refuted.

Example C87_ex : match drun (deque_init 2) (map DPush [7; 8]%Z) with
  | Ok (q, _) => deque_peek q 1 = Ok 8%Z /\ deque_peek q 2 = Ok 7%Z /\ deque_peek q 3 = Ok 0%Z | _ => False end.
Proof. vm_compute. split; [|split]; reflexivity. Qed.
