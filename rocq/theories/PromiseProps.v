(* C44, C45, C46, C47, C76: promises and job queues. *)
From Verif Require Import Base WaitModel WaitProofs PromiseModel PromiseProofs.
From Coq Require Import Permutation.

(* C44 *)
(* one setter, any number of waiters, any schedule: whoever has a value has the one that was set, after it was set *)
Theorem C44_promise_delivers_partial w g sched : delivered w = Some g -> exists s pcs, prun pst0 (start w (fun _ => false)) sched = Ok (s, pcs) /\
  forall x r, pcs x = WEnd r -> r = g /\ (pcs 0 = S4 \/ pcs 0 = SEnd).
Proof. exact (promise_delivers w g sched). Qed.
Print Assumptions C44_promise_delivers_partial.
Theorem C44_waiter_completes w g x : delivered w = Some g -> x <> 0 -> exists s pcs, prun pst0 (start w (fun _ => false)) [0; 0; 0; 0; 0; x; x; x] = Ok (s, pcs) /\ pcs x = WEnd g.
Proof. exact (promise_completes w g x). Qed.
Print Assumptions C44_waiter_completes.
(* a word above 0x20000000 that is not one of the library's arrays is dereferenced as if it were one *)
Theorem C44_wild_word_refuted z own : prun pst0 (start (WOther z) own) [0; 0] = UB.
Proof. exact (wild_word z own). Qed.
Print Assumptions C44_wild_word_refuted.
Example C44_ex : exists s p, prun pst0 (start (WArr [4%Z; 5%Z]) (fun _ => false)) [1; 0; 2; 0; 0; 1; 0; 1; 0; 2; 1; 2; 1] = Ok (s, p) /\ p 1 = WEnd (GTuple [4%Z; 5%Z]) /\ p 2 = W2 false (GTuple [4%Z; 5%Z]).
Proof. do 2 eexists. split; [vm_compute; reflexivity|]. split; reflexivity. Qed.

(* C76 *)
(* the owner frees after the worker has ended: fine *)
Theorem C76_worker_first_partial w g x : delivered w = Some g -> x <> 0 -> exists s pcs, prun pst0 (start w (fun _ => true)) [0; 0; 0; 0; 0; x; x; x] = Ok (s, pcs) /\ pcs x = WEnd g /\ pcs 0 = SEnd /\ pfreed s = true.
Proof. exact (setter_first w g x). Qed.
Print Assumptions C76_worker_first_partial.
(* the owner may free before the worker's last use *)
Theorem C76_freed_early_refuted w g : delivered w = Some g -> prun pst0 (start w (fun _ => true)) [0; 0; 0; 0; 1; 1; 1; 0] = UB.
Proof. exact (freed_early w g). Qed.
Print Assumptions C76_freed_early_refuted.

(* C45 *)
(* any submitters, any schedule, no move on growth: ran ++ waiting = submitted, in order, nothing lost or doubled *)
Theorem C45_jobs_in_order_partial n cap todo sched : 0 < n -> (forall t m, In (t, m) sched -> m = false) ->
  exists s pcs, jrun (jst0 cap) (jstart n todo) sched = Ok (s, pcs) /\ jsub s = jran s ++ (match pcs 0 with K4 j => [j] | _ => [] end) ++ jq s.
Proof. exact (jobs_in_order n cap todo sched). Qed.
Print Assumptions C45_jobs_in_order_partial.
(* the worker alone runs everything that waits, in order *)
Theorem C45_worker_drains q s pcs : jq s = q -> javail s = length q -> pcs 0 = K0 -> jlock s = false -> jdangling s = false ->
  exists s' pcs', jrun s pcs (wturns (length q)) = Ok (s', pcs') /\ jran s' = jran s ++ q /\ jq s' = [].
Proof. exact (worker_drains q s pcs). Qed.
Print Assumptions C45_worker_drains.
(* any burst larger than the array, with a realloc that moves *)
Theorem C45_burst_refuted cap jobs j j2 : length jobs = cap -> exists sched, jrun (jst0 cap) (jstart 2 (fun _ => jobs ++ [j; j2])) sched = UB.
Proof. exact (burst_breaks cap jobs j j2). Qed.
Print Assumptions C45_burst_refuted.
Definition interleaved : list (nat * bool) := map (fun x => (x, false)) [1; 2; 1; 2; 1; 0; 1; 2; 1; 2; 0; 2; 2; 1; 0; 0; 0; 0; 1; 1; 1; 1; 0; 0; 0].
Example C45_ex : exists s p, jrun (jst0 4) (jstart 3 (fun x => if x =? 1 then [11; 12] else [21])) interleaved = Ok (s, p) /\ jran s = [11] /\ jq s = [21; 12] /\ jsub s = [11; 21; 12] /\ p 0 = K3.
Proof. do 2 eexists. split; [vm_compute; reflexivity|]. auto. Qed.

(* C46 *)
Theorem C46_each_once done fuel work out calls frees : NoDup work -> queue_wait done fuel (fun _ => false) work = Ok (out, calls, frees) ->
  Permutation work calls /\ calls = map fst out /\ (forall j t, In (j, t) out -> done t j = true) /\ NoDup frees.
Proof. exact (wait_calls_each done fuel work out calls frees). Qed.
Print Assumptions C46_each_once.
Theorem C46_returns done work N : (forall s x, N <= s -> In x work -> done s x = true) -> exists fuel r, queue_wait done fuel (fun _ => false) work = Ok r.
Proof. exact (wait_returns done work N). Qed.
Print Assumptions C46_returns.
(* a job named twice is freed twice *)
Theorem C46_named_twice_refuted j : scope_run [QWait [j; j]] = UB.
Proof. exact (wait_twice j). Qed.
Print Assumptions C46_named_twice_refuted.
Example C46_ex : queue_wait (fun t x => x <=? t) 100 (fun _ => false) [2; 0; 1] = Ok ([(0, 0); (2, 2); (1, 4)], [0; 2; 1], [0; 2; 1]).
Proof. vm_compute. reflexivity. Qed.

(* C47 *)
Theorem C47_collected_once n j : (jarr j = 0 \/ jarr j = 1)%Z -> gets (S n) j = Some (jvalue j) :: repeat None n.
Proof. exact (gets_once n j). Qed.
Print Assumptions C47_collected_once.
(* any number of different jobs collected in one scope are each freed once *)
Theorem C47_gets_safe l : NoDup l -> scope_run (map QGet l) = Ok tt.
Proof. exact (gets_safe l). Qed.
Print Assumptions C47_gets_safe.
(* a job already collected is not refused by queue_wait but freed a second time *)
Theorem C47_get_then_wait_refuted j : scope_run [QGet j; QWait [j]] = UB.
Proof. exact (get_then_wait j). Qed.
Print Assumptions C47_get_then_wait_refuted.
Example C47_ex : gets 3 {| jarr := 1; jvalue := 9 |} = [Some 9%Z; None; None].
Proof. vm_compute. reflexivity. Qed.
