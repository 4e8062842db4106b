(* Statements for GeneratorModel. *)
From Verif Require Import Base DllModel DllProofs SchedModel SchedProofs GeneratorModel GeneratorProofs.

(* whatever the schedule and however many consumers, what has been collected is the first values, each once and in order *)
Theorem C39_values_in_order_once_partial : forall stops vals l s, grun stops (gen0 vals) l = Ok s -> exists rest, vals = map snd (out s) ++ rest.
Proof. exact generator_prefix. Qed.
Print Assumptions C39_values_in_order_once_partial.
Theorem C39_open_generator_is_safe_under_every_schedule : forall vals l, exists s, grun false (gen0 vals) l = Ok s /\ exists rest, vals = map snd (out s) ++ rest.
Proof. exact generator_safe. Qed.
Print Assumptions C39_open_generator_is_safe_under_every_schedule.
Theorem C39_every_value_is_delivered : forall stops k vals, exists s, grun stops (gen0 vals) (turns k (length vals)) = Ok s /\ out s = map (fun v => (k, v)) vals.
Proof. exact generator_delivers. Qed.
Print Assumptions C39_every_value_is_delivered.
Theorem C39_only_a_returned_producer_makes_it_fail : forall stops vals l, grun stops (gen0 vals) l = UB ->
  exists a k b s, l = a ++ C k :: b /\ grun stops (gen0 vals) a = Ok s /\ gone s = true.
Proof. exact fails_only_gone. Qed.
Print Assumptions C39_only_a_returned_producer_makes_it_fail.
(* the call that should report the end with an empty value uses the freed generator *)
Theorem C39_empty_value_at_the_end_refuted : forall vals k j, grun true (gen0 vals) (turns k (length vals) ++ [P; C j]) = UB.
Proof. exact after_end. Qed.
Print Assumptions C39_empty_value_at_the_end_refuted.
(* and the last value is lost if the producer returns before it is collected *)
Theorem C39_last_value_refuted : forall vals v k j, exists s,
  grun true (gen0 (vals ++ [v])) (turns k (length vals) ++ [P; P]) = Ok s /\ map snd (out s) = vals /\ grun true s [C j] = UB.
Proof. exact last_lost. Qed.
Print Assumptions C39_last_value_refuted.
Example C39_two_consumers : exists s, grun false (gen0 [7; 8; 9]%Z) [C 0; P; P; C 1; C 1; P; C 0; P; P; C 1] = Ok s /\ out s = [(1, 7%Z); (0, 8%Z); (1, 9%Z)].
Proof. eexists. split; [vm_compute; reflexivity|reflexivity]. Qed.

(* collecting from a generator that has not run yet drops the tasks started after it *)
Theorem C77_first_collection_drops_tasks_refuted : forall q a g b c, Rep q (a ++ g :: b) -> ~ In c (a ++ g :: b) ->
  walk (S (length (a ++ g :: b))) (next (first_yielded q g c)) (head (first_yielded q g c)) = Ok (a ++ [g; c]).
Proof. exact first_loses. Qed.
Print Assumptions C77_first_collection_drops_tasks_refuted.
(* and with nothing else queued the collector never runs again *)
Theorem C77_first_collection_starves_the_collector_refuted : forall q g c n, Rep q [g] -> c <> g -> rounds n (first_yielded q g c) = repeat (Some g) n.
Proof. exact first_starves. Qed.
Print Assumptions C77_first_collection_starves_the_collector_refuted.
Example C77_applies : Rep (enqueue (dll_empty (fun _ => None) (fun _ => None)) 4) [4].
Proof. apply (enqueue_rep _ [] 4); [apply empty_rep|auto]. Qed.
