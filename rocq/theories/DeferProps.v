(* Statements for DeferModel. *)
From Verif Require Import Base DeferModel DeferProofs.

(* deferred functions run once, last deferred first; unwinding again does nothing (scopes: stale = false, tasks: stale = true) *)
Theorem C42_reverse_order_exactly_once_partial : forall stale fs n ks, Forall (quiet stale fs) ks ->
  exists s s', appends (scope0 n) ks = Ok s /\ unwinding stale fs s = Ok (true, s') /\ ran s' = rev ks /\ unwinding stale fs s' = Ok (true, s').
Proof. exact defer_then. Qed.
Print Assumptions C42_reverse_order_exactly_once_partial.
Theorem C42_deferred_while_unwinding_never_runs_refuted : forall fs n ks k d, Forall (quiet false fs) ks -> In k ks -> In d (defers (fs k)) -> ~ In d ks ->
  exists s s', appends (scope0 n) ks = Ok s /\ unwinding false fs s = Ok (true, s') /\ ~ In d (ran s') /\ unwinding false fs s' = Ok (true, s').
Proof. exact late_lost. Qed.
Print Assumptions C42_deferred_while_unwinding_never_runs_refuted.
(* in a task it moves the array under the unwinding when the array is full *)
Theorem C42_deferred_while_unwinding_a_task_refuted : forall fs n ks k, throws (fs k) = false -> defers (fs k) <> [] ->
  length (ks ++ [k]) = n -> exists s, appends (scope0 n) (ks ++ [k]) = Ok s /\ unwinding true fs s = UB.
Proof. exact late_moves. Qed.
Print Assumptions C42_deferred_while_unwinding_a_task_refuted.
(* after a deferred function threw, unwinding again reads freed records *)
Theorem C42_throwing_function_then_again_refuted : forall fs n a k b x, fs k = {| defers := []; throws := true |} -> Forall (silent fs) (b ++ [x]) ->
  exists s s', appends (scope0 n) (a ++ k :: b ++ [x]) = Ok s /\ unwinding false fs s = Ok (false, s') /\ ran s' = rev (b ++ [x]) ++ [k] /\ unwinding false fs s' = UB.
Proof. exact throw_then_again. Qed.
Print Assumptions C42_throwing_function_then_again_refuted.
Example C42_applies : exists s s', appends (scope0 2) [4; 5; 6] = Ok s /\ unwinding false (fun k => {| defers := if k =? 5 then [9] else []; throws := false |}) s = Ok (true, s') /\ ran s' = [6; 5; 4].
Proof. do 2 eexists. split; [vm_compute; reflexivity|]. split; vm_compute; reflexivity. Qed.

(* guard blocks *)
Theorem C79_normal_end_runs_deferred : forall fenced fs rec n ks d, Forall (quiet false fs) ks -> appends (scope0 n) ks = Ok d ->
  exists s, guard_block fenced fs rec (guard0 d) false = Ok (Through, s) /\ ran (gd s) = rev ks /\ gfreed s = true.
Proof. exact guard_normal. Qed.
Print Assumptions C79_normal_end_runs_deferred.
Theorem C79_recovered_exception_ends_the_block_partial : forall fs rec n ks d, Forall (quiet false fs) ks -> appends (scope0 n) ks = Ok d -> existsb rec ks = true ->
  exists s, guard_block false fs rec (guard0 d) true = Ok (Through, s) /\ ran (gd s) = rev ks /\ gfreed s = true.
Proof. exact guard_recovers. Qed.
Print Assumptions C79_recovered_exception_ends_the_block_partial.
(* an exception nobody recovers: the guard is taken down a second time after it was freed *)
Theorem C79_escaping_exception_refuted : forall fenced fs rec n ks d, Forall (quiet false fs) ks -> appends (scope0 n) ks = Ok d -> existsb rec ks = false ->
  guard_block fenced fs rec (guard0 d) true = UB.
Proof. exact guard_escapes. Qed.
Print Assumptions C79_escaping_exception_refuted.
(* with fenced memory a recovered exception is thrown on and the guard stays installed *)
Theorem C79_recovery_with_fenced_memory_refuted : forall fs rec n ks d, Forall (quiet false fs) ks -> appends (scope0 n) ks = Ok d -> existsb rec ks = true ->
  exists s, guard_block true fs rec (guard0 d) true = Ok (Out, s) /\ ran (gd s) = rev ks /\ gfreed s = false.
Proof. exact guard_fenced. Qed.
Print Assumptions C79_recovery_with_fenced_memory_refuted.
