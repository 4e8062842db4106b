From Verif Require Import Base DllModel DllProofs TimersModel TimersProofs LpModel LpProofs LpProofs2.
Local Open Scope Z_scope.

(* [D] are the timers already overdue when the first of these passes begins, in order of due time.  Each pass calls one
   of them, in this order, whatever the callbacks start; a pass that waits at most for min(resolution, max_wait) and then
   takes late1 + late2 bounds when.  The other case is a pass with a negative time to wait and nothing to wake it *)
Theorem C158_overdue_timers_fire_one_by_one : forall mw l s st D R,
  made s st -> obeys mw l s st -> -2147483 <= mw <= 2147483 -> 0 <= res s -> 0 <= clk s ->
  pend st = D ++ R -> Forall (fun p => snd p < clk s) D -> (length l <= length D)%nat ->
  (exists s' times, passes mw l s = Ok (Some s') /\ length times = length l /\
     fired (tm s') = fired (tm s) ++ combine (map fst (firstn (length l) D)) times /\
     (forall n t, nth_error times n = Some t -> clk s <= t <= clk s') /\
     (forall P, 0 <= mw -> Forall (fun i => Z.min (res s) mw * 1000000000 + late1 i + late2 i <= P) l ->
        forall n t, nth_error times n = Some t -> t <= clk s + Z.of_nat (S n) * P)) \/
  (passes mw l s = Ok None /\ mw < 0 /\ exists i, In i l /\ early i = None).
Proof. exact made_overdue. Qed.
Print Assumptions C158_overdue_timers_fire_one_by_one.

(* a pending timer keeps the loop running; one-shot timers and nothing else: it runs until the last has fired, each fires
   once, and the number returned is that of the timers left *)
Theorem C158_pending_timer_keeps_the_loop_running : forall s st, made s st -> pend st <> [] ->
  is_running s = true /\ (forall i, broken i = false -> 0 <= descs s -> 1 <= once_ret i s).
Proof. exact pending_runs. Qed.
Print Assumptions C158_pending_timer_keeps_the_loop_running.

Theorem C158_loop_ends_with_its_last_timer : forall nx pv a0 r0 reqs mw l s,
  Forall (fun q => 0 <= fst q /\ 0 <= snd q <= 2147 /\ fst q + snd q * 1000000 < 2 ^ 64 /\ fst q + snd q * 1000000 <= clk s) reqs ->
  do_acts (timers_init nx pv a0 r0) (map (fun q => TNew (fst q) (snd q)) reqs) = Ok (tm s) ->
  tasks s = 0 -> descs s = 0 -> sigs s = 0 -> 0 <= mw <= 2147483 -> 0 <= res s -> Forall quiet l -> (length l <= length reqs)%nat ->
  exists s', passes mw l s = Ok (Some s') /\ length (fired (tm s')) = length l /\ NoDup (map fst (fired (tm s'))) /\
    (forall i, early i = None -> once_ret i s' = Z.of_nat (length reqs - length l)) /\ is_running s' = (length l <? length reqs)%nat /\
    forall n, (n < length l)%nat -> exists x t, nth_error (fired (tm s')) n = Some (x, t) /\
       clk s + Z.of_nat (S n) * (Z.min (res s) mw * 1000000000) <= t.
Proof. exact timers_only. Qed.
Print Assumptions C158_loop_ends_with_its_last_timer.

Theorem C158_no_waiting_while_there_are_tasks : forall mw i s s1, tasks s <> 0 ->
  (match early i with Some z => 0 <= z | None => True end) -> broken i = false ->
  pass mw i s = Ok (Some s1) -> clk s1 = clk s + late1 i + late2 i.
Proof. exact tasks_no_wait. Qed.
Print Assumptions C158_no_waiting_while_there_are_tasks.

(* the wait takes no account of timers: with no descriptor ready and no task, a timer that is due at once is looked at
   after the whole wait *)
Theorem C159_wait_ignores_due_timers_refuted : forall mw i s st s1, made s st -> quiet i -> tasks s = 0 -> 0 <= mw <= 2147483 -> 0 <= res s ->
  pass mw i s = Ok (Some s1) -> fired (tm s1) = fired (tm s) \/
  exists x t, fired (tm s1) = fired (tm s) ++ [(x, t)] /\ clk s + Z.min (res s) mw * 1000000000 <= t.
Proof. exact wait_ignores_timers. Qed.
Print Assumptions C159_wait_ignores_due_timers_refuted.

(* of k timers due at once the n-th waits n whole waits more, C158_loop_ends_with_its_last_timer; here with a wait of a second *)
Example C159_applies :
  match do_acts (timers_init (fun _ => None) (fun _ => None) (fun _ => 0) (fun _ => false)) [TNew 0 1; TNew 0 1; TNew 0 1] with
  | Ok t =>
    let q := mkIn None false 0 0 [] [] [] 0 0 0 0 in
    match passes 1 [q; q; q] (mkLoop t 5000000 1 0 0 0) with
    | Ok (Some s) => fired (tm s) = [(2%nat, 1005000000); (1%nat, 2005000000); (0%nat, 3005000000)] /\ is_running s = false
    | _ => False
    end
  | _ => False
  end.
Proof. vm_compute. auto. Qed.

(* a negative time to wait means for ever: with timers alone events_once does not return, and none fires *)
Theorem C159_negative_wait_with_timers_alone_never_returns_refuted : forall mw i s,
  -2147483 <= mw < 0 -> 0 <= res s -> tasks s = 0 -> early i = None -> pass mw i s = Ok None.
Proof. exact never_returns. Qed.
Print Assumptions C159_negative_wait_with_timers_alone_never_returns_refuted.

(* a pass whose wait a handled signal ends fires no timer and runs no task, and returns -1; any number of such passes *)
Theorem C159_signals_keep_timers_and_tasks_waiting_refuted : forall mw l s s',
  Forall (fun i => (exists z, early i = Some z) /\ broken i = true) l ->
  passes mw l s = Ok (Some s') -> tm s' = tm s /\ tasks s' = tasks s /\ forall i, In i l -> once_ret i s' = -1.
Proof. exact interrupted. Qed.
Print Assumptions C159_signals_keep_timers_and_tasks_waiting_refuted.
Theorem C159_signals_passes_exist : forall mw l s, -2147483 <= mw <= 2147483 -> 0 <= res s ->
  Forall (fun i => (exists z, early i = Some z) /\ broken i = true) l -> exists s', passes mw l s = Ok (Some s').
Proof. exact interrupted_runs. Qed.
Print Assumptions C159_signals_passes_exist.

(* a callback that starts a timer: it goes behind those overdue *)
Example C158_applies :
  match do_acts (timers_init (fun _ => None) (fun _ => None) (fun _ => 0) (fun _ => false)) [TNew 0 2; TNew 0 1] with
  | Ok t =>
    let q := mkIn None false 0 0 [] [TNew 5000000 0] [] 0 0 0 0 in
    match passes 0 [q; q] (mkLoop t 5000000 1 0 0 0) with
    | Ok (Some s) => map fst (fired (tm s)) = [1%nat; 0%nat] /\ is_running s = true
    | _ => False
    end
  | _ => False
  end.
Proof. vm_compute. auto. Qed.
