(* Property theorems for tasks that wait for descriptors. *)
From Verif Require Import Base DllModel DllProofs EpollModel EpollProofs AwaitModel AwaitProofs.
Local Open Scope Z_scope.

(* any number of tasks, programs, polls and reports: the ready list, the wake-ups, the number of unfinished tasks and of
   waited-for descriptors are those of the reference, the kernel watches what is waited for, each task is in one place *)
Theorem C104_refines : forall maxfd l n pollable prog sys, (l <> 0)%nat -> forall nx pv arg0 bs z,
  spec_wrun maxfd n prog sys bs (wspec0 n) = Some z ->
  exists s, wrun maxfd l pollable prog sys bs (winit sys nx pv arg0 n) = Ok s /\ Rep (wq s) (ready z) /\ wlog s = hist z /\
    wcount s = Z.of_nat (unfinished n sys z) /\ active (wep s) l = Z.of_nat (waiting maxfd (waits z)) /\
    (forall f t i, waits z f = Some (t, i) -> pollable f = true -> kern (wep s) l f = Some (kmask i)) /\
    forall t, (t < n)%nat -> in_place z t.
Proof. exact await_refines. Qed.
(* a report wakes the waiting task, which then runs within n further steps and not before *)
Theorem C104_woken_task_runs : forall maxfd l n pollable prog sys, (l <> 0)%nat -> forall nx pv arg0, (0 < n)%nat /\ (forall k, prog 0%nat k = WYield) ->
  forall bs b cs z z' f t i m, spec_wrun maxfd n prog sys bs (wspec0 n) = Some z -> waits z f = Some (t, i) -> sys t = false ->
  In (f, m) b -> flags m <> 0 -> (n <= length cs)%nat -> spec_wrun maxfd n prog sys (bs ++ b :: cs) (wspec0 n) = Some z' ->
  exists s s' m' h1 h2 h3, wrun maxfd l pollable prog sys bs (winit sys nx pv arg0 n) = Ok s /\
    wrun maxfd l pollable prog sys (bs ++ b :: cs) (winit sys nx pv arg0 n) = Ok s' /\ In (f, m') b /\ flags m' <> 0 /\
    wlog s' = wlog s ++ h1 ++ WWoke t f (flags m') :: h2 ++ WRan t :: h3 /\ ~ In (WRan t) h1.
Proof. exact woken_runs. Qed.
(* without a report for its descriptor a waiting task neither wakes nor runs *)
Theorem C104_quiet_task_waits : forall maxfd l n pollable prog sys, (l <> 0)%nat -> forall nx pv arg0, (0 < n)%nat /\ (forall k, prog 0%nat k = WYield) ->
  forall bs b z z' f t i, spec_wrun maxfd n prog sys bs (wspec0 n) = Some z -> waits z f = Some (t, i) -> sys t = false ->
  (forall m, In (f, m) b -> flags m = 0) -> spec_wrun maxfd n prog sys (bs ++ [b]) (wspec0 n) = Some z' ->
  exists s s' h, wrun maxfd l pollable prog sys bs (winit sys nx pv arg0 n) = Ok s /\
    wrun maxfd l pollable prog sys (bs ++ [b]) (winit sys nx pv arg0 n) = Ok s' /\ wlog s' = wlog s ++ h /\
    ~ In (WRan t) h /\ (forall g r, ~ In (WWoke t g r) h) /\ waits z' f = Some (t, i).
Proof. exact quiet_waits. Qed.
(* the loop goes on while a task is unfinished, also when all of them wait *)
Theorem C104_loop_goes_on : forall maxfd l n pollable prog sys, (l <> 0)%nat -> forall nx pv arg0, (0 < n)%nat /\ (forall k, prog 0%nat k = WYield) ->
  forall bs b z, spec_wrun maxfd n prog sys bs (wspec0 n) = Some z -> unfinished n sys z <> 0%nat -> (forall f m, In (f, m) b -> (f < maxfd)%nat) ->
  (exists z', spec_wrun maxfd n prog sys (bs ++ [b]) (wspec0 n) = Some z') ->
  exists s s', wrun maxfd l pollable prog sys bs (winit sys nx pv arg0 n) = Ok s /\ wcount s <> 0 /\ wstep maxfd l pollable prog sys b s = Ok (Some s').
Proof. exact loop_goes_on. Qed.
(* what was reported first for a waited-for descriptor stays in its entry for the task to look at *)
Theorem C104_report_kept : forall maxfd l pollable f m b2 b1 s s', (l <> 0)%nat -> tloop (wep s) f = l -> Z.land (tev (wep s) f) RW <> 0 ->
  (forall m', In (f, m') b1 -> revents m' = 0) -> revents m <> 0 -> wpoll maxfd l pollable (b1 ++ (f, m) :: b2) s = Ok s' -> tev (wep s') f = revents m.
Proof. exact report_kept. Qed.
(* false for two tasks waiting for one descriptor: whatever is reported, the first never runs again and the loop never ends *)
Theorem C104_second_waiter_refuted : forall maxfd l f pollable, (l <> 0)%nat -> (f < maxfd)%nat -> forall nx pv arg0 bs,
  (forall b g m, In b bs -> In (g, m) b -> (g < maxfd)%nat) ->
  exists s, wrun maxfd l pollable (both f) sys0 ([] :: [] :: [] :: bs) (winit sys0 nx pv arg0 3) = Ok s /\ runs_of 1 (wlog s) = 1%nat /\ 0 < wcount s.
Proof. exact second_waiter. Qed.
(* false out of range and for letters other than r and w: the task is suspended, and nothing is registered that wakes it *)
Theorem C104_bad_wait_refuted : forall maxfd l pollable prog sys s t f rw, prog t (wpc s t) = WWait f rw -> (l <> 0)%nat ->
  (maxfd <= f)%nat \/ (rw <> 114 /\ rw <> 119) ->
  exists s', wsegment maxfd l pollable prog sys s t = Ok s' /\ wq s' = wq s /\ kern (wep s') = kern (wep s) /\
    forall g, g <> f -> warg s' g = warg s g /\ tloop (wep s') g = tloop (wep s) g.
Proof. exact unregistered. Qed.
(* false when the descriptor is closed meanwhile: the kernel stops watching it, the task stays registered *)
Theorem C104_closed_refuted : forall maxfd l pollable prog sys s t f, prog t (wpc s t) = WClose f -> exists s', wsegment maxfd l pollable prog sys s t = Ok s' /\
  kern (wep s') l f = None /\ tloop (wep s') = tloop (wep s) /\ warg s' = warg s /\ active (wep s') = active (wep s).
Proof. exact closed_waited. Qed.
(* false for an error reported without hang-up: nobody is woken *)
Theorem C104_error_refuted : forall maxfd l pollable s f, (f < maxfd)%nat -> tloop (wep s) f = l -> Z.land (tev (wep s) f) RW <> 0 ->
  wpoll maxfd l pollable [(f, EPOLLERR)] s = Ok s.
Proof. exact error_silent. Qed.

(* tasks 1 and 2 wait for 4 and 5, are woken in the order of the reports, wait again, and end *)
Definition ex_prog (t k : nat) : wact :=
  match t, k with O, _ => WYield | 1%nat, O => WWait 4 114 | 1%nat, 1%nat => WWait 5 119 | 2%nat, O => WWait 5 114 | 2%nat, 1%nat => WYield | _, _ => WEnd end.
Example C104_ex : match spec_wrun 8 3 ex_prog sys0 [[]; []; []; [(5%nat, 1); (4%nat, 17)]; []; []; [(5%nat, 4)]; []; []; []] (wspec0 3) with
  | Some z => hist z = [WRan 0; WRan 1; WRan 2; WWoke 2 5 1; WWoke 1 4 5; WRan 0; WRan 2; WRan 1; WWoke 1 5 2; WRan 0; WRan 2; WRan 1] /\ unfinished 3 sys0 z = 0%nat
  | None => False end.
Proof. vm_compute. auto. Qed.
Example C104_ex_waits : match spec_wrun 8 3 ex_prog sys0 [[]; []; []] (wspec0 3) with
  | Some z => waits z 4%nat = Some (1%nat, 1) /\ waits z 5%nat = Some (2%nat, 1) /\ ready z = [0%nat] | None => False end.
Proof. vm_compute. auto. Qed.

Print Assumptions C104_refines.
Print Assumptions C104_woken_task_runs.
Print Assumptions C104_quiet_task_waits.
Print Assumptions C104_loop_goes_on.
Print Assumptions C104_second_waiter_refuted.
Print Assumptions C104_bad_wait_refuted.
Print Assumptions C104_closed_refuted.
Print Assumptions C104_error_refuted.
Print Assumptions C104_report_kept.
