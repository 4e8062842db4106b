From Verif Require Import Base DllModel DllProofs SleepModel SleepProofs.
Local Open Scope Z_scope.

(* sleep queue and run queue, sharing their link fields, refine the two reference lists *)
Theorem C31_sleep_and_run_queue_refine_lists : forall sys nx pv al tc ops z, spec_ops zspec0 ops = Some z ->
  exists s, do_ops sys (length ops) (sleep_init nx pv al tc) ops = Ok s /\
    walk (length (asleep z)) (next (sleep_q s)) (head (sleep_q s)) = Ok (map fst (asleep z)) /\
    walk (length (ready z)) (next (run_q s)) (head (run_q s)) = Ok (ready z) /\
    sleep_count s = Z.of_nat (length (filter (fun p => negb (sys (fst p))) (asleep z))) /\
    task_count s = tc + (if sleep_count s =? 0 then 0 else 1).
Proof. exact sleep_refines. Qed.
Print Assumptions C31_sleep_and_run_queue_refine_lists.

Theorem C31_sleepers_ordered_by_wake_time : forall ops z, spec_ops zspec0 ops = Some z -> ssorted (asleep z).
Proof. exact asleep_sorted. Qed.
Print Assumptions C31_sleepers_ordered_by_wake_time.

(* a pass removes exactly the due or halted prefix, wakes no unhalted task early and leaves no due one *)
Theorem C31_wake_pass_is_exact : forall ops z now z', spec_ops zspec0 ops = Some z -> spec_op z (ZWake now) = Some z' ->
  exists gone extra, asleep z = gone ++ asleep z' /\ ready z' = ready z ++ extra /\
    ((forall x, zpart z x = None) -> extra = map fst (filter (fun p => negb (zhalt z (fst p))) gone)) /\
    Forall (fun p => snd p <= now \/ zhalt z (fst p) = true) gone /\
    Forall (fun p => zhalt z (fst p) = false -> snd p <= now /\ In (fst p) extra) gone /\
    Forall (fun p => now < snd p) (asleep z').
Proof. exact pass_exact. Qed.
Print Assumptions C31_wake_pass_is_exact.

Example C31_applies :
  match spec_ops zspec0 [ZReady 7; ZSleep 0 5 0; ZSleep 1 3 0; ZSleep 2 5 0; ZHalt 1; ZSleep 3 9 0; ZWake 5000000; ZRun; ZReady 1] with
  | Some z => asleep z = [(3%nat, 9000000)] /\ ready z = [2; 0; 1]%nat
  | None => False
  end.
Proof. vm_compute. auto. Qed.

Theorem C32_elapsed_exact_below_four_seconds : forall start stop,
  0 <= start -> start <= stop < 2 ^ 64 -> stop - start < 2 ^ 32 ->
  delay_result start stop = (stop - start) / 1000000.
Proof. exact delay_short. Qed.
Print Assumptions C32_elapsed_exact_below_four_seconds.

Theorem C32_elapsed_wrong_for_longer_sleeps_refuted : forall start stop,
  0 <= start -> start <= stop < 2 ^ 64 -> 4295000000 <= stop - start ->
  delay_result start stop < 4295 /\ 4295 <= (stop - start) / 1000000.
Proof. exact delay_long. Qed.
Print Assumptions C32_elapsed_wrong_for_longer_sleeps_refuted.

(* the waiter attached to a sleeping task is made ready every time that task wakes, not once *)
Theorem C68_attached_waiter_is_woken_again_refuted :
  exists s, do_ops (fun _ => false) 7 (sleep_init (fun _ => None) (fun _ => None) (fun _ => 0) 0) stale_ops = Ok s /\
    walk 2 (SleepModel.nx s) (rh s) = Ok [0; 1]%nat.
Proof. exact attached_woken_again. Qed.
Print Assumptions C68_attached_waiter_is_woken_again_refuted.

Theorem C68_stale_attachment_corrupts_sleep_queue_refuted :
  exists s, do_ops (fun _ => false) 9 (sleep_init (fun _ => None) (fun _ => None) (fun _ => 0) 0) stale_ops2 = Ok s /\
    walk 3 (SleepModel.nx s) (rh s) = Ok [0; 1]%nat /\ walk 3 (SleepModel.nx s) (sh s) = Ok [1]%nat /\ sleep_count s = 2.
Proof. exact attached_corrupts. Qed.
Print Assumptions C68_stale_attachment_corrupts_sleep_queue_refuted.
