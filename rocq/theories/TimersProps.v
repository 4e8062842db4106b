From Verif Require Import Base DllModel DllProofs TimersModel TimersProofs.
Local Open Scope Z_scope.

(* every program that follows the rules (see spec_act): no undefined behaviour, and the timer list is
   the reference list *)
Theorem C21_timer_list_refines_sorted_list : forall nx pv a0 r0 ops st, spec_tops tspec0 ops = Some st ->
  exists s, do_tops (timers_init nx pv a0 r0) ops = Ok s /\
    walk (created s) (next (tlist s)) (head (tlist s)) = Ok (map fst (pend st)) /\
    map (alarm s) (map fst (pend st)) = map snd (pend st) /\
    fired s = sfired st /\ active s = Z.of_nat (length (live st)) /\
    (forall x, alive s x = true <-> In x (live st)).
Proof. exact timers_refine. Qed.
Print Assumptions C21_timer_list_refines_sorted_list.

(* sorted by due time; a creation or a repeat leads to exactly one firing *)
Theorem C21_sorted_and_fired_once_per_request : forall ops st, spec_tops tspec0 ops = Some st ->
  sorted (pend st) /\ NoDup (map fst (pend st)) /\
  (forall x, (x < ids st)%nat -> (count_occ Nat.eq_dec (map fst (sfired st)) x + count_occ Nat.eq_dec (map fst (pend st)) x
     = 1 + count_occ Nat.eq_dec (srepeats st) x)%nat).
Proof. exact spec_sorted_balanced. Qed.
Print Assumptions C21_sorted_and_fired_once_per_request.

Theorem C21_one_iteration_fires_the_earliest_due_timer : forall nx pv a0 r0 ops st now acts st' s s',
  spec_tops tspec0 ops = Some st -> spec_top st (TIter now acts) = Some st' ->
  do_tops (timers_init nx pv a0 r0) ops = Ok s -> do_top s (TIter now acts) = Ok s' ->
  (fired s' = fired s /\ forall x, In x (map fst (pend st)) -> now < alarm s x) \/
  (exists t, fired s' = fired s ++ [(t, now)] /\ alarm s t <= now /\ In t (map fst (pend st)) /\
     forall x, In x (map fst (pend st)) -> alarm s t <= alarm s x).
Proof. exact iteration_fires. Qed.
Print Assumptions C21_one_iteration_fires_the_earliest_due_timer.

Theorem C21_one_shot_fires_at_most_once : forall ops st x,
  spec_tops tspec0 ops = Some st -> ~ In x (srepeats st) -> (x < ids st)%nat ->
  (count_occ Nat.eq_dec (map fst (sfired st)) x <= 1)%nat.
Proof. exact one_shot. Qed.
Print Assumptions C21_one_shot_fires_at_most_once.

Example C21_applies :
  match do_tops (timers_init (fun _ => None) (fun _ => None) (fun _ => 0) (fun _ => false))
    [TAct (TNew 0 5); TAct (TNew 0 3); TIter 2000000 []; TIter 3000000 [TRepeat 1%nat 3000000 1; TNew 3000000 9];
     TIter 4000000 [TClear 1%nat]; TIter 9000000 []; TIter 9000000 []] with
  | Ok s => map fst (fired s) = [1; 1; 0]%nat /\ active s = 1
  | _ => False
  end.
Proof. vm_compute. auto. Qed.

Theorem C22_delay_honoured_when_small : forall clk ms,
  0 <= clk < 2 ^ 64 - 2 ^ 31 -> 0 <= ms < 2148 -> due clk ms = Ok (clk + ms * 1000000).
Proof. exact due_exact. Qed.
Print Assumptions C22_delay_honoured_when_small.

Theorem C22_long_delay_overflows_refuted : forall s clk ms, 2148 <= ms -> new_timer s clk ms = UB.
Proof. exact due_overflow. Qed.
Print Assumptions C22_long_delay_overflows_refuted.

(* a new timer precedes every pending one with the same due time *)
Theorem C66_equal_due_times_fire_newest_first_refuted : forall x w l y,
  ssorted l -> In (y, w) l -> ~ In x (map fst l) ->
  exists a b c, ins x w l = a ++ (x, w) :: b ++ (y, w) :: c.
Proof. exact ties_newest_first. Qed.
Print Assumptions C66_equal_due_times_fire_newest_first_refuted.

Example C66_applies :
  match do_tops (timers_init (fun _ => None) (fun _ => None) (fun _ => 0) (fun _ => false))
    [TAct (TNew 0 5); TAct (TNew 0 5); TIter 5000000 []; TIter 5000000 []] with
  | Ok s => map fst (fired s) = [1; 0]%nat
  | _ => False
  end.
Proof. vm_compute. auto. Qed.

Theorem C67_repeat_then_clear_in_callback_uses_freed_timer_refuted :
  do_tops (timers_init (fun _ => None) (fun _ => None) (fun _ => 0) (fun _ => false))
    [TAct (TNew 0 1); TIter 1000000 [TRepeat 0%nat 1000000 1; TClear 0%nat]; TIter 2000000 []] = UB.
Proof. exact repeat_then_clear_uaf. Qed.
Print Assumptions C67_repeat_then_clear_in_callback_uses_freed_timer_refuted.

Theorem C67_repeat_of_a_pending_timer_loses_timers_refuted :
  match do_tops (timers_init (fun _ => None) (fun _ => None) (fun _ => 0) (fun _ => false))
    [TAct (TNew 0 1); TAct (TNew 0 2); TAct (TNew 0 3); TAct (TRepeat 0%nat 0 5)] with
  | Ok s => walk 4 (next (tlist s)) (head (tlist s)) = Ok [0%nat] /\ active s = 3
  | _ => False
  end.
Proof. exact repeat_outside_callback_loses. Qed.
Print Assumptions C67_repeat_of_a_pending_timer_loses_timers_refuted.

Theorem C67_forgotten_repeat_keeps_loop_counted_refuted :
  match do_tops (timers_init (fun _ => None) (fun _ => None) (fun _ => 0) (fun _ => false))
    [TAct (TNew 0 1); TIter 1000000 [TRepeat 0%nat 1000000 1]; TIter 2000000 []] with
  | Ok s => head (tlist s) = None /\ active s = 1 /\ alive s 0%nat = true
  | _ => False
  end.
Proof. exact forgotten_repeat_leaks. Qed.
Print Assumptions C67_forgotten_repeat_keeps_loop_counted_refuted.
