(* Properties C18, C19 and C65: the task queue shared between threads. *)
From Coq Require Import Permutation.
From Verif Require Import Base DequeModel DequeConcModel DequeConcProofs DequeConcProofs2 DequeConcProofs3.

(* One pushing thread [o], any number of stealing threads (thread [o] may steal too), no take: every
   history replays on a FIFO queue, and what was handed out is exactly the oldest part of what was
   pushed.  Missing for the full C18: executions with take, where it is false (below), and
   executions that read a freed block (C19). *)
Theorem C18_push_and_steal_are_linearizable_partial : forall o size threads ls s,
  1 <= size -> Forall (allowed o) ls -> run (init size threads) ls = Ok s ->
  replay (log s) = Some (skipn (length (got (log s))) (pushed (log s))) /\
  got (log s) = firstn (length (got (log s))) (pushed (log s)).
Proof. exact linearizable. Qed.
Print Assumptions C18_push_and_steal_are_linearizable_partial.

Theorem C18_each_task_once_partial : forall o size threads ls s,
  1 <= size -> Forall (allowed o) ls -> run (init size threads) ls = Ok s -> NoDup (pushed (log s)) ->
  NoDup (got (log s)) /\ incl (got (log s)) (pushed (log s)).
Proof. exact each_at_most_once. Qed.
Print Assumptions C18_each_task_once_partial.

(* With takes by the owner that run from start to end without a foreign step in between, while pushes and
   any number of steals are cut into single steps: the history replays on a double-ended queue, and
   pushed tasks = handed out + remaining.  Missing: takes that are interleaved (false, below). *)
Theorem C18_with_whole_takes_partial : forall o size threads ms s,
  1 <= size -> Forall (allowed2 o) ms -> run (init size threads) (schedule o ms) = Ok s ->
  exists rest, replays o (log s) rest /\ Permutation (pushed (log s)) (got (log s) ++ rest).
Proof. exact deque_linearizable. Qed.
Print Assumptions C18_with_whole_takes_partial.

(* such a take, once something was pushed, is defined and returns the newest task, or reports an empty queue *)
Theorem C18_take_gives_newest_partial : forall o size threads ms s, 1 <= size -> Forall (allowed2 o) ms ->
  run (init size threads) (schedule o ms) = Ok s -> nth_error (thr s) o = Some Idle -> pushed (log s) <> [] ->
  exists s' rest, run s (expand o Take) = Ok s' /\ nth_error (thr s') o = Some Idle /\ replays o (log s) rest /\
    ((rest = [] /\ log s' = log s ++ [SawEmpty o]) \/
     (exists r x, rest = r ++ [x] /\ log s' = log s ++ [Got o x] /\ replays o (log s') r)).
Proof. exact take_safe. Qed.
Print Assumptions C18_take_gives_newest_partial.

(* Takes that are uninterrupted only up to the store of bottom, and interleaved after it: no task is handed
   out twice or lost.  So reading top too early is the only defect of the take. *)
Theorem C18_with_published_takes_partial : forall o size threads ms s, 1 <= size -> Forall (allowed3 o) ms ->
  run (init size threads) (schedule3 o ms) = Ok s ->
  (exists rest, Permutation (pushed (log s)) (got (log s) ++ rest)) /\
  (nth_error (thr s) o = Some Idle -> top s <= bot s /\ exists rest, length rest = bot s - top s /\ Permutation (pushed (log s)) (got (log s) ++ rest)).
Proof. exact conserved. Qed.
Print Assumptions C18_with_published_takes_partial.

Definition push_moves (w : Z) := Any (LPush 0 w) :: repeat (Any (LRun 0)) 5.
(* a steal is under way when the owner takes the same, last task *)
Example ex_take : match run (init 4 2) (schedule 0 (push_moves 7 ++ push_moves 8 ++ [Take; Any (LSteal 1); Any (LRun 1); Any (LRun 1); Take; Take]
    ++ repeat (Any (LRun 1)) 3)) with
  | Ok s => log s = [Pushed 0 7; Pushed 0 8; Got 0 8; Got 0 7; SawEmpty 0; Aborted 1] | _ => False end%Z.
Proof. vm_compute. reflexivity. Qed.
Example ex_race : match run (init 4 2) (schedule3 0 (Any3 (LPush 0 7%Z) :: repeat (Any3 (LRun 0)) 5 ++
    [Any3 (LSteal 1); Any3 (LRun 1); Any3 (LRun 1); TakeStart; Any3 (LRun 0)] ++ repeat (Any3 (LRun 1)) 3 ++ repeat (Any3 (LRun 0)) 2)) with
  | Ok s => log s = [Pushed 0 7; Got 1 7; SawEmpty 0] | _ => False end%Z.
Proof. vm_compute. reflexivity. Qed.

(* deque_take reads top before it publishes the new bottom: task 22 is handed out twice *)
Theorem C18_take_against_two_stealers_refuted :
  exists ls, match run (init 4 3) ls with
  | Ok s => log s = [Pushed 0 11; Pushed 0 22; Got 1 11; Got 2 22; Got 0 22] | _ => False end%Z.
Proof. exact double_reachable. Qed.
Print Assumptions C18_take_against_two_stealers_refuted.

Example ex_conc : match run (init 2 3)
    ([LPush 0 7] ++ runs 0 5 ++ [LPush 0 8] ++ runs 0 5 ++ [LSteal 1; LSteal 2] ++ runs 1 4 ++ runs 2 5 ++ runs 1 1
     ++ [LSteal 1] ++ runs 1 5 ++ [LSteal 1] ++ runs 1 2)%Z with
  | Ok s => log s = [Pushed 0 7; Pushed 0 8; Got 2 7; Aborted 1; Got 1 8; SawEmpty 1] | _ => False end%Z.
Proof. vm_compute. reflexivity. Qed.

(* growing frees the block a stealer has already picked up *)
Theorem C19_steal_reads_freed_block_refuted : exists ls,
  Forall (allowed 0) ls /\ run (init 1 2) ls = UB.
Proof. exact uaf_reachable. Qed.
Print Assumptions C19_steal_reads_freed_block_refuted.

(* ... and that is the only undefined behaviour *)
Theorem C19_only_stale_blocks_are_unsafe : forall o s l, Inv o s -> allowed o l ->
  step s l = UB \/ step s l = Exn \/ step s l = Fuel ->
  exists i t a A, l = LRun i /\ nth_error (thr s) i = Some (SR t a) /\ a <> cur s /\
    nth_error (arrs s) a = Some A /\ (alive A = false \/ length (abuf A) = 0).
Proof. exact ub_is_stale_block. Qed.
Print Assumptions C19_only_stale_blocks_are_unsafe.

(* a queue that is never filled is safe under every schedule *)
Theorem C19_no_growth_no_ub_partial : forall o size threads ls, 1 <= size -> Forall (allowed o) ls ->
  list_sum (map is_push ls) <= size -> exists s, run (init size threads) ls = Ok s.
Proof. exact no_growth_no_ub. Qed.
Print Assumptions C19_no_growth_no_ub_partial.

(* two threads spawning at once onto the same pool thread: task 11 is lost *)
Theorem C65_two_spawners_lose_a_task_refuted :
  exists ls, match run (init 4 3) ls with
  | Ok s => log s = [Pushed 0 11; Pushed 1 22; Got 2 22; SawEmpty 2] | _ => False end%Z.
Proof. exact lost_reachable. Qed.
Print Assumptions C65_two_spawners_lose_a_task_refuted.

Example ex_inv : Inv 0 (init 4 3).
Proof. apply init_inv. lia. Qed.
