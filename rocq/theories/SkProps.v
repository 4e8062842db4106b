(* C150-C152: the memory of a task, the check of its stack, tasks made by a signal. *)
From Coq Require Import ZArith List Bool Lia.
From Verif Require Import Base SkModel SkProofs.
Import ListNotations.
Open Scope Z_scope.

(* C150: with assembly, a task has at least the stack asked for (8 KiB at least; six times that for the main task;
   more than 18 KiB in a thread), and not much more. *)
Theorem C150_room : forall p s main thread, sane p -> fits p s main ->
  let b := block_bytes p s main thread in
  b mod 16 = 0 /\
  p_descr p + promised s <= b /\
  promised s <= room p Asm b /\
  (main = true -> 6 * promised s <= room p Asm b) /\
  (p_more p = true -> thread = true -> 18432 < room p Asm b) /\
  b < p_descr p + p_res p + 16 + (if main then 6 else 1) * (promised s + match p_minsig p with Some k => k | None => 0 end)
      + (if p_more p && thread then 18432 else 0).
Proof. exact c150_room. Qed.
Print Assumptions C150_room.

(* The other two ways lose at most a descriptor, or a ucontext_t and 56 bytes, and stay in the block. *)
Theorem C150_room_other_ways : forall p s main thread u, sane p -> fits p s main -> 0 <= u <= 2 ^ 13 ->
  let b := block_bytes p s main thread in
  promised s - p_descr p <= room p Sjlj b /\
  promised s - u - 56 <= room p (Uctx u) b /\
  snd (stack_of p Sjlj b) <= b /\
  snd (stack_of p (Uctx u) b) <= b.
Proof. exact c150_others. Qed.
Print Assumptions C150_room_other_ways.

(* Every way's stack lies in the block, and is the whole of it but for the descriptor or the ucontext_t and 64 bytes;
   assembly's ends where the block ends, ucontext's leaves the block's first eight bytes alone. *)
Theorem C150_within : forall p y b, 0 <= p_descr p -> match y with Uctx u => 0 <= u | _ => True end ->
  0 <= fst (stack_of p y b) /\ snd (stack_of p y b) <= b /\
  snd (stack_of p y b) - fst (stack_of p y b) = b - match y with Asm => 0 | Sjlj => p_descr p | Uctx u => u + 64 end /\
  (y = Asm -> snd (stack_of p y b) = b) /\ (forall u, y = Uctx u -> 8 <= fst (stack_of p y b)).
Proof. exact c150_within. Qed.
Print Assumptions C150_within.

(* They do give less than was asked for, and their stack begins inside the descriptor. *)
Theorem C150_room_other_ways_refuted : forall p s u, sane p -> p_minsig p = None -> fits p s false ->
  let b := block_bytes p s false false in
  (p_res p + 16 <= p_descr p -> room p Sjlj b < promised s) /\
  (p_res p + 16 <= u -> room p (Uctx u) b < promised s) /\
  fst (stack_of p Sjlj b) < p_descr p /\
  (8 < p_descr p -> fst (stack_of p (Uctx u) b) < p_descr p).
Proof. exact c150_sjlj_short. Qed.
Print Assumptions C150_room_other_ways_refuted.

(* A very large request is accepted with a block smaller than the descriptor. *)
Theorem C150_huge_request_refuted : forall p, sane p -> p_minsig p = None ->
  exists s, 0 <= s < p_max p /\ block_bytes p s false false < p_descr p.
Proof. exact c150_overflow. Qed.
Print Assumptions C150_huge_request_refuted.

(* In a thread a larger request can give a smaller stack. *)
Theorem C150_monotone_refuted : exists p s1 s2, sane p /\ 0 <= s1 < s2 /\
  block_bytes p s2 false true < block_bytes p s1 false true.
Proof. exact c150_not_monotone. Qed.
Print Assumptions C150_monotone_refuted.

(* C151: a task that stays within its stack keeps its descriptor, and is stopped exactly if fewer than 256 (+n) bytes
   are left at a check. *)
Theorem C151_within : forall l base mo magic s,
  0 <= base -> (mo + length magic <= Z.to_nat base)%nat ->
  magic_at mo magic (s_mem s) ->
  base <= s_sp s <= Z.of_nat (length (s_mem s)) ->
  stays base (Z.of_nat (length (s_mem s))) (s_sp s) l ->
  (too_deep base (s_sp s) l /\ run base mo magic s l = Ok Stopped) \/
  (~ too_deep base (s_sp s) l /\ exists s', run base mo magic s l = Ok (Goes s') /\
     s_sp s' = sp_after (s_sp s) l /\ length (s_mem s') = length (s_mem s) /\
     firstn (Z.to_nat base) (s_mem s') = firstn (Z.to_nat base) (s_mem s)).
Proof. exact c151_within. Qed.
Print Assumptions C151_within.

(* Whatever a task did: when a check lets it go on, 256 (+n) bytes are free and the mark is in place. *)
Theorem C151_passed : forall base mo magic s l1 n l2 s',
  run base mo magic s (l1 ++ Check n :: l2) = Ok (Goes s') ->
  exists s1, run base mo magic s l1 = Ok (Goes s1) /\ base < s_sp s1 /\ base + 256 + n <= s_sp s1 /\
    magic_at mo magic (s_mem s1).
Proof. exact c151_passed. Qed.
Print Assumptions C151_passed.

(* A task found too deep, or whose mark was overwritten, does nothing after the check. *)
Theorem C151_stopped : forall base mo magic s l1 n l2 s1,
  run base mo magic s l1 = Ok (Goes s1) ->
  s_sp s1 < base + 256 + n \/ ~ magic_at mo magic (s_mem s1) ->
  run base mo magic s (l1 ++ Check n :: l2) = Ok Stopped.
Proof. exact c151_stopped. Qed.
Print Assumptions C151_stopped.

(* An overrun that does not reach the mark is not seen: fields behind it (the task's name first) are changed. *)
Theorem C151_overrun_seen_refuted : forall base mo magic mem,
  (mo + length magic < Z.to_nat base)%nat -> magic_at mo magic mem ->
  base + 256 <= Z.of_nat (length mem) ->
  exists l s', run base mo magic (mkS mem (Z.of_nat (length mem))) l = Ok (Goes s') /\
    (exists l1 l2, l = l1 ++ l2 /\ sp_after (Z.of_nat (length mem)) l1 < base) /\
    (exists l0, l = l0 ++ [Check 0]) /\
    nth (Z.to_nat base - 1) (s_mem s') 0 <> nth (Z.to_nat base - 1) mem 0.
Proof. exact c151_unseen. Qed.
Print Assumptions C151_overrun_seen_refuted.

(* Between checks a task can leave its block. *)
Theorem C151_stays_in_block_refuted : forall base mo magic s, 0 <= s_sp s -> exists l, run base mo magic s l = UB.
Proof. exact c151_outside. Qed.
Print Assumptions C151_stays_in_block_refuted.

(* C152: tasks made one after the other, by any threads: the signal does afterwards what it did before, the program's
   handler never runs, every task that is given back can be entered if the signal was not blocked, and the alternate
   stack is back unless sigaction failed. *)
Theorem C152_in_turn : forall order ys p ts, killed p = false -> NoDup order ->
  (forall i, In i order -> exists y a b, nth_error ys i = Some y /\ nth_error ts i = Some (begin a b)) ->
  exists ts', interleave ys (flat_map (fun i => repeat i 6) order) p ts = (p, ts') /\
    (forall i y a b, In i order -> nth_error ys i = Some y -> nth_error ts i = Some (begin a b) ->
       exists t, nth_error ts' i = Some t /\ made y a b t) /\
    (forall i, ~ In i order -> nth_error ts' i = nth_error ts i).
Proof. exact c152_in_turn. Qed.
Print Assumptions C152_in_turn.

(* In any order: the signal does what it did or runs the library's handler; the process is killed only if that is what
   the signal did. *)
Theorem C152_any_order : forall sched ys d ts p' ts',
  Forall (fun t => exists a b, t = begin a b) ts ->
  interleave ys sched (mkProc d false) ts = (p', ts') ->
  (killed p' = true -> d = DDefault) /\ (d_now p' = d \/ d_now p' = DSpring).
Proof. exact c152_any_begin. Qed.
Print Assumptions C152_any_order.

(* Two threads that make tasks at the same time can kill the process. *)
Theorem C152_two_threads_killed_refuted : exists sched,
  killed (fst (interleave [mkY true true true; mkY true true true] sched (mkProc DDefault false)
     [begin ANone false; begin ANone false])) = true.
Proof. exact c152_killed. Qed.
Print Assumptions C152_two_threads_killed_refuted.

(* Or leave the library's handler in the place of the program's. *)
Theorem C152_two_threads_handler_refuted : forall n, exists sched p' ts',
  interleave [mkY true true true; mkY true true true] sched (mkProc (DUser n) false)
     [begin ANone false; begin ANone false] = (p', ts') /\
  Forall (fun t => t_ret t = Some true) ts' /\ d_now p' = DSpring.
Proof. exact c152_left. Qed.
Print Assumptions C152_two_threads_handler_refuted.

(* Or run the program's handler in the place of the library's, and give back a task that cannot be entered. *)
Theorem C152_two_threads_user_refuted : forall n, exists sched p' t1 t2,
  interleave [mkY true true true; mkY true true true] sched (mkProc (DUser n) false)
     [begin ANone false; begin ANone false] = (p', [t1; t2]) /\
  t_user t2 = [n] /\ t_ret t2 = Some true /\ t_ctx t2 = false.
Proof. exact c152_user. Qed.
Print Assumptions C152_two_threads_user_refuted.

(* Where SIGUSR1 is blocked, a task is given back whose context was never set, and the signal waits. *)
Theorem C152_blocked_refuted : forall d, exists t,
  interleave [mkY true true true] (repeat 0%nat 6) (mkProc d false) [begin ANone true] = (mkProc d false, [t]) /\
  t_ret t = Some true /\ t_ctx t = false /\ t_pending t = true.
Proof. exact c152_blocked. Qed.
Print Assumptions C152_blocked_refuted.

(* If sigaction fails the thread keeps the block as its alternate stack. *)
Theorem C152_alternate_stack_refuted : forall d a b, exists t,
  interleave [mkY true false true] (repeat 0%nat 6) (mkProc d false) [begin a b] = (mkProc d false, [t]) /\
  t_ret t = Some false /\ t_alt t = ABlock.
Proof. exact c152_altstack. Qed.
Print Assumptions C152_alternate_stack_refuted.

(* tests *)
Example linux64 : plat := mkP (2 ^ 64) 656 40 None true.
Example C150_sane_test : sane linux64.
Proof. repeat split; cbn; auto; lia. Qed.
Example C150_sizes_test :
  block_bytes linux64 0 false false = 8896 /\
  block_bytes linux64 8192 true false = 49856 /\
  block_bytes linux64 10 false true = 27328.
Proof. vm_compute. repeat split; reflexivity. Qed.
Example C150_fits_test : fits linux64 100000 true.
Proof. split; cbn; lia. Qed.
Example C151_run_test :
  run 4 0 [7] (mkS (7 :: repeat 0 300) 301) [Push [1; 2; 3]; Check 0; Pop 3; Check 0] =
    Ok (Goes (mkS (7 :: repeat 0 297 ++ [1; 2; 3]) 301)) /\
  run 4 0 [7] (mkS (7 :: repeat 0 300) 301) [Push (repeat 1 50); Check 0; Pop 3] = Ok Stopped /\
  run 4 0 [7] (mkS (7 :: repeat 0 300) 301) [Push (repeat 1 301); Pop 301; Check 0] = Ok Stopped.
Proof. vm_compute. repeat split; reflexivity. Qed.
