(* Guard blocks of several tasks and threads: statements.  Model in GdModel *)
From Coq Require Import List Arith Bool.
From Verif Require Import Base GdModel GdProofs GdProofs2.
Import ListNotations.

(* If the guards of every thread end in the reverse order in which they began, and only the flow of the
   innermost guard defers while one is open, every deferred function runs when the guard ends in which it
   was deferred, or when its flow ends if in none, latest first, and nothing freed is used.  The schedules
   of different threads may be mixed in any way *)
Theorem C173_own_guard_partial : forall (th : nat -> nat) (tsk : nat -> bool) l,
  nested th none_open l ->
  exists s, run th tsk init l = Ok s /\ out s = ran (sp_run l).
Proof. exact nested_ok. Qed.

(* A task that is in no guard defers while another task of its thread is in one: the function runs when
   the other task's guard ends *)
Theorem C173_foreign_refuted : forall k,
  exists s, run one yes init [(1, Enter); (2, Defer k); (1, Leave)] = Ok s /\
  out s = [(1, k)] /\ ran (sp_run [(1, Enter); (2, Defer k); (1, Leave)]) = [].
Proof. exact foreign. Qed.

(* Two tasks in guards: the function of the first runs at the end of the second's, while its own is open *)
Theorem C173_inner_refuted : forall k,
  exists s, run one yes init [(1, Enter); (2, Enter); (1, Defer k); (2, Leave)] = Ok s /\
  out s = [(2, k)] /\ ran (sp_run [(1, Enter); (2, Enter); (1, Defer k); (2, Leave)]) = [].
Proof. exact inner. Qed.

(* The first to enter leaves first: the second's defer uses a null pointer *)
Theorem C173_null_refuted : forall k,
  run one yes init [(1, Enter); (2, Enter); (1, Leave); (2, Defer k)] = UB.
Proof. exact null_. Qed.

(* When both have left, an exception outside all guards writes into the first's freed block, and so does
   the defer that follows any later guard *)
Theorem C173_dangling_refuted : forall f g k,
  exists s, run one yes init crossed = Ok s /\ order crossed = [] /\
  throw one s f = UB /\ run one yes s [(g, Enter); (g, Leave); (g, Defer k)] = UB.
Proof. exact dangling. Qed.

(* If the guards of the whole process end in the reverse order, an exception in the innermost is told to
   that guard, and one while no guard is open to the program's handler *)
Theorem C174_heard_partial : forall (th : nat -> nat) (tsk : nat -> bool) l,
  nested all none_open l ->
  exists s, run th tsk init l = Ok s /\ out s = ran (sp_run l) /\
    (order l = [] -> forall f, throw th s f = Ok Usual) /\
    (forall f, hd_error (order l) = Some f ->
       exists b c, throw th s f = Ok (InGuard b) /\ nth_error (heap s) b = Some c /\ live c = true /\ owner c = f /\
         hd_error (gs (sp_run l) f) = Some (fns c)).
Proof. exact throw_ok. Qed.

(* While one thread is in a guard, exceptions of other threads are told to nobody *)
Theorem C174_hushed_refuted :
  exists s, run same no init [(1, Enter)] = Ok s /\ gs (sp_run [(1, Enter)]) 2 = [] /\
  forall f, f <> 1 -> throw same s f = Ok NoOne.
Proof. exact hushed. Qed.

(* Two threads in guards, the first to enter leaves first: the second's guard is not told *)
Theorem C174_deaf_refuted :
  exists s, run same no init [(1, Enter); (2, Enter); (1, Leave)] = Ok s /\
  gs (sp_run [(1, Enter); (2, Enter); (1, Leave)]) 2 = [[]] /\ throw same s 2 = Ok Usual.
Proof. exact deaf. Qed.

(* and once both have left, the program's handler is not called any more *)
Theorem C174_mute_refuted :
  exists s, run same no init crossed = Ok s /\ order crossed = [] /\ forall f, throw same s f = Ok NoOne.
Proof. exact mute. Qed.

(* not vacuous: guards of two tasks and another thread *)
Definition sched : list (nat * op) :=
  [(1, Enter); (1, Defer 10); (2, Enter); (2, Defer 20); (9, Defer 90); (2, Defer 21); (2, Leave);
   (9, Finish); (1, Enter); (1, Defer 11); (1, Leave); (1, Defer 12); (1, Leave); (1, Defer 13); (1, Finish)].
Definition thr (f : nat) : nat := if f =? 9 then 1 else 0.

Example sched_nested : nested thr none_open sched.
Proof. cbv. repeat split; auto. Qed.
Example sched_out : ran (sp_run sched) =
  [(1, 13); (1, 10); (1, 12); (1, 11); (9, 90); (2, 20); (2, 21)].
Proof. reflexivity. Qed.
Example sched_all : nested all none_open [(1, Enter); (2, Enter); (2, Leave); (1, Defer 3)] /\
  order [(1, Enter); (2, Enter); (2, Leave); (1, Defer 3)] = [1].
Proof. cbv. repeat split; auto. Qed.

Print Assumptions C173_own_guard_partial.
Print Assumptions C173_foreign_refuted.
Print Assumptions C173_inner_refuted.
Print Assumptions C173_null_refuted.
Print Assumptions C173_dangling_refuted.
Print Assumptions C174_heard_partial.
Print Assumptions C174_hushed_refuted.
Print Assumptions C174_deaf_refuted.
Print Assumptions C174_mute_refuted.
