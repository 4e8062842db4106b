(* try blocks of tasks that switch inside them: statements.  Model in TxModel *)
From Coq Require Import List Arith Bool.
From Verif Require Import Base TxModel TxProofs.
Import ListNotations.

(* If in every thread the blocks end (or come to their finally part) in the reverse order in which they began, and only the
   flow of the latest throws and protects while one is open, every exception goes to the innermost block of the flow that
   threw it, with what was protected in that block released, latest first, and to the end of the program if it is in none *)
Theorem C175_own_block_partial : forall (th : nat -> nat) l, nested th sp0 none_open l ->
  exists s, run th init l = Ok s /\ tr s = log (sp_run l) /\ over s = stopped (sp_run l).
Proof. exact nested_ok. Qed.

(* After every such schedule, the exception of any flow goes to the latest block of its thread, whoever is in it: it is right
   only for the flow of that block *)
Theorem C175_where_partial : forall (th : nat -> nat) l, nested th sp0 none_open l -> stopped (sp_run l) = false ->
  exists s, run th init l = Ok s /\ forall f,
    match opened th l (th f) with
    | [] => target th s f = Ok None
    | g :: _ => exists k r, active (fl (sp_run l) g) = k :: r /\ target th s f = Ok (Some (g, bid k))
    end.
Proof. exact where_. Qed.

(* A task in no block throws while another task of its thread is in one: the jump goes to the other's *)
Theorem C175_foreign_refuted : forall e, exists s, run one init [(1, Enter)] = Ok s /\ fl (sp_run [(1, Enter)]) 2 = [] /\
  target one s 2 = Ok (Some (1, 0)) /\ step one s (2, Throw e) = Exn.
Proof. exact foreign. Qed.

(* Two tasks in blocks: exceptions of the first jump into the second's block, and what the first protects is released when the
   second throws *)
Theorem C175_inner_refuted : forall e x, exists s, run one init [(1, Enter); (2, Enter); (1, Protect x)] = Ok s /\
  target one s 1 = Ok (Some (2, 1)) /\ step one s (1, Throw e) = Exn /\
  exists s', step one s (2, Throw e) = Ok s' /\ tr s' = [Got 2 1 e [x]] /\
    log (sp_run [(1, Enter); (2, Enter); (1, Protect x); (2, Throw e)]) = [Got 2 1 e []].
Proof. exact inner_. Qed.

(* The first to enter leaves first: when both have left, every exception of the thread jumps into a block that is gone *)
Theorem C175_dangling_refuted : forall f e, exists s, run one init [(1, Enter); (2, Enter); (1, Leave); (2, Leave)] = Ok s /\
  (forall g, frames s g = []) /\ target one s f = UB /\ step one s (f, Throw e) = UB.
Proof. exact dangling. Qed.

(* ... and so does everything that is protected or no longer protected, by any flow of the thread *)
Theorem C175_dangling_protect_refuted : forall f x, exists s, run one init [(1, Enter); (2, Enter); (1, Leave); (2, Leave)] = Ok s /\
  step one s (f, Protect x) = UB /\ step one s (f, Unprotect x) = UB.
Proof. exact dangling_protect. Qed.

(* The first comes to its finally part: an exception of the second, in its block, ends the program *)
Theorem C175_ended_refuted : forall e, exists s, run one init [(1, Enter); (2, Enter); (1, Final); (2, Throw e)] = Ok s /\
  tr s = [Ended 2 e] /\ over s = true /\
  log (sp_run [(1, Enter); (2, Enter); (1, Final); (2, Throw e)]) = [Got 2 1 e []].
Proof. exact ended. Qed.

(* not vacuous: two tasks and another thread, nested blocks, a finally part, protections *)
Definition sched : list (nat * op) :=
  [(1, Enter); (1, Protect 7); (9, Enter); (2, Enter); (2, Protect 8); (2, Protect 5); (2, Unprotect 5); (9, Throw 90); (2, Throw 20);
   (2, Final); (9, Leave); (2, Leave); (1, Enter); (1, Protect 6); (1, Throw 10); (1, Final); (1, Throw 11); (1, Leave); (1, Leave);
   (2, Throw 21); (1, Enter)].
Definition thr (f : nat) : nat := if f =? 9 then 1 else 0.

Ltac leaf := first [exact Logic.I | reflexivity | left; reflexivity | right; reflexivity | discriminate | eexists _, _; split; reflexivity
  | split; [discriminate|]; intros g k I0;
    repeat match type of I0 with In _ (if ?c then _ else _) => destruct c end;
    repeat (destruct I0 as [<- |I0]; [intros X; repeat (destruct X as [X|X]; [discriminate|]); exact X|]); destruct I0].

Example sched_nested : nested thr sp0 none_open sched.
Proof.
  cbv -[In not]. repeat first [exact Logic.I | left; reflexivity | right; split; [leaf|split; [leaf|]]].
Qed.
Example sched_log : log (sp_run sched) =
  [Ended 2 21; Got 1 0 11 [7]; Got 1 3 10 [6]; Got 2 2 20 [8]; Got 9 1 90 []] /\ stopped (sp_run sched) = true.
Proof. split; reflexivity. Qed.

Print Assumptions C175_own_block_partial.
Print Assumptions C175_where_partial.
Print Assumptions C175_foreign_refuted.
Print Assumptions C175_inner_refuted.
Print Assumptions C175_dangling_refuted.
Print Assumptions C175_dangling_protect_refuted.
Print Assumptions C175_ended_refuted.
