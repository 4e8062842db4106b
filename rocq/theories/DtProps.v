(* C199: the memory of a task is given back once, and only when the task has ended. *)
From Coq Require Import ZArith List Bool.
From Verif Require Import Base DtModel DtProofs.
Import ListNotations.
Local Open Scope Z_scope.

(* while the task runs, is suspended, waits or sleeps, deleting it only marks it as erred *)
Theorem C199_kept : forall s l, early s l -> In Delete l ->
  run (fresh s) l = Ok (Live (T (last_state s l) true (-1) (last_data None l)), []).
Proof. exact kept. Qed.
Print Assumptions C199_kept.

(* when it has ended its memory is given back *)
Theorem C199_gone : forall s l, early s l -> last_state s l = SDead \/ last_state s l = SErred \/ last_state s l = SFinish ->
  run (fresh s) (l ++ [Delete]) = Ok (Freed, []).
Proof. exact ended. Qed.
Print Assumptions C199_gone.

(* a task that gave way to another one is in the state NORMAL: it has not ended, but its memory is given back as well *)
Theorem C199_normal_refuted : forall s l, early s l -> last_state s l = SNormal ->
  run (fresh s) (l ++ [Delete]) = Ok (Freed, []) /\ forall o r, run (fresh s) (l ++ Delete :: o :: r) = UB.
Proof. exact normal. Qed.
Print Assumptions C199_normal_refuted.

(* the mark is in the memory that was given back: it does not protect from deleting twice *)
Theorem C199_twice_refuted : forall s l o r, early s l ->
  last_state s l = SNormal \/ last_state s l = SDead \/ last_state s l = SErred \/ last_state s l = SFinish ->
  run (fresh s) (l ++ Delete :: o :: r) = UB.
Proof. exact after. Qed.
Print Assumptions C199_twice_refuted.

(* unwinding gives back the task in any state, with its data *)
Theorem C199_unwound : forall s l, early s l ->
  run (fresh s) (l ++ [Unwind]) = Ok (Freed, match last_data None l with Some d => [d] | None => [] end).
Proof. exact unwound. Qed.
Print Assumptions C199_unwound.

(* deleting a running task, as after an interrupt, leaves its memory *)
Theorem C199_interrupted_refuted : forall s l, early s l -> last_state s l = SRunning ->
  exists t, run (fresh s) (l ++ [Delete]) = Ok (Live t, []) /\ err t = -1.
Proof. exact interrupted. Qed.
Print Assumptions C199_interrupted_refuted.

Example C199_ex : run (fresh SSuspended) [State SRunning; Delete; Data (Some 3%nat); State SDead; Delete] = Ok (Freed, []).
Proof. reflexivity. Qed.
Example C199_ex2 : early SSuspended [State SRunning; Delete; Data (Some 3%nat); State SDead].
Proof. cbn. auto. Qed.
