(* C184: functions deferred outside of guards and tasks, when the program ends.  C185: what is told and called then. *)
From Coq Require Import List Arith Bool.
From Verif Require Import Base EnModel EnProofs EnProofs2.
Import ListNotations.

(* exit, or the return of main: the functions that the ending thread deferred are called once, latest first *)
Theorem C184_exit : forall beh a t,
  quiet a -> ~ In (EndThread t) a -> defers t a <> [] -> returns beh (defers t a) ->
  exists s, run beh init (a ++ [Exit t]) = Ok s /\ over s = true /\ out s = map (Ran t) (rev (defers t a)) ++ [Done true].
Proof. exact exit_runs. Qed.
Print Assumptions C184_exit.

Theorem C184_exit_nothing : forall beh a t,
  quiet a -> ~ In (EndThread t) a -> (forall u f, ~ In (Defer u f) a) ->
  exists s, run beh init (a ++ [Exit t]) = Ok s /\ over s = true /\ out s = [Done true].
Proof. exact exit_nothing. Qed.
Print Assumptions C184_exit_nothing.

(* an exception that nobody catches, when no signal came before *)
Theorem C184_uncaught : forall beh a t e,
  quiet a -> ~ In (EndThread t) a -> defers t a <> [] -> returns beh (defers t a) ->
  depth t a = 0 -> (forall u e b, ~ In (Signal u e b) a) ->
  exists s, run beh init (a ++ [Throw t e]) = Ok s /\ over s = true /\
    (made_outside t a -> out s = Told (Some e) :: map (Ran t) (rev (defers t a)) ++ [Term; Done true]) /\
    (~ made_outside t a -> out s = Told (Some e) :: Term :: map (Ran t) (rev (defers t a)) ++ [Done true]).
Proof. exact throw_runs. Qed.
Print Assumptions C184_uncaught.

(* a signal that nobody catches: they are called only if the first of them was deferred outside of try blocks *)
Theorem C184_signal_refuted : forall beh a t e b,
  quiet a -> ~ In (EndThread t) a -> defers t a <> [] -> returns beh (defers t a) ->
  depth t a = 0 -> (forall u e, ~ In (Signal u e true) a) ->
  exists s, run beh init (a ++ [Signal t e b]) = Ok s /\ over s = true /\
    (made_outside t a -> out s = Told (Some e) :: map (Ran t) (rev (defers t a)) ++ (if b then [CtrlC] else []) ++ [Term; Done false]) /\
    (~ made_outside t a -> out s = Told (Some e) :: (if b then [CtrlC] else []) ++ [Term; Done false]).
Proof. exact signal_runs. Qed.
Print Assumptions C184_signal_refuted.

(* the same for an exception, once any signal was caught *)
Theorem C184_after_signal_refuted : forall beh a t e u x b,
  quiet a -> ~ In (EndThread t) a -> defers t a <> [] ->
  depth t a = 0 -> ~ made_outside t a -> In (Signal u x b) a -> ~ In (EndThread u) a ->
  exists s, run beh init (a ++ [Throw t e]) = Ok s /\ over s = true /\ (forall v f, ~ In (Ran v f) (out s)) /\ In (Done false) (out s).
Proof. exact throw_after_signal. Qed.
Print Assumptions C184_after_signal_refuted.

(* a thread that deferred nothing calls the functions of the thread that deferred first *)
Theorem C184_foreign_refuted : forall beh a t u p f q,
  quiet a -> ~ In (EndThread t) a -> defers t a = [] ->
  a = p ++ Defer u f :: q -> (forall v g, ~ In (Defer v g) p) -> ~ In (EndThread u) p ->
  (~ In (EndThread u) a -> returns beh (defers u a) ->
     exists s, run beh init (a ++ [Exit t]) = Ok s /\ out s = map (Ran u) (rev (defers u a)) ++ [Done true]) /\
  (In (EndThread u) a -> run beh init (a ++ [Exit t]) = UB).
Proof. exact exit_foreign. Qed.
Print Assumptions C184_foreign_refuted.

(* a deferred function that throws: the first to be called may, a later one is undefined *)
Theorem C184_first_throws : forall beh a t e f d x,
  quiet a -> ~ In (EndThread t) a -> defers t a = d ++ [f] -> returns beh d -> beh f = Some x ->
  depth t a = 0 -> made_outside t a -> (forall u e b, ~ In (Signal u e b) a) ->
  exists s, run beh init (a ++ [Throw t e]) = Ok s /\
    out s = Told (Some e) :: Ran t f :: Told (Some x) :: map (Ran t) (rev d) ++ [Term; Done true].
Proof. exact throw_first_throws. Qed.
Print Assumptions C184_first_throws.

Theorem C184_later_throws_refuted : forall beh a t e f d r x,
  quiet a -> ~ In (EndThread t) a -> defers t a = r ++ f :: d -> d <> [] -> returns beh d -> beh f = Some x ->
  depth t a = 0 -> made_outside t a ->
  run beh init (a ++ [Throw t e]) = UB /\ run beh init (a ++ [Exit t]) = UB.
Proof. exact later_throws. Qed.
Print Assumptions C184_later_throws_refuted.

(* the first function of the thread was deferred in a try block, and one throws during exit: those after it are not called *)
Theorem C184_rest_refuted : forall beh a t f x p q, quiet a -> ~ In (EndThread t) a -> rev (defers t a) = p ++ f :: q -> returns beh p -> beh f = Some x ->
  depth t a = 0 -> ~ made_outside t a -> (forall u e b, ~ In (Signal u e b) a) -> (forall u g, In (Defer u g) a -> u = t) ->
  exists s, run beh init (a ++ [Exit t]) = Ok s /\ out s = map (Ran t) p ++ [Ran t f; Told (Some x); Term; Done true].
Proof. intros. eapply stops; eauto. Qed.
Print Assumptions C184_rest_refuted.

(* if other threads deferred as well: the rest is called if the first to be called threw, and undefined otherwise *)
Theorem C184_rest_partial : forall beh a t f x q u, quiet a -> ~ In (EndThread t) a -> rev (defers t a) = f :: q -> returns beh q -> beh f = Some x ->
  depth t a = 0 -> ~ made_outside t a -> (forall u e b, ~ In (Signal u e b) a) -> u <> t -> defers u a <> [] -> ~ In (EndThread u) a ->
  exists s, run beh init (a ++ [Exit t]) = Ok s /\ out s = Ran t f :: Told (Some x) :: Term :: map (Ran t) q ++ [Done true].
Proof. intros. eapply (again_rest beh a t f x [] q); eauto. intros g []. Qed.
Print Assumptions C184_rest_partial.

Theorem C184_rest_undefined_refuted : forall beh a t f x p q u, quiet a -> ~ In (EndThread t) a -> rev (defers t a) = p ++ f :: q -> returns beh p -> beh f = Some x ->
  depth t a = 0 -> ~ made_outside t a -> (forall u e b, ~ In (Signal u e b) a) -> u <> t -> defers u a <> [] -> ~ In (EndThread u) a -> p <> [] ->
  run beh init (a ++ [Exit t]) = UB.
Proof. intros. eapply again_ub; eauto. Qed.
Print Assumptions C184_rest_undefined_refuted.

(* and if a second one throws, with three threads that deferred *)
Theorem C184_both_throw_refuted : forall beh a t f x g y r u v, quiet a -> ~ In (EndThread t) a -> rev (defers t a) = f :: g :: r -> beh f = Some x -> beh g = Some y ->
  depth t a = 0 -> ~ made_outside t a -> (forall u e b, ~ In (Signal u e b) a) ->
  u <> t -> defers u a <> [] -> ~ In (EndThread u) a -> v <> t -> v <> u -> defers v a <> [] -> ~ In (EndThread v) a ->
  run beh init (a ++ [Exit t]) = UB.
Proof. intros. eapply (twice_ub beh a t f x [] (g :: r)) with (u := u) (v := v); eauto. intros h []. Qed.
Print Assumptions C184_both_throw_refuted.

(* the end comes within a try block that nothing was deferred in: the registered function is called before the deferred ones *)
Theorem C184_within_try : forall beh a t e, quiet a -> ~ In (EndThread t) a -> defers t a <> [] -> returns beh (defers t a) -> (forall u e b, ~ In (Signal u e b) a) ->
  exists s, run beh init (a ++ [Enter t; Within t e]) = Ok s /\ out s = Told None :: Term :: map (Ran t) (rev (defers t a)) ++ [Done true].
Proof. exact within_try. Qed.
Print Assumptions C184_within_try.

(* C185: whatever is done: nothing before the end; then one end, the last event; the registered functions at most once, that
   for control-C only if SIGINT came *)
Theorem C185_once : forall beh l s, run beh init l = Ok s ->
  (over s = false -> out s = []) /\
  (over s = true -> exists p c, out s = p ++ [Done c] /\ (forall c, ~ In (Done c) p) /\
     length (filter (fun e => match e with Term => true | _ => false end) p) <= 1 /\
     length (filter (fun e => match e with CtrlC => true | _ => false end) p) <= 1 /\
     (In CtrlC p -> exists t e, In (Signal t e true) l)).
Proof.
  intros beh l s R. destruct (any_calls beh l s R) as [(A & B & _)|(A & B)]; split; intros H; try congruence; exact B.
Qed.
Print Assumptions C185_once.

Theorem C185_told : forall beh a t e s,
  quiet a -> ~ In (EndThread t) a -> depth t a = 0 ->
  run beh init (a ++ [Throw t e]) = Ok s \/ (exists b, run beh init (a ++ [Signal t e b]) = Ok s) ->
  exists x, out s = Told (Some e) :: x.
Proof. exact told_throw. Qed.
Print Assumptions C185_told.

(* thrown by the release function of a protected pointer: the program ends with an empty text *)
Theorem C185_within_refuted : forall beh a t e s,
  quiet a -> ~ In (EndThread t) a ->
  run beh init (a ++ [Within t e]) = Ok s -> exists x, out s = Told None :: x.
Proof. exact told_within. Qed.
Print Assumptions C185_within_refuted.

(* tests *)
Definition all_return (f : nat) : option nat := None.
Example ex_exit : match run all_return init [Defer 0 1; Enter 0; Throw 0 7; Leave 0; Defer 0 2; Defer 1 5; Exit 0] with
  Ok s => out s = [Ran 0 2; Ran 0 1; Done true] | _ => False end.
Proof. reflexivity. Qed.
Example ex_signal_lost : match run all_return init [Enter 0; Defer 0 1; Leave 0; Signal 0 9 true] with
  Ok s => out s = [Told (Some 9); CtrlC; Term; Done false] | _ => False end.
Proof. reflexivity. Qed.
Example ex_after_signal : match run all_return init [Enter 0; Defer 0 1; Signal 0 9 false; Leave 0; Throw 0 4] with
  Ok s => out s = [Told (Some 4); Term; Done false] | _ => False end.
Proof. reflexivity. Qed.
Example ex_foreign : match run all_return init [Defer 1 5; Exit 0] with Ok s => out s = [Ran 1 5; Done true] | _ => False end.
Proof. reflexivity. Qed.
Example ex_foreign_ub : run all_return init [Defer 1 5; EndThread 1; Exit 0] = UB.
Proof. reflexivity. Qed.
Definition two_throws (f : nat) : option nat := if f =? 2 then Some 8 else None.
Example ex_first_throws : match run two_throws init [Defer 0 1; Defer 0 2; Throw 0 4] with
  Ok s => out s = [Told (Some 4); Ran 0 2; Told (Some 8); Ran 0 1; Term; Done true] | _ => False end.
Proof. reflexivity. Qed.
Example ex_later_throws : run two_throws init [Defer 0 2; Defer 0 1; Exit 0] = UB.
Proof. reflexivity. Qed.
Example ex_quiet : quiet [Defer 0 1; Enter 0; Throw 0 7; Leave 0] /\ made_outside 0 [Defer 0 1; Enter 0; Throw 0 7; Leave 0] /\
  ~ made_outside 0 [Enter 0; Defer 0 1; Leave 0].
Proof.
  split; [|split].
  - intros a o b E. do 4 (destruct a as [|? a]; [injection E as <- <-; cbn; auto|injection E as <- E]). destruct a; discriminate.
  - exists [], 1, [Enter 0; Throw 0 7; Leave 0]. auto.
  - intros (a & f & b & E & D & P). do 3 (destruct a as [|? a]; [try discriminate; injection E as <- <-; cbn in *; discriminate|injection E as <- E]).
    destruct a; discriminate.
Qed.

(* the cases of a scope made in a try block *)
Definition one_throws (f : nat) : option nat := if f =? 2 then Some 9 else None.
Example ex_rest : match run one_throws init [Enter 0; Defer 0 1; Defer 0 2; Defer 0 3; Leave 0; Exit 0] with
  | Ok s => out s = [Ran 0 3; Ran 0 2; Told (Some 9); Term; Done true] | _ => False end.
Proof. reflexivity. Qed.
Example ex_rest_next : match run one_throws init [Enter 0; Defer 0 1; Defer 0 2; Leave 0; Defer 1 4; Exit 0] with
  | Ok s => out s = [Ran 0 2; Told (Some 9); Term; Ran 0 1; Done true] | _ => False end.
Proof. reflexivity. Qed.
Example ex_rest_ub : run one_throws init [Enter 0; Defer 0 1; Defer 0 2; Defer 0 3; Leave 0; Defer 1 4; Exit 0] = UB.
Proof. reflexivity. Qed.
