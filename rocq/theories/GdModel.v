(* Guard blocks (include/except.h 332-351, src/except.c 1025-1137, 1181-1213) and defer
   (src/events.c 1889-1955), for any number of threads whose tasks switch at will.

   A flow is a task, or a thread that runs no tasks.  [th f] is its thread, [tsk f] says whether it is a
   task.  A schedule is a list of (flow, operation): what the flows do, in the order in which they do it.
   Flows of one thread switch at any point; so do threads.

   Simplified: no allocation fails; the deferred functions are numbers and running one appends it to [out];
   they defer nothing and open no guards; the body of a guard raises nothing (raising in a single guard is
   in DeferModel).  Memory: a guard's block is freed once and never reused; any use afterwards is UB. *)
From Coq Require Import List Arith Bool.
From Verif Require Import Base.
Import ListNotations.

(* ex_guard_t: the functions in its scope's defer_arr, latest first; [live] until events_free.
   [owner] is not in the program: the flow that opened the guard *)
Record block := mkB { live : bool; fns : list nat; owner : nat }.

(* scope_local(), one per thread: arena, and whether status is DATA_GUARDED_STATUS *)
Record local := mkL { arena : option nat; stat : bool }.

(* one open guard of a flow, the macro's variables: _g_scope, _g_arena, and whether _g_set was guard_set *)
Record frame := mkF { fr_block : nat; fr_arena : option nat; fr_set : bool }.

Record st := mkS {
  heap : list block;               (* by number, in order of creation *)
  loc : nat -> local;              (* by thread *)
  tsc : nat -> option nat;         (* t->scope, by flow; for tasks *)
  own : nat -> list nat;           (* t->garbage of a task, scope_local()->defer_arr of a thread without tasks; latest first *)
  frames : nat -> list frame;      (* by flow, innermost first *)
  hook : bool;                     (* the process's guard_setup_func is guard_set (else null) *)
  out : list (nat * nat) }.        (* functions run, with the flow that ran them; latest first *)

Definition init : st := mkS [] (fun _ => mkL None false) (fun _ => None) (fun _ => []) (fun _ => []) false [].

Definition upd {A} (m : nat -> A) (k : nat) (v : A) : nat -> A := fun x => if x =? k then v else m x.

Inductive op := Defer (k : nat) | Enter | Leave | Finish.

Section Flows.
Variable th : nat -> nat.
Variable tsk : nat -> bool.

(* get_scope, except.c 1025-1037: Some b is a guard's scope, None the thread's own *)
Definition get_scope (s : st) (f : nat) : outcome (option nat) :=
  match (if tsk f then tsc s f else None) with
  | Some b => Ok (Some b)
  | None => if stat (loc s (th f)) then
              match arena (loc s (th f)) with Some b => Ok (Some b) | None => UB end
            else Ok None
  end.

(* scope_is_guarded, 1039-1041: reads the scope *)
Definition is_guarded (s : st) (f : nat) : outcome bool :=
  do g <- get_scope s f;
  match g with
  | None => Ok false
  | Some b => do c <- rd (heap s) b; if live c then Ok true else UB
  end.

(* scope_deferred, 1087-1103 *)
Definition scope_deferred (s : st) (a : option nat) (k : nat) : outcome st :=
  match a with
  | None => UB
  | Some b => do c <- rd (heap s) b;
              if live c then
                do h <- wr (heap s) b (mkB true (k :: fns c) (owner c));
                Ok (mkS h (loc s) (tsc s) (own s) (frames s) (hook s) (out s))
              else UB
  end.

(* deferred, events.c 1929-1955, with _defer_init 1889-1927 *)
Definition defer (s : st) (f : nat) (k : nat) : outcome st :=
  do g <- is_guarded s f;
  if g then scope_deferred s (arena (loc s (th f))) k
  else Ok (mkS (heap s) (loc s) (tsc s) (upd (own s) f (k :: own s f)) (frames s) (hook s) (out s)).

(* guard, except.h 332-342, with guard_init, except.c 1117-1137 *)
Definition enter (s : st) (f : nat) : outcome st :=
  let b := length (heap s) in
  Ok (mkS (heap s ++ [mkB true [] f])
          (upd (loc s) (th f) (mkL (Some b) true))
          (if tsk f then upd (tsc s) f (Some b) else tsc s)
          (own s)
          (upd (frames s) f (mkF b (arena (loc s (th f))) (hook s) :: frames s f))
          true (out s)).

(* guarded, except.h 345-351: guard_reset, except.c 1195-1213, with scope_unwind 1043-1085.
   A flow without an open guard does not come here *)
Definition leave (s : st) (f : nat) : outcome st :=
  match frames s f with
  | [] => UB
  | fr :: r =>
      do c <- rd (heap s) (fr_block fr);
      if live c then
        do h <- wr (heap s) (fr_block fr) (mkB false [] (owner c));
        Ok (mkS h
              (upd (loc s) (th f)
                 (mkL (fr_arena fr) (match fr_arena fr with None => false | Some _ => stat (loc s (th f)) end)))
              (if tsk f then upd (tsc s) f None else tsc s)
              (own s) (upd (frames s) f r) (fr_set fr)
              (rev (map (fun k => (f, k)) (fns c)) ++ out s))
      else UB
  end.

(* The flow ends, or a task would begin anew: task_awaitable, events.c 1161-1170: deferred_unwind of garbage *)
Definition finish (s : st) (f : nat) : outcome st :=
  Ok (mkS (heap s) (loc s) (tsc s) (upd (own s) f []) (frames s) (hook s)
        (rev (map (fun k => (f, k)) (own s f)) ++ out s)).

Definition step (s : st) (a : nat * op) : outcome st :=
  let (f, o) := a in
  match o with
  | Defer k => defer s f k
  | Enter => enter s f
  | Leave => leave s f
  | Finish => finish s f
  end.

Fixpoint run (s : st) (l : list (nat * op)) : outcome st :=
  match l with
  | [] => Ok s
  | a :: l => do s <- step s a; run s l
  end.

(* ex_throw, except.c 501-506: who hears of an exception first.  guard_set (1181-1193) writes it into the
   thread's arena, or returns if there is none; without guard_setup_func the program's
   exception_setup_func or the thread's scope is told, as without any guard *)
Inductive told := InGuard (b : nat) | NoOne | Usual.

Definition throw (s : st) (f : nat) : outcome told :=
  if hook s then
    match arena (loc s (th f)) with
    | None => Ok NoOne
    | Some b => do c <- rd (heap s) b; if live c then Ok (InGuard b) else UB
    end
  else Ok Usual.
End Flows.
