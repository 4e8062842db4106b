(* Futures of threads: future.c 3-24 (future_create, promise_get), 26-32 (promise_erred), 42-57 (promise_set), 94-118
   (_thrd_wrapper), 125-171 (thrd_async, thrd_get), 173-176 (thrd_wait), 201-203 (thrd_is_done), except.h 354-365
   (guarded_exception), os_unix.c 775-812 (os_join with a timeout of 0: pthread_tryjoin_np).  Linux.  All futures here
   are created in one scope, which is what they report errors to (7).  Simplifications: starting a thread succeeds;
   threads and their creator take turns at the events below; the panic text and the backtrace are left out; the freeing
   of results and futures at the end of the scope is left out; a result that is not an array is not taken for one (C132). *)
From Verif Require Import Base.
#[local] Open Scope Z_scope.

(* what the function of a thread does: returns a word, an array, or throws; its errno *)
Inductive res := Val (w : Z) (en : Z) | Arr (l : list Z) | Err (e : Z).
(* a future: how far its thread is, the flag done, the type, the result *)
Inductive phase := Made | Running | Ended | Exited.
Inductive kind := Future | Result.
Record fut := { ph : phase; done : bool; ty : kind; value : Z; arr : option (list Z); erred : Z }.
(* 4-14 *)
Definition fut0 : fut := {| ph := Made; done := false; ty := Future; value := 0; arr := None; erred := 0 |}.
(* serr: err of the scope, shared by its futures; errn: errno of the creator *)
Record st := { futs : nat -> fut; serr : option Z; errn : Z }.
Definition start : st := {| futs := fun _ => fut0; serr := None; errn := 0 |}.
Definition put (f : nat -> fut) (i : nat) (x : fut) : nat -> fut := fun j => if Nat.eqb j i then x else f j.
Definition ETIMEDOUT : Z := 110.
Definition minus_one : Z := 18446744073709551615.

Inductive ev := Begin (i : nat) | End (i : nat) | Exit (i : nat) | Get (i : nat) | IsDone (i : nat).
Inductive ans := Nothing | Returned (v : Z) | Thrown (e : Z) | Done (b : bool).

(* 160-163, 167-170: of an array its first element *)
Definition give (f : fut) : outcome ans :=
  match arr f with
  | Some (x :: _) => Ok (Returned x)
  | Some [] => UB
  | None => Ok (Returned (value f))
  end.
(* None: not possible now (a thread cannot begin twice, thrd_get waits) *)
Definition step (r : nat -> res) (s : st) (e : ev) : option (outcome (st * ans)) :=
  match e with
  | Begin i => let f := futs s i in
      match ph f with
      | Made => Some (Ok ({| futs := put (futs s) i {| ph := Running; done := done f; ty := ty f; value := value f; arr := arr f; erred := 0 |};
                             serr := None; errn := errn s |}, Nothing))          (* 103-104 *)
      | _ => None
      end
  | End i => let f := futs s i in
      match ph f with
      | Running =>
        Some (Ok (match r i with
          | Val w en => ({| futs := put (futs s) i {| ph := Ended; done := true; ty := ty f; value := if w =? 0 then value f else w; arr := arr f;
                                erred := if w =? minus_one then en else erred f |}; serr := serr s; errn := errn s |}, Nothing)   (* 44-56 *)
          | Arr l => ({| futs := put (futs s) i {| ph := Ended; done := true; ty := ty f; value := value f; arr := Some l; erred := erred f |}; serr := serr s; errn := errn s |}, Nothing)
          | Err e => ({| futs := put (futs s) i {| ph := Ended; done := true; ty := ty f; value := value f; arr := arr f; erred := erred f |}; serr := Some e; errn := errn s |}, Nothing) (* 27-31 *)
          end))
      | _ => None
      end
  | Exit i => let f := futs s i in
      match ph f with
      | Ended => Some (Ok ({| futs := put (futs s) i {| ph := Exited; done := done f; ty := ty f; value := value f; arr := arr f; erred := erred f |}; serr := serr s; errn := errn s |}, Nothing))
      | _ => None
      end
  | Get i => let f := futs s i in
      match ty f with
      | Future =>
        if negb (done f) then None
        else match ph f with
        | Exited =>
          let f' := {| ph := Exited; done := false; ty := Result; value := value f; arr := arr f; erred := erred f |} in   (* 141-143 *)
          let s' := {| futs := put (futs s) i f'; serr := serr s; errn := if erred f =? 0 then errn s else erred f |} in
          match serr s with
          | Some e => Some (Ok (s', Thrown e))                                    (* 150-153 *)
          | None => Some (do a <- give f'; Ok (s', a))
          end
        | _ => Some (do a <- give f; Ok ({| futs := futs s; serr := serr s; errn := ETIMEDOUT |}, a))   (* os_unix.c 784-807 *)
        end
      | Result => Some (do a <- give f; Ok (s, a))
      end
  | IsDone i => Some (Ok (s, Done (done (futs s i))))
  end.
Fixpoint run (r : nat -> res) (s : st) (es : list ev) : option (outcome (st * list ans)) :=
  match es with
  | [] => Some (Ok (s, []))
  | e :: k => match step r s e with
              | None => None
              | Some (Ok (s', a)) => match run r s' k with Some (Ok (s'', aa)) => Some (Ok (s'', a :: aa)) | x => x end
              | Some UB => Some UB
              | Some Exn => Some Exn
              | Some Fuel => Some Fuel
              end
  end.
