(* try blocks of tasks that switch inside them (include/except.h 295-317, 447-450; src/except.c 131-139, 156-185,
   432-447, 484-523, 891-963).  ExceptModel has one flow; here any number of threads, each with any number of tasks that
   switch at will.  The current context is one pointer per thread (ex_local), a block's context lies on the stack of its
   task and points to the context that was current when it began.

   A flow is a task, or a thread that runs no tasks; [th f] is its thread.  A schedule is a list of (flow, operation).
   What the handlers do is left to the schedule: after [Throw] the flow is in the handler of the block that got the exception
   and may do anything; a block that does not catch the exception is [Leave] followed by [Throw].  Outside guards and scopes,
   no signals; protections outside of all blocks are not followed. *)
From Coq Require Import List Arith Bool.
From Verif Require Import Base.
Import ListNotations.

(* ex_context_t; [owner] is not in the program: the flow whose stack it is on.  prot: the chain of protected pointers, latest
   first.  Once the block was left the memory is no context any more (alive = false), and any use is UB *)
Record ctx := mkC { owner : nat; next : option nat; prot : list nat; alive : bool }.

(* a block of flow f got exception e, with what was released; or the program ended *)
Inductive event := Got (f b e : nat) (rel : list nat) | Ended (f e : nat).

Record st := mkS {
  heap : list ctx;                 (* by number, in order of creation *)
  cur : nat -> option nat;         (* ex_local(), by thread; None: the thread's root context *)
  frames : nat -> list nat;        (* by flow: the blocks it is in, innermost first *)
  below : nat -> list nat;         (* ex_ptr_t.next, by protected pointer: the chain below *)
  over : bool;                     (* ex_terminate was called *)
  tr : list event }.               (* latest first *)

Definition init : st := mkS [] (fun _ => None) (fun _ => []) (fun _ => []) false [].

Definition upd {A} (m : nat -> A) (k : nat) (v : A) : nat -> A := fun x => if x =? k then v else m x.

Inductive op := Enter | Throw (e : nat) | Final | Leave | Protect (x : nat) | Unprotect (x : nat).

Section Flows.
Variable th : nat -> nat.

(* try_start, 891-906 *)
Definition enter (s : st) (f : nat) : outcome st :=
  let b := length (heap s) in
  Ok (mkS (heap s ++ [mkC f (cur s (th f)) [] true]) (upd (cur s) (th f) (Some b))
          (upd (frames s) f (b :: frames s f)) (below s) (over s) (tr s)).

(* where an exception of flow f jumps to (ex_throw, 484-523): the owner and number of a block, or nowhere *)
Definition target (s : st) (f : nat) : outcome (option (nat * nat)) :=
  match cur s (th f) with
  | None => Ok None
  | Some b => do c <- rd (heap s) b; if alive c then Ok (Some (owner c, b)) else UB
  end.

(* ex_throw; a jump into a block of another flow leaves the stack of f for good and goes on in the middle of the other's code
   (Exn), which is not followed further *)
Definition throw (s : st) (f e : nat) : outcome st :=
  do t <- target s f;
  match t with
  | None => Ok (mkS (heap s) (cur s) (frames s) (below s) true (Ended f e :: tr s))
  | Some (g, b) =>
      if g =? f then
        do c <- rd (heap s) b;
        do h <- wr (heap s) b (mkC (owner c) (next c) [] (alive c));
        Ok (mkS h (cur s) (frames s) (below s) (over s) (Got f b e (prot c) :: tr s))
      else Exn
  end.

(* try_finallying, 953-963 *)
Definition final (s : st) (f : nat) : outcome st :=
  match frames s f with
  | [] => UB
  | b :: _ => do c <- rd (heap s) b;
              Ok (mkS (heap s) (upd (cur s) (th f) (next c)) (frames s) (below s) (over s) (tr s))
  end.

(* try_finish, 908-921, without exception *)
Definition leave (s : st) (f : nat) : outcome st :=
  match frames s f with
  | [] => UB
  | b :: r =>
      do c <- rd (heap s) b;
      do h <- wr (heap s) b (mkC (owner c) (next c) (prot c) false);
      Ok (mkS h (match cur s (th f) with
                 | Some d => if d =? b then upd (cur s) (th f) (next c) else cur s
                 | None => cur s
                 end) (upd (frames s) f r) (below s) (over s) (tr s))
  end.

(* ex_protect_ptr, 131-139 *)
Definition protect (s : st) (f x : nat) : outcome st :=
  match cur s (th f) with
  | None => Ok s
  | Some b => do c <- rd (heap s) b;
              if alive c then
                do h <- wr (heap s) b (mkC (owner c) (next c) (x :: prot c) true);
                Ok (mkS h (cur s) (frames s) (upd (below s) x (prot c)) (over s) (tr s))
              else UB
  end.

(* except.h 450 *)
Definition unprotect (s : st) (f x : nat) : outcome st :=
  match cur s (th f) with
  | None => Ok s
  | Some b => do c <- rd (heap s) b;
              if alive c then
                do h <- wr (heap s) b (mkC (owner c) (next c) (below s x) true);
                Ok (mkS h (cur s) (frames s) (below s) (over s) (tr s))
              else UB
  end.

Definition step (s : st) (a : nat * op) : outcome st :=
  let (f, o) := a in
  if over s then Ok s else
  match o with
  | Enter => enter s f
  | Throw e => throw s f e
  | Final => final s f
  | Leave => leave s f
  | Protect x => protect s f x
  | Unprotect x => unprotect s f x
  end.

Fixpoint run (s : st) (l : list (nat * op)) : outcome st :=
  match l with
  | [] => Ok s
  | a :: l => do s <- step s a; run s l
  end.
End Flows.
