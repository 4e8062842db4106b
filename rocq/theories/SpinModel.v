(* Spin locks (catomics.h 711-727) and the sections they protect, for any number of threads, as interleavings of
   atomic accesses under sequential consistency.  A section is a list of steps, each one access of the shared state (or
   a computation of the thread); threads do nothing else that matters between their sections. *)
From Verif Require Import Base DllModel.

Section Spin.
Context {A X : Type}.   (* the shared state; a thread's own variables *)
Definition access := A -> X -> outcome (A * X).
(* the lock it is under, and what it does *)
Definition section := (nat * list access)%type.

(* where a thread is: catomics.h 714 (test and set), 717 (the inner loop), inside the section with what is left of it *)
Inductive phase := PTry | PSpin | PIn (k : nat) (rest : list access).
Record th := { own : X; todo : list section; ph : phase }.
Record sst := { flag : nat -> bool; shr : A; thr : nat -> th; slog : list nat }.

Definition set_ph (s : sst) (i : nat) (p : phase) : sst :=
  {| flag := flag s; shr := shr s; thr := upd (thr s) i {| own := own (thr s i); todo := todo (thr s i); ph := p |}; slog := slog s |}.
Definition set_flag (s : sst) (k : nat) (b : bool) : sst := {| flag := upd (flag s) k b; shr := shr s; thr := thr s; slog := slog s |}.

(* one step of thread i; the log holds the thread of each section that ended, in order *)
Definition sstep (s : sst) (i : nat) : outcome sst :=
  let t := thr s i in
  match ph t with
  | PTry => match todo t with
            | [] => Ok s
            | (k, sec) :: _ => if flag s k then Ok (set_ph s i PSpin) else Ok (set_ph (set_flag s k true) i (PIn k sec))
            end
  | PSpin => match todo t with
             | [] => Ok s
             | (k, _) :: _ => if flag s k then Ok s else Ok (set_ph s i PTry)
             end
  | PIn k [] => (* 724-726 *)
    Ok {| flag := upd (flag s) k false; shr := shr s;
          thr := upd (thr s) i {| own := own t; todo := tl (todo t); ph := PTry |}; slog := slog s ++ [i] |}
  | PIn k (f :: r) =>
    do y <- f (shr s) (own t);
    Ok {| flag := flag s; shr := fst y; thr := upd (thr s) i {| own := snd y; todo := todo t; ph := PIn k r |}; slog := slog s |}
  end.
Fixpoint srun (sched : list nat) (s : sst) : outcome sst :=
  match sched with [] => Ok s | i :: r => do s' <- sstep s i; srun r s' end.
Definition sinit (a : A) (p : nat -> X * list section) : sst :=
  {| flag := fun _ => false; shr := a; thr := fun i => {| own := fst (p i); todo := snd (p i); ph := PTry |}; slog := [] |}.
End Spin.
Arguments access : clear implicits.
Arguments section : clear implicits.
Arguments phase : clear implicits.
Arguments th : clear implicits.
Arguments sst : clear implicits.

(* Appending under the array's own lock: data_gc (arrays.c 304-308), defer (events.c 1887-1889), group results (2129-2135):
   atomic_lock($lock(a)); $append(a, v); atomic_unlock($lock(a)), with data_append (arrays.c 151-163) access by access.
   Cells beyond the size are absent from the list.  [mv]: whether growing the block to this capacity moves it; the caller
   keeps the old address and unlocks there *)
Record arr (V : Type) := { cells : list V; size : nat; cap : nat; gone : bool }.
Arguments cells {V}. Arguments size {V}. Arguments cap {V}. Arguments gone {V}.
Definition append_steps {V} (mv : nat -> bool) (v : V) : list (access (arr V) nat) :=
  [ (* 155-159 *)
    (fun a x => if gone a then UB else if (cap a <=? size a)%nat
       then Ok ({| cells := cells a; size := size a; cap := 2 * cap a; gone := mv (2 * cap a)%nat |}, x) else Ok (a, x));
    (* 161: the cell after the last *)
    (fun a x => if (size a <? cap a)%nat then Ok ({| cells := firstn (size a) (cells a) ++ [v]; size := size a; cap := cap a; gone := gone a |}, x) else UB);
    (* 162: load the size, store it one larger *)
    (fun a x => Ok (a, size a));
    (fun a x => Ok ({| cells := cells a; size := S x; cap := cap a; gone := gone a |}, x));
    (* the unlock is in the block *)
    (fun a x => if gone a then UB else Ok (a, x)) ].
