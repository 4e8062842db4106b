(* Giving back the memory of a task: events.c 136-149 (events_task_unwind), 1080-1099 (task_delete), async_io.h 112-122 (states).
   One task is followed.  mark: magic_number is TASK_MAGIC_NUMBER.  data: the user_data, an array that is told apart by a number.
   Left out: fibers, the scheduler (a change of state is an event from outside), data that is not an array. *)
From Coq Require Import ZArith List Bool.
From Verif Require Import Base.
Import ListNotations.
Local Open Scope Z_scope.

Inductive status := SErred | SDead | SNormal | SRunning | SSuspended | SEvent | SSleeping | SFinish.

Record task := T { st : status; mark : bool; err : Z; data : option nat }.
(* memory of the task, and the arrays that were deleted *)
Inductive cell := Live (t : task) | Freed.
Definition world := (cell * list nat)%type.

(* 1083-1086 *)
Definition may_go (s : status) : bool :=
  match s with SNormal | SDead | SErred | SFinish => true | _ => false end.

(* 1080-1099; every access of memory that was freed is undefined *)
Definition task_delete (w : world) : outcome world :=
  match fst w with
  | Freed => UB
  | Live t => if negb (may_go (st t)) then Ok (Live (T (st t) (mark t) (-1) (data t)), snd w)
              else if mark t then Ok (Freed, snd w) else Ok w
  end.

(* 136-149 *)
Definition task_unwind (w : world) : outcome world :=
  match fst w with
  | Freed => UB
  | Live t => if mark t then Ok (Freed, match data t with Some d => d :: snd w | None => snd w end) else Ok w
  end.

(* the scheduler changes the state; task_data_set 1235-1237 *)
Inductive op := Delete | Unwind | State (s : status) | Data (d : option nat).
Definition step (w : world) (o : op) : outcome world :=
  match o with
  | Delete => task_delete w
  | Unwind => task_unwind w
  | State s => match fst w with Freed => UB | Live t => Ok (Live (T s (mark t) (err t) (data t)), snd w) end
  | Data d => match fst w with Freed => UB | Live t => Ok (Live (T (st t) (mark t) (err t) d), snd w) end
  end.
Fixpoint run (w : world) (l : list op) : outcome world :=
  match l with [] => Ok w | o :: l => do w <- step w o; run w l end.

(* a task as create_task leaves it *)
Definition fresh (s : status) : world := (Live (T s true 0 None), []).

(* what the caller can know: the last state, and the last data *)
Fixpoint last_state (s : status) (l : list op) : status :=
  match l with [] => s | State s :: l => last_state s l | _ :: l => last_state s l end.
Fixpoint last_data (d : option nat) (l : list op) : option nat :=
  match l with [] => d | Data d :: l => last_data d l | _ :: l => last_data d l end.
(* no Unwind, and Delete only while the task may not go *)
Fixpoint early (s : status) (l : list op) : Prop :=
  match l with
  | [] => True
  | Delete :: l => (s = SRunning \/ s = SSuspended \/ s = SEvent \/ s = SSleeping) /\ early s l
  | Unwind :: l => False
  | State s :: l => early s l
  | Data _ :: l => early s l
  end.
