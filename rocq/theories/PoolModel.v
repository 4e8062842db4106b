(* Distributing threaded tasks over the pool: events.c 1753-1790 (task_push), 2020-2061 (tasks_poster, go),
   2101-2127 (waitgroup), 2144-2197 (__thrd_waitfor); future.c 85-88, 338-387 (futures_pool, queue_work). *)
From Verif Require Import Base.

(* ---- which thread gets the next task ---- *)
(* events.c 1778: entry (counter mod size) of the list of pool threads; the counter is fetched and increased
   atomically.  Fewer than 2^64 starts. *)
Definition pick (idx : list nat) (count : nat) : outcome nat := rd idx (count mod length idx).
(* n starts from counter value c0 *)
Fixpoint starts (idx : list nat) (c0 n : nat) : outcome (list nat) :=
  match n with
  | 0 => Ok []
  | S k => do x <- pick idx c0; do r <- starts idx (S c0) k; Ok (x :: r)
  end.
(* starts while the pool grows: events_create_pool (2589-2623) appends a thread to the list *)
Inductive pop_ := PStart | PGrow (tid : nat).
Fixpoint grow_starts (idx : list nat) (c : nat) (l : list pop_) : outcome (list nat) :=
  match l with
  | [] => Ok []
  | PStart :: k => do x <- pick idx c; do r <- grow_starts idx (S c) k; Ok (x :: r)
  | PGrow t :: k => grow_starts (idx ++ [t]) c k
  end.
(* future.c 85-88 and 355-366: futures_pool reads the counter; queue_work submits to the thread it was given and increases
   the counter.  One step per access; each submitter reads then submits. *)
Inductive fop := FRead (who : nat) | FSubmit (who : nat).
Fixpoint frun (idx : list nat) (c : nat) (got : nat -> option nat) (l : list fop) : outcome (list nat) :=
  match l with
  | [] => Ok []
  | FRead w :: k => do x <- pick idx c; frun idx c (fun y => if y =? w then Some x else got y) k
  | FSubmit w :: k => match got w with None => frun idx c got k | Some x => do r <- frun idx (S c) got k; Ok (x :: r) end
  end.

(* ---- posting a wait group ---- *)
(* take one task off the end of the group; None: the group is empty and the empty value's object NULL is dereferenced *)
Definition poptask (g : list nat) : outcome (list nat * nat) := match rev g with [] => UB | x :: r => Ok (rev r, x) end.
Fixpoint popn (n : nat) (g : list nat) : outcome (list nat * list nat) :=
  match n with 0 => Ok (g, []) | S k => do r <- poptask g; do r2 <- popn k (fst r); Ok (fst r2, snd r :: snd r2) end.
(* tasks_poster's first loop: each of the threads gets wg->capacity tasks (2026-2037) *)
Fixpoint post (threads share : nat) (g : list nat) : outcome (list nat * list (list nat)) :=
  match threads with
  | 0 => Ok (g, [])
  | S k => do r <- popn share g; do r2 <- post k share (fst r); Ok (fst r2, snd r :: snd r2)
  end.
(* waitgroup (2105, 2111): capacity / (threads + 1), then the poster *)
Definition post_group (threads capacity : nat) (g : list nat) : outcome (list nat * list (list nat)) := post threads (capacity / (threads + 1)) g.

(* ---- a pool thread waiting for its share: 2166-2196 ---- *)
(* The second foreach declares [group] but reads [task], the variable of the first foreach, which still holds the last job.
   term t: has that last job ended at time t (a yield is one tick).  A terminated task in state FINISH is freed by task_delete.
   out: the tasks reported and removed, with the time. *)
Section Share.
Variable term : nat -> nat -> bool.
Fixpoint share_wait (fuel t i : nat) (jobs : list nat) (last : nat) (gone : bool) (out : list (nat * nat)) : outcome (nat * list (nat * nat)) :=
  match fuel with
  | 0 => Fuel
  | S f =>
    if i <? length jobs then
      if gone then UB
      else if term t last then share_wait f t (S i) (firstn i jobs ++ skipn (S i) jobs) last true (out ++ [(last, t)])
      else share_wait f (S t) (S i) jobs last gone out
    else match jobs with [] => Ok (t, out) | _ => share_wait f t 0 jobs last gone out end
  end.
End Share.
Definition share_run (term : nat -> nat -> bool) (fuel t : nat) (jobs : list nat) : outcome (nat * list (nat * nat)) :=
  share_wait term fuel t 0 jobs (last jobs 0) false [].

(* ---- go ---- *)
(* tids: the thread number in each result record, None while never written.  tasks_create_result (1651-1668) adds a record
   without writing it; task_push writes it only outside an active wait group (1776-1784), else it appends the task to the
   group (1762-1766); go then uses the record's number as an index of the thread table (2055-2057). *)
Record gst := { tids : list (option nat); group : list nat; gcount : nat }.
Definition go (in_group : bool) (idx : list nat) (s : gst) : outcome (gst * nat) :=
  let rid := length (tids s) in
  let l := tids s ++ [None] in
  do s1 <- (if in_group then Ok {| tids := l; group := group s ++ [rid]; gcount := gcount s |}
            else do x <- pick idx (gcount s); do l' <- wr l rid (Some x); Ok {| tids := l'; group := group s; gcount := S (gcount s) |});
  do o <- rd (tids s1) rid;
  match o with Some tid => Ok (s1, tid) | None => UB end.
