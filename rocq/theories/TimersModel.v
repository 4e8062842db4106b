(* Timers of an event loop: events.c 885-935 (events_actor_timeout, events_repeat_actor,
   events_clear_actor, events_actor) and 953-975 (the timer part of events_execute).
   Clock readings (events_nsec) are arguments; what a callback does is an argument of the iteration. *)
From Verif Require Import Base DllModel.
Local Open Scope Z_scope.

Record timers := {
  tlist : dll;                 (* loop->timers *)
  alarm : nat -> Z;            (* actor->alarmtime, size_t *)
  repeating : nat -> bool;     (* actor->repeating *)
  alive : nat -> bool;         (* allocated and not yet freed *)
  created : nat;               (* allocations so far; ids are given in this order *)
  active : Z;                  (* loop->active_timers *)
  fired : list (nat * Z);      (* history: callbacks invoked, with the clock value read *)
  repeats : list nat }.        (* history: timers passed to events_repeat_actor *)

Definition timers_init (nx pv : nat -> option nat) (a0 : nat -> Z) (r0 : nat -> bool) : timers :=
  {| tlist := dll_empty nx pv; alarm := a0; repeating := r0; alive := fun _ => false; created := 0%nat;
     active := 0; fired := []; repeats := [] |}.

(* events.c 892: (size_t)(events_nsec() + ms * 1000000); the product is computed in int *)
Definition due (clk ms : Z) : outcome Z :=
  let p := ms * 1000000 in
  if (- 2 ^ 31 <=? p) && (p <? 2 ^ 31) then Ok (wrapu 64 (clk + p)) else UB.

(* events.c 893: the scan, reading alarmtime of every node it visits *)
Fixpoint scan (fuel : nat) (s : timers) (when : Z) (p : option nat) : outcome (option nat) :=
  match p with
  | None => Ok None
  | Some x =>
    if alive s x then
      if alarm s x <? when then
        match fuel with O => Fuel | S k => scan k s when (next (tlist s) x) end
      else Ok (Some x)
    else UB
  end.

(* the pointer is NULL or points to live memory *)
Definition okp (s : timers) (p : option nat) : bool := match p with None => true | Some x => alive s x end.

(* events.c 896-919: link the node; t->prev, loop->timers->tail are dereferenced *)
Definition link (s : timers) (x : nat) (t : option nat) (when : Z) : outcome timers :=
  if okp s (match t with Some y => prev (tlist s) y | None => tail (tlist s) end) then
    Ok {| tlist := link_before (tlist s) x t; alarm := upd (alarm s) x when; repeating := repeating s;
          alive := alive s; created := created s; active := active s + 1; fired := fired s; repeats := repeats s |}
  else UB.

Definition insert (s : timers) (x : nat) (clk ms : Z) : outcome timers :=
  do when <- due clk ms;
  do t <- scan (S (created s)) s when (head (tlist s));
  link s x t when.

(* events.c 934-936 events_actor: calloc, then insert (allocation succeeds) *)
Definition new_timer (s : timers) (clk ms : Z) : outcome timers :=
  let x := created s in
  insert {| tlist := tlist s; alarm := alarm s; repeating := upd (repeating s) x false; alive := upd (alive s) x true;
            created := S x; active := active s; fired := fired s; repeats := repeats s |} x clk ms.

(* events.c 924-928 events_repeat_actor *)
Definition repeat_timer (s : timers) (x : nat) (clk ms : Z) : outcome timers :=
  if alive s x then
    insert {| tlist := tlist s; alarm := alarm s; repeating := upd (repeating s) x true; alive := alive s;
              created := created s; active := active s - 1; fired := fired s; repeats := repeats s ++ [x] |} x clk ms
  else UB.

(* events.c 930-932 events_clear_actor *)
Definition clear_timer (s : timers) (x : nat) : outcome timers :=
  if alive s x then
    Ok {| tlist := tlist s; alarm := alarm s; repeating := upd (repeating s) x false; alive := alive s;
          created := created s; active := active s; fired := fired s; repeats := repeats s |}
  else UB.

(* what the program may do to timers, inside or outside a callback *)
Inductive tact := TNew (clk ms : Z) | TRepeat (x : nat) (clk ms : Z) | TClear (x : nat).
Definition do_act (s : timers) (a : tact) : outcome timers :=
  match a with
  | TNew clk ms => new_timer s clk ms
  | TRepeat x clk ms => repeat_timer s x clk ms
  | TClear x => clear_timer s x
  end.
Fixpoint do_acts (s : timers) (l : list tact) : outcome timers :=
  match l with [] => Ok s | a :: r => do s1 <- do_act s a; do_acts s1 r end.

(* events.c 962-972: one iteration; [acts] is what the callback does if one is invoked.
   The loop leaves after the first timer (break). *)
Definition iterate (s : timers) (now : Z) (acts : list tact) : outcome timers :=
  match head (tlist s) with
  | None => Ok s
  | Some t =>
    if alive s t then
      if alarm s t <=? now then
        if okp s (prev (tlist s) t) && okp s (next (tlist s) t) then
          let s1 := {| tlist := dequeue (tlist s) t; alarm := alarm s; repeating := repeating s; alive := alive s;
                       created := created s; active := active s; fired := fired s ++ [(t, now)]; repeats := repeats s |} in
          do s2 <- do_acts s1 acts;
          if alive s2 t then
            if repeating s2 t then Ok s2
            else Ok {| tlist := tlist s2; alarm := alarm s2; repeating := repeating s2; alive := upd (alive s2) t false;
                       created := created s2; active := active s2 - 1; fired := fired s2; repeats := repeats s2 |}
          else UB
        else UB
      else Ok s
    else UB
  end.

Inductive top := TAct (a : tact) | TIter (now : Z) (acts : list tact).
Definition do_top (s : timers) (o : top) : outcome timers :=
  match o with TAct a => do_act s a | TIter now acts => iterate s now acts end.
Fixpoint do_tops (s : timers) (l : list top) : outcome timers :=
  match l with [] => Ok s | o :: r => do s1 <- do_top s o; do_tops s1 r end.
