(* Tasks that wait for descriptors, the scheduler that polls before each task, and the end of the loop:
   events.c 1397-1420 (wait_cb, async_wait), 2337-2344 (async_run), 2410-2444 (tasks_schedulering with do_io),
   703-724 (events_once), 1157-1161 (end of a task), over epoll.c 149-190 and the registration of EpollModel.v.
   One thread and one loop [l], Linux build.  Left out: timers, timeouts, signals, sleeping, path watches, and
   callbacks registered by the program itself (EpollModel.v has them). *)
From Verif Require Import Base DllModel EpollModel.
Local Open Scope Z_scope.

(* What a task does between two switches; after an end nothing follows.  [prog t k] is the k-th action of task t.
   WWait is async_wait(f, rw) (also what reading, accepting and connecting do), WClose closes a descriptor and yields. *)
Inductive wact := WYield | WWait (f : nat) (rw : Z) | WClose (f : nat) | WEnd.
Inductive wev := WRan (t : nat) | WWoke (t f : nat) (rev : Z).

Record aw := {
  wep : ep;                  (* descriptor table, kernel, counts *)
  wq : dll;                  (* __thrd()->run_queue *)
  warg : nat -> nat;         (* target->cb_arg of descriptors registered by async_wait: the task *)
  wpc : nat -> nat;          (* actions done, per task *)
  wcount : Z;                (* __thrd()->task_count *)
  wlog : list wev }.         (* history: tasks switched to, wake-ups with what was reported *)

Section Thread.
Variable maxfd l : nat.
Variable pollable : nat -> bool.
Variable prog : nat -> nat -> wact.
Variable sys : nat -> bool.        (* t->system *)

(* 1408-1415: 'r', 'w'; any other letter asks for nothing *)
Definition wbits (rw : Z) : Z := if rw =? 114 then READ else if rw =? 119 then WRITE else 0.

(* 1397-1404 wait_cb *)
Definition wait_cb (s : aw) (f : nat) (rev : Z) : outcome aw :=
  let t := warg s f in
  let q := enqueue (wq s) t in
  do e <- ev_del maxfd pollable (wep s) f;
  Ok {| wep := set_ev e f rev; wq := q; warg := warg s; wpc := wpc s; wcount := wcount s; wlog := wlog s ++ [WWoke t f rev] |}.

(* epoll.c 159-188 with wait_cb as the callback of every registered descriptor *)
Fixpoint wpoll (batch : list (nat * Z)) (s : aw) : outcome aw :=
  match batch with
  | [] => Ok s
  | (f, m) :: rest =>
    if (f <? maxfd)%nat then
      if Nat.eqb l (tloop (wep s) f) && negb (Z.land (tev (wep s) f) RW =? 0) then
        if revents m =? 0 then wpoll rest s
        else do s1 <- wait_cb s f (revents m); wpoll rest s1
      else wpoll rest {| wep := set_kern (wep s) (ctl_del (kern (wep s)) l f); wq := wq s; warg := warg s; wpc := wpc s; wcount := wcount s; wlog := wlog s |}
    else UB
  end.

(* 1406-1420 async_wait; the result of events_add is not looked at, and out of range it changes nothing *)
Definition async_wait (s : aw) (t f : nat) (rw : Z) : outcome aw :=
  if (f <? maxfd)%nat then
    do e <- ev_add maxfd pollable (wep s) l f (wbits rw);
    Ok {| wep := e; wq := wq s; warg := upd (warg s) f t; wpc := wpc s; wcount := wcount s; wlog := wlog s |}
  else Ok s.

(* the segment a task runs when switched to *)
Definition wsegment (s : aw) (t : nat) : outcome aw :=
  let s0 := {| wep := wep s; wq := wq s; warg := warg s; wpc := upd (wpc s) t (S (wpc s t)); wcount := wcount s; wlog := wlog s ++ [WRan t] |} in
  match prog t (wpc s t) with
  | WYield => Ok {| wep := wep s0; wq := enqueue (wq s0) t; warg := warg s0; wpc := wpc s0; wcount := wcount s0; wlog := wlog s0 |}
  | WWait f rw => async_wait s0 t f rw
  | WClose f => Ok {| wep := set_kern (wep s0) (fun l' f' => if Nat.eqb f' f then None else kern (wep s0) l' f'); wq := enqueue (wq s0) t;
                      warg := warg s0; wpc := wpc s0; wcount := wcount s0; wlog := wlog s0 |}
  | WEnd => Ok {| wep := wep s0; wq := wq s0; warg := warg s0; wpc := wpc s0; wcount := if sys t then wcount s0 else wcount s0 - 1; wlog := wlog s0 |}
  end.

(* 2410-2444 tasks_schedulering(true); [batch] is what the kernel reports to this poll.  None is TASK_ERRED *)
Definition wstep (batch : list (nat * Z)) (s : aw) : outcome (option aw) :=
  match task_dequeue (wq s) with
  | (None, _) => Ok None
  | (Some t, q) =>
    do s1 <- wpoll batch {| wep := wep s; wq := q; warg := warg s; wpc := wpc s; wcount := wcount s; wlog := wlog s |};
    do s2 <- wsegment s1 t; Ok (Some s2)
  end.

(* 2337-2344 async_run over the batches of successive polls *)
Fixpoint wrun (batches : list (list (nat * Z))) (s : aw) : outcome aw :=
  match batches with
  | [] => Ok s
  | b :: r => if wcount s =? 0 then Ok s else do o <- wstep b s; match o with None => Ok s | Some s1 => wrun r s1 end
  end.
End Thread.

(* tasks 0..n-1 pushed in this order on a fresh thread (events.c 1752-1776); system tasks are not counted (1280-1287) *)
Fixpoint enqueues (ts : list nat) (q : dll) : dll := match ts with [] => q | t :: r => enqueues r (enqueue q t) end.
Definition winit (sys : nat -> bool) (nx pv : nat -> option nat) (arg0 : nat -> nat) (n : nat) : aw :=
  {| wep := ep_init; wq := enqueues (seq 0 n) (dll_empty nx pv); warg := arg0; wpc := fun _ => O;
     wcount := Z.of_nat (length (filter (fun t => negb (sys t)) (seq 0 n))); wlog := [] |}.
