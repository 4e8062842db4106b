(* Registering descriptors and dispatching readiness: events.c 539-605 (events_add), 607-641 (events_del),
   662-682 (events_set_event), 643-660 (events_is_registered, events_is_running, events_get_event);
   epoll.c 91-143 (events_update_internal, with EVENTS_EPOLL_DEFER_DELETES), 149-190
   (events_poll_once_internal).  Linux build.  Left out: the timeout wheel (WheelModel.v), signals
   (SignalModel.v), the Windows io-dispatch branch.  target->loop and target->loop_id are set and
   cleared together on these paths, so one field stands for both (0 = none).  assert() is compiled out. *)
From Verif Require Import Base DllModel.
Local Open Scope Z_scope.

(* events.h 145-153 *)
Definition READ := 1.
Definition WRITE := 2.
Definition CLOSED := 5.
Definition PATHWATCH := 32768.
Definition ADD := 1073741824.
Definition DEL := 536870912.
Definition RW := 3.
(* sys/epoll.h *)
Definition EPOLLIN := 1.
Definition EPOLLOUT := 4.
Definition EPOLLERR := 8.
Definition EPOLLHUP := 16.
Definition EPOLLET := 2147483648.

(* a delivered callback, or a path-watch read handed to a task *)
Inductive edeliv := ECall (loop fd : nat) (rev : Z) | EPath (loop fd : nat).

Record ep := {
  tloop : nat -> nat;                    (* target->loop / loop_id; 0 = none *)
  tev : nat -> Z;                        (* target->events *)
  tpath : nat -> bool;                   (* target->is_pathwatcher *)
  kern : nat -> nat -> option Z;         (* kernel interest list of each loop's epoll descriptor *)
  active : nat -> Z;                     (* loop->active_descriptors *)
  elog : list edeliv }.

Definition set_target (s : ep) f l e p :=
  {| tloop := upd (tloop s) f l; tev := upd (tev s) f e; tpath := upd (tpath s) f p; kern := kern s; active := active s; elog := elog s |}.
Definition set_ev (s : ep) f e :=
  {| tloop := tloop s; tev := upd (tev s) f e; tpath := tpath s; kern := kern s; active := active s; elog := elog s |}.
Definition set_loop (s : ep) f l :=
  {| tloop := upd (tloop s) f l; tev := tev s; tpath := tpath s; kern := kern s; active := active s; elog := elog s |}.
Definition set_kern (s : ep) k :=
  {| tloop := tloop s; tev := tev s; tpath := tpath s; kern := k; active := active s; elog := elog s |}.
Definition set_active (s : ep) l v :=
  {| tloop := tloop s; tev := tev s; tpath := tpath s; kern := kern s; active := upd (active s) l v; elog := elog s |}.
Definition add_elog (s : ep) e :=
  {| tloop := tloop s; tev := tev s; tpath := tpath s; kern := kern s; active := active s; elog := elog s ++ [e] |}.

Definition updk (k : nat -> nat -> option Z) (l f : nat) (v : option Z) : nat -> nat -> option Z :=
  fun l' f' => if Nat.eqb l' l && Nat.eqb f' f then v else k l' f'.

(* the kernel: MOD fails on a descriptor it does not watch, ADD on one it watches or cannot poll
   ([pollable]: EPERM for regular files), DEL on one it does not watch; true = success *)
Definition ctl_mod (k : nat -> nat -> option Z) l f m : (nat -> nat -> option Z) * bool :=
  match k l f with Some _ => (updk k l f (Some m), true) | None => (k, false) end.
Definition ctl_add (pollable : nat -> bool) (k : nat -> nat -> option Z) l f m : nat -> nat -> option Z :=
  match k l f with Some _ => k | None => if pollable f then updk k l f (Some m) else k end.
Definition ctl_del (k : nat -> nat -> option Z) l f : nat -> nat -> option Z := updk k l f None.

Definition has (e flag : Z) : bool := negb (Z.land e flag =? 0).

(* epoll.c 103-106 *)
Definition emask (event : Z) : Z :=
  if has event PATHWATCH then Z.lor EPOLLIN EPOLLET
  else Z.lor (if has event READ then EPOLLIN else 0) (if has event WRITE then EPOLLOUT else 0).

(* epoll.c 91-143; always returns 0.  Loop 0 (NULL) reaches an epoll_ctl through a null pointer: UB *)
Definition update_internal (pollable : nat -> bool) (s : ep) (l f : nat) (event : Z) : outcome ep :=
  if Z.land event RW =? tev s f then Ok s
  else if has event DEL then Ok (set_ev s f event)
  else if Nat.eqb l 0 then UB
  else if Z.land event RW =? 0 then Ok (set_ev (set_kern s (ctl_del (kern s) l f)) f event)
  else
    let (k, ok) := ctl_mod (kern s) l f (emask event) in
    let k' := if ok then k else ctl_add pollable k l f (emask event) in
    Ok (set_ev (set_kern s k') f event).

(* events.c 539-605 for a readiness or path registration; the result is 0, or -1 out of range *)
Definition ev_add (maxfd : nat) (pollable : nat -> bool) (s : ep) (l f : nat) (event : Z) : outcome ep :=
  if (f <? maxfd)%nat then
    do s1 <- update_internal pollable (set_target s f l 0 (event =? PATHWATCH)) l f (Z.lor event ADD);
    Ok (set_active s1 l (active s1 l + 1))
  else Ok s.

(* events.c 607-641 for a descriptor without a signal; an unregistered one gives -1 *)
Definition ev_del (maxfd : nat) (pollable : nat -> bool) (s : ep) (f : nat) : outcome ep :=
  if (f <? maxfd)%nat then
    let l := tloop s f in
    if Nat.eqb l 0 then Ok s
    else
      do s1 <- update_internal pollable s l f DEL;
      Ok (set_loop (set_active s1 l (active s1 l - 1)) f 0)
  else UB.

(* events.c 662-682 *)
Definition ev_set (maxfd : nat) (pollable : nat -> bool) (s : ep) (f : nat) (event : Z) : outcome ep :=
  if (f <? maxfd)%nat then
    if tev s f =? event then Ok s else update_internal pollable s (tloop s f) f event
  else UB.

(* what a program does with descriptors; closing one removes it from every interest list (kernel) *)
Inductive eact := EAdd (l f : nat) (event : Z) | EDel (f : nat) | ESet (f : nat) (event : Z) | EClose (f : nat).
Definition do_eact (maxfd : nat) (pollable : nat -> bool) (s : ep) (a : eact) : outcome ep :=
  match a with
  | EAdd l f e => ev_add maxfd pollable s l f e
  | EDel f => ev_del maxfd pollable s f
  | ESet f e => ev_set maxfd pollable s f e
  | EClose f => Ok (set_kern s (fun l' f' => if Nat.eqb f' f then None else kern s l' f'))
  end.
Fixpoint do_eacts maxfd pollable (s : ep) (l : list eact) : outcome ep :=
  match l with [] => Ok s | a :: r => do s1 <- do_eact maxfd pollable s a; do_eacts maxfd pollable s1 r end.

(* epoll.c 163-165 *)
Definition revents (m : Z) : Z :=
  Z.lor (Z.lor (if has m EPOLLIN then READ else 0) (if has m EPOLLOUT then WRITE else 0)) (if has m EPOLLHUP then CLOSED else 0).

(* epoll.c 159-188: the events of one batch in order; [cb] is what a callback does, given the callbacks so far.
   A path-watch event is read and handed to a task, and the rest of the batch is dropped (line 174);
   allocation and the read succeed. *)
Fixpoint poll_batch (maxfd : nat) (pollable : nat -> bool) (l : nat) (cb : list edeliv -> nat -> Z -> list eact)
  (batch : list (nat * Z)) (s : ep) : outcome ep :=
  match batch with
  | [] => Ok s
  | (f, m) :: rest =>
    if (f <? maxfd)%nat then
      if Nat.eqb l (tloop s f) && negb (Z.land (tev s f) RW =? 0) then
        if tpath s f then Ok (add_elog s (EPath l f))
        else if revents m =? 0 then poll_batch maxfd pollable l cb rest s
        else
          do s1 <- do_eacts maxfd pollable (add_elog s (ECall l f (revents m))) (cb (elog s) f (revents m));
          poll_batch maxfd pollable l cb rest s1
      else poll_batch maxfd pollable l cb rest (set_kern s (ctl_del (kern s) l f))
    else UB
  end.

(* [batch] is whatever the kernel reported *)
Inductive eop := EAct (a : eact) | EPoll (l : nat) (batch : list (nat * Z)) (cb : list edeliv -> nat -> Z -> list eact).
Definition do_eop maxfd pollable (s : ep) (o : eop) : outcome ep :=
  match o with EAct a => do_eact maxfd pollable s a | EPoll l b cb => poll_batch maxfd pollable l cb b s end.
Fixpoint do_eops maxfd pollable (s : ep) (l : list eop) : outcome ep :=
  match l with [] => Ok s | o :: r => do s1 <- do_eop maxfd pollable s o; do_eops maxfd pollable s1 r end.

(* fresh table: targets zeroed by the allocator (events.c 255-266), no loop watches anything *)
Definition ep_init : ep :=
  {| tloop := fun _ => 0%nat; tev := fun _ => 0; tpath := fun _ => false; kern := fun _ _ => None; active := fun _ => 0; elog := [] |}.

(* events.c 649-657 without shutdown, timers, signals or tasks *)
Definition is_running (s : ep) (l : nat) : bool := 0 <? active s l.
