(* Registering descriptors and dispatching readiness on BSD and macOS: kqueue.c 33-226, with the shared
   part of events.c 538-605 (events_add), 607-641 (events_del), 662-682 (events_set_event) and the
   directory registration of os_unix.c 1108-1130 (kqueue_add_watch).  One loop; timeouts, signals and
   Windows branches are left out (WheelModel.v, SignalModel.v).  assert() is compiled out.
   Filter numbers are those of FreeBSD, OpenBSD and macOS. *)
From Verif Require Import Base DllModel.
Local Open Scope Z_scope.

(* events.h 145-153 *)
Definition READ := 1.
Definition WRITE := 2.
Definition CLOSED := 5.
Definition PATHWATCH := 32768.
Definition ADD := 1073741824.
Definition DEL := 536870912.
Definition RW := 3.
(* sys/event.h *)
Definition F_READ := -1.
Definition F_WRITE := -2.
Definition F_VNODE := -4.

Definition has (e flag : Z) : bool := negb (Z.land e flag =? 0).

(* kqueue.c 35-38.  Shifting -1 left is what gcc and clang make of it (two's complement); the
   unsigned result is stored in an intptr_t, so it is never -1 *)
Definition wrap32 (x : Z) : Z := x mod 2 ^ 32.
Definition int32 (x : Z) : Z := let r := x mod 2 ^ 32 in if r <? 2 ^ 31 then r else r - 2 ^ 32.
Definition BACKEND_BUILD (next_fd events : Z) : Z := wrap32 (Z.lor (Z.shiftl next_fd 8) (Z.land events 255)).
Definition BACKEND_GET_NEXT_FD (b : Z) : Z := Z.shiftr (int32 b) 8.
Definition BACKEND_GET_OLD_EVENTS (b : Z) : Z := Z.land (int32 b) 255.

(* one entry of the change list: EV_ADD|EV_ENABLE or EV_DISABLE of a filter; EV_CLEAR, the mask and
   the data word only matter to path watches and are left out *)
Inductive change := CAdd (f : nat) (flt : Z) | CDisable (f : nat) (flt : Z).

(* what the loop hands on: a callback with its event bits, or a task for a path watch *)
Inductive kdeliv := KCall (f : nat) (rev : Z) | KPath (f : nat).

Record kq := {
  kreg : nat -> bool;              (* target->loop_id is this loop's *)
  kev : nat -> Z;                  (* target->events *)
  kpath : nat -> bool;             (* target->is_pathwatcher *)
  kback : nat -> Z;                (* target->_backend *)
  changed : Z;                     (* loop->changed_fds *)
  kern : nat -> Z -> option bool;  (* the kernel's filters: none, disabled, enabled *)
  opened : nat -> bool;            (* the kernel's descriptors *)
  klog : list kdeliv }.

Definition set_target (s : kq) f r e p :=
  {| kreg := upd (kreg s) f r; kev := upd (kev s) f e; kpath := upd (kpath s) f p; kback := kback s; changed := changed s; kern := kern s; opened := opened s; klog := klog s |}.
Definition set_reg (s : kq) f r :=
  {| kreg := upd (kreg s) f r; kev := kev s; kpath := kpath s; kback := kback s; changed := changed s; kern := kern s; opened := opened s; klog := klog s |}.
Definition set_ev (s : kq) f e :=
  {| kreg := kreg s; kev := upd (kev s) f e; kpath := kpath s; kback := kback s; changed := changed s; kern := kern s; opened := opened s; klog := klog s |}.
Definition set_back (s : kq) f b :=
  {| kreg := kreg s; kev := kev s; kpath := kpath s; kback := upd (kback s) f b; changed := changed s; kern := kern s; opened := opened s; klog := klog s |}.
Definition set_changed (s : kq) c :=
  {| kreg := kreg s; kev := kev s; kpath := kpath s; kback := kback s; changed := c; kern := kern s; opened := opened s; klog := klog s |}.
Definition set_kern (s : kq) k :=
  {| kreg := kreg s; kev := kev s; kpath := kpath s; kback := kback s; changed := changed s; kern := k; opened := opened s; klog := klog s |}.
Definition set_open (s : kq) f b :=
  {| kreg := kreg s; kev := kev s; kpath := kpath s; kback := kback s; changed := changed s; kern := kern s; opened := upd (opened s) f b; klog := klog s |}.
Definition add_log (s : kq) e :=
  {| kreg := kreg s; kev := kev s; kpath := kpath s; kback := kback s; changed := changed s; kern := kern s; opened := opened s; klog := klog s ++ [e] |}.

(* kqueue.c 49-54 *)
Definition filter_of (events : Z) : Z :=
  if has events PATHWATCH then F_VNODE
  else Z.lor (if has events READ || has events CLOSED then F_READ else 0) (if has events WRITE then F_WRITE else 0).

Definition updk (k : nat -> Z -> option bool) (f : nat) (flt : Z) (v : option bool) : nat -> Z -> option bool :=
  fun f' flt' => if Nat.eqb f' f && Z.eqb flt' flt then v else k f' flt'.
(* the kernel on one change: None is an error (EBADF, or ENOENT for disabling what is not there) *)
Definition kchange (op : nat -> bool) (k : nat -> Z -> option bool) (c : change) : option (nat -> Z -> option bool) :=
  match c with
  | CAdd f flt => if op f then Some (updk k f flt (Some true)) else None
  | CDisable f flt => if op f then match k f flt with Some _ => Some (updk k f flt (Some false)) | None => None end else None
  end.
(* kevent(2) without room for events stops at the first error; with room it reports the error and goes on *)
Fixpoint kevent_stop (op : nat -> bool) (k : nat -> Z -> option bool) (l : list change) :=
  match l with [] => k | c :: r => match kchange op k c with Some k' => kevent_stop op k' r | None => k end end.
Fixpoint kevent_all (op : nat -> bool) (k : nat -> Z -> option bool) (l : list change) :=
  match l with [] => k | c :: r => kevent_all op (match kchange op k c with Some k' => k' | None => k end) r end.

(* the change list has 256 entries: a store behind it is UB *)
Definition push_change (cl : list change) (c : change) : outcome (list change) :=
  if (length cl <? 256)%nat then Ok (cl ++ [c]) else UB.

(* kqueue.c 56-79: one descriptor of the changed list *)
Definition apply_one (s : kq) (cl : list change) : outcome (kq * list change) :=
  let f := Z.to_nat (changed s) in
  let old := BACKEND_GET_OLD_EVENTS (kback s f) in
  do r <- (if kev s f =? old then Ok (s, cl)
           else
             do c1 <- (if old =? 0 then Ok cl else push_change cl (CDisable f (filter_of old)));
             do c2 <- (if kev s f =? 0 then Ok c1 else push_change c1 (CAdd f (filter_of (kev s f))));
             Ok (if (256 <=? length c2 + 1)%nat then (set_kern s (kevent_stop (opened s) (kern s) c2), []) else (s, c2)));
  let (s1, cl1) := r in
  Ok (set_back (set_changed s1 (BACKEND_GET_NEXT_FD (kback s1 f))) f (-1), cl1).

(* kqueue.c 48-90 apply_pending_changes *)
Fixpoint apply_loop (fuel : nat) (s : kq) (cl : list change) : outcome (kq * list change) :=
  if changed s =? -1 then Ok (s, cl)
  else match fuel with
       | O => Fuel
       | S k => do r <- apply_one s cl; apply_loop k (fst r) (snd r)
       end.
Definition apply_pending_changes (fuel : nat) (s : kq) (all : bool) : outcome (kq * list change) :=
  do r <- apply_loop fuel s [];
  Ok (if all then (set_kern (fst r) (kevent_stop (opened (fst r)) (kern (fst r)) (snd r)), []) else r).

(* kqueue.c 131-159; always returns 0 *)
Definition update_internal (fuel : nat) (s : kq) (f : nat) (events : Z) : outcome kq :=
  let s1 := if has events ADD then set_back s f (-1) else s in
  if (if events =? DEL then kback s1 f =? -1 else Z.land events RW =? kev s1 f) then Ok s1
  else
    let s2 := if kback s1 f =? -1
              then set_changed (set_back s1 f (BACKEND_BUILD (changed s1) (kev s1 f))) (Z.of_nat f)
              else s1 in
    let s3 := set_ev s2 f (Z.land events RW) in
    if has events DEL then do r <- apply_pending_changes fuel s3 true; Ok (fst r) else Ok s3.

(* events.c 538-605 and os_unix.c 1108-1130; out of range gives -1 and nothing else *)
Definition ev_add (maxfd fuel : nat) (s : kq) (f : nat) (event : Z) : outcome kq :=
  if (f <? maxfd)%nat then update_internal fuel (set_target s f true 0 (event =? PATHWATCH)) f (Z.lor event ADD)
  else Ok s.
(* events.c 607-641; a descriptor of no loop gives -1 *)
Definition ev_del (maxfd fuel : nat) (s : kq) (f : nat) : outcome kq :=
  if (f <? maxfd)%nat then
    if kreg s f then do s1 <- update_internal fuel s f DEL; Ok (set_reg s1 f false) else Ok s
  else UB.
(* events.c 662-682; the changed list of a NULL loop is UB *)
Definition ev_set (maxfd fuel : nat) (s : kq) (f : nat) (event : Z) : outcome kq :=
  if (f <? maxfd)%nat then
    if kev s f =? event then Ok s
    else if kreg s f then update_internal fuel s f event
    else if (if event =? DEL then kback s f =? -1 else Z.land event RW =? kev s f) then Ok s else UB
  else UB.

(* kqueue.c 200-216 *)
Definition revents (flt : Z) (eof : bool) : Z :=
  let r := if flt =? F_READ then READ else if flt =? F_WRITE then WRITE else 0 in
  if eof then Z.land r CLOSED else r.
(* kqueue.c 179-219: one event of a batch without EV_ERROR *)
Definition dispatch (maxfd : nat) (s : kq) (f : nat) (flt : Z) (eof : bool) : outcome kq :=
  if (f <? maxfd)%nat then
    if kreg s f then
      if kpath s f || (flt =? F_VNODE) then Ok (add_log s (KPath f))
      else if negb (Z.land flt (Z.lor F_READ F_WRITE) =? 0) then Ok (add_log s (KCall f (revents flt eof))) else Ok s
    else Ok s
  else UB.

(* A program and its kernel: registrations, the start of a poll (kqueue.c 165-174: pending changes are
   applied and the rest goes in with the wait), the events a poll reports (what a callback does follows
   its event), and the opening and closing of descriptors.  Descriptors opened are new to the kernel. *)
Inductive kop := KAdd (f : nat) (event : Z) | KDel (f : nat) | KSet (f : nat) (event : Z) | KPoll
  | KEvent (f : nat) (flt : Z) (eof : bool) | KOpen (f : nat) | KClose (f : nat).
Definition kstep (maxfd fuel : nat) (s : kq) (o : kop) : outcome kq :=
  match o with
  | KAdd f e => ev_add maxfd fuel s f e
  | KDel f => ev_del maxfd fuel s f
  | KSet f e => ev_set maxfd fuel s f e
  | KPoll => do r <- apply_pending_changes fuel s false;
             Ok (set_kern (fst r) (kevent_all (opened (fst r)) (kern (fst r)) (snd r)))
  | KEvent f flt eof => dispatch maxfd s f flt eof
  | KOpen f => Ok (set_open s f true)
  | KClose f => Ok (set_kern (set_open s f false) (fun f' flt => if Nat.eqb f' f then None else kern s f' flt))
  end.
Fixpoint krun (maxfd fuel : nat) (s : kq) (l : list kop) : outcome kq :=
  match l with [] => Ok s | o :: r => do s1 <- kstep maxfd fuel s o; krun maxfd fuel s1 r end.

(* kqueue.c 92-118, with the target table zeroed at start-up *)
Definition kq_create : kq :=
  {| kreg := fun _ => false; kev := fun _ => 0; kpath := fun _ => false; kback := fun _ => 0; changed := -1;
     kern := fun _ _ => None; opened := fun _ => false; klog := [] |}.
