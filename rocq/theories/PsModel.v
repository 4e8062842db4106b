(* Setting up the threads of the library and ending them: events.c 196-215 (events_start), 217-294 (events_init),
   296-303 (events_deinit), 740-769 (events_init_loop_internal), 1801-1817 (accept_handler), 2048-2062 (go), 2508-2565
   (__tasks_pool_wrapper), 2567-2715 (events_init_pool, events_create_pool, __future_wrapper, events_create_future);
   epoll.c 49-92 (events_create, events_destroy); deque.c 23-42, 134-173 (deque_init, deque_free, deque_destroy);
   future.c 85-88 (futures_pool), 228-240 (thrd_pool_shutdown).
   The calls are made by the main thread.  What may fail (allocations, the kernel's poller, starting a thread) is asked of an
   oracle, one question after the other.  The arrays of thread numbers grow without failing; pointers of the heap
   pass is_ptr_usable; fewer than 2^31 cores and loops, so int and size_t agree. *)
From Verif Require Import Base.

(* a loop: its number, and whether its memory is still there *)
Record lobj := { lid : nat; lalive : bool }.
(* what the field [thread] of a queue holds: nothing was written (malloc), OS_NULL, a thread that runs *)
Inductive thr := TUnset | TNull | TRun.
(* whose queue: the main thread's, one without an owner yet, of a future, of a thread of tasks *)
Inductive own := QMain | QBare | QFuture | QTasks.
Record que := { qown : own; qthr : thr; qloop : nat }.
(* loops: all loops ever made, a handle is the place in this list; numl: sys_event.num_loops; local: the table of
   queues; fidx/tidx: future_cpu_idx/tasks_cpu_idx, [] also for the NULL array; mloop/mpool: __thrd()->loop/pool of
   the main thread, a future is named by its place in the table; tick: questions asked so far *)
Record st := mk { loops : list lobj; numl : nat; local : list (option que); fidx : list nat; tidx : list nat;
                  mloop : option nat; mpool : option nat; tick : nat }.
Definition with_local s l := mk (loops s) (numl s) l (fidx s) (tidx s) (mloop s) (mpool s) (tick s).
Definition with_fidx s f := mk (loops s) (numl s) (local s) f (tidx s) (mloop s) (mpool s) (tick s).
Definition with_tidx s t := mk (loops s) (numl s) (local s) (fidx s) t (mloop s) (mpool s) (tick s).
Definition with_mloop s m := mk (loops s) (numl s) (local s) (fidx s) (tidx s) m (mpool s) (tick s).
Definition with_mpool s p := mk (loops s) (numl s) (local s) (fidx s) (tidx s) (mloop s) p (tick s).
Definition with_loops s l n := mk l n (local s) (fidx s) (tidx s) (mloop s) (mpool s) (tick s).

(* events_init 280-293: a table of cores + 1 places, the first with the main thread's queue *)
Definition init (cores : nat) : st :=
  mk [] 0 (Some {| qown := QMain; qthr := TUnset; qloop := 0 |} :: repeat None cores) [] [] None None 0.

(* reading a loop through its handle: NULL and freed memory are undefined *)
Definition loop_at (s : st) (h : option nat) : outcome nat :=
  match h with
  | None => UB
  | Some k => do o <- rd (loops s) k; if lalive o then Ok (lid o) else UB
  end.
Definition free_loop (s : st) (k : nat) : outcome st :=
  do o <- rd (loops s) k; do l <- wr (loops s) k {| lid := lid o; lalive := false |}; Ok (with_loops s l (numl s)).

Section Setup.
Variable cores : nat.
Variable ok : nat -> bool.

Definition ask (s : st) : bool * st :=
  (ok (tick s), mk (loops s) (numl s) (local s) (fidx s) (tidx s) (mloop s) (mpool s) (S (tick s))).
Definition handle (h : option nat) : nat := match h with Some k => k | None => 0 end.

(* 2597-2607 and 2677-2689: the queue, its array (deque_init aborts without memory), the owner's record, the thread.
   The answer: whether the thread runs. *)
Definition start (s : st) (i : nat) (h : nat) (o : own) : outcome (st * bool) :=
  let (a, s) := ask s in
  if a then
    let (b, s) := ask s in
    if b then
      do l <- wr (local s) i (Some {| qown := QBare; qthr := TUnset; qloop := h |});
      let s := with_local s l in
      let (c, s) := ask s in
      if c then
        let (d, s) := ask s in
        do l <- wr (local s) i (Some {| qown := o; qthr := if d then TRun else TNull; qloop := h |});
        Ok (with_local s l, d)
      else Ok (s, false)
    else Exn
  else Ok (s, false).

(* 2671-2715 events_create_future: the answer is the future, the caller's own one if none was made *)
Definition create_future (s : st) (h : option nat) : outcome (st * option nat) :=
  do i <- loop_at s h;
  do r <- (if i <=? cores then
             do q <- rd (local s) i;
             match q with
             | None => do r <- start s i (handle h) QFuture;
                       let (s, d) := r : st * bool in
                       if d then Ok (with_fidx s (fidx s ++ [i]), Some i) else Ok (s, None)
             | Some _ => Ok (s, None)
             end
           else Ok (s, None));
  let (s, f) := r : st * option nat in
  match f with None => Ok (s, mpool s) | Some i => Ok (s, Some i) end.

(* 2589-2623 events_create_pool: true for 0, false for -1 *)
Definition create_pool (s : st) (h : option nat) : outcome (st * bool) :=
  do i <- loop_at s h;
  do free <- (if i <=? cores then do q <- rd (local s) i; Ok (match q with None => true | Some _ => false end) else Ok false);
  if free then
    do r <- start s i (handle h) QTasks;
    let (s, d) := r : st * bool in
    if d then Ok (with_tidx s (tidx s ++ [i]), true) else Ok (s, false)
  else
    do q <- rd (local s) i;
    match q with Some _ => Ok (s, true) | None => Ok (s, false) end.

(* epoll.c 49-79 with events.c 740-769; None for NULL *)
Definition create (s : st) : outcome (st * option nat) :=
  let (a, s) := ask s in
  if a then
    let (b, s) := ask s in
    if b then
      let h := length (loops s) in
      let n := numl s + 1 in
      let s := with_loops s (loops s ++ [{| lid := n; lalive := true |}]) n in
      let s := match mloop s with None => with_mloop s (Some h) | Some _ => s end in
      do s <- (match mpool s with
               | None => do r <- create_future s (Some h); Ok (with_mpool (fst r) (snd r))
               | Some _ => Ok s
               end);
      let (c, s) := ask s in
      if c then Ok (s, Some h) else do s <- free_loop s h; Ok (s, None)
    else Ok (s, None)
  else Ok (s, None).

(* 2579 and 2584, that many times *)
Fixpoint futures (n : nat) (s : st) : outcome st :=
  match n with
  | 0 => Ok s
  | S k => do r <- create s; do r2 <- create_future (fst r) (snd r); futures k (fst r2)
  end.
Fixpoint pools (n : nat) (s : st) : outcome st :=
  match n with
  | 0 => Ok s
  | S k => do r <- create s; do r2 <- create_pool (fst r) (snd r); pools k (fst r2)
  end.
(* 2567-2587 events_init_pool; a negative number of turns is none *)
Definition init_pool (s : st) (count : nat) : outcome (st * option nat) :=
  do s <- (match mloop s with
           | None => do r <- create s; do r2 <- create_future (fst r) (snd r); Ok (fst r2)
           | Some _ => Ok s
           end);
  let i := length (fidx s) in
  let x := if cores <=? count then cores - i else count - i in
  do s <- (if 0 <? count then futures x s else Ok s);
  do s <- pools (cores - length (fidx s)) s;
  Ok (s, mloop s).

(* epoll.c 81-92 events_destroy, the close succeeding: 0 is true *)
Definition destroy (s : st) (h : option nat) : outcome (st * bool) :=
  let s := with_mloop s None in
  match h with
  | None => Ok (s, false)
  | Some k => do i <- loop_at s h; do s <- free_loop s k; Ok (s, true)
  end.

(* 2048-2062 go with 1778: the counter's value c; the place of the thread that is woken.  Exn: panic. *)
Definition go (s : st) (c : nat) : outcome nat :=
  match tidx s with
  | [] => Exn
  | _ => do i <- rd (tidx s) (c mod length (tidx s)); do q <- rd (local s) i; match q with Some _ => Ok i | None => UB end
  end.
(* future.c 85-88: an empty or missing array is a division by 0 *)
Definition futures_pool (s : st) (c : nat) : outcome nat :=
  match fidx s with
  | [] => UB
  | _ => do i <- rd (fidx s) (c mod length (fidx s)); do q <- rd (local s) i; match q with Some _ => Ok i | None => UB end
  end.
(* 1801-1817 accept_handler (also async_uds.c 76-77, async_tls.c 1085-1086): the place of the thread the connection
   is given to, None for a task of the caller's own thread *)
Definition accept (s : st) (c : nat) : outcome (st * option nat) :=
  do r <- (match tidx s with
           | [] => do r <- create s; create_pool (fst r) (snd r)
           | _ => Ok (s, true)
           end);
  let (s, good) := r : st * bool in
  if good then
    match tidx s with
    | [] => UB
    | _ => do i <- rd (tidx s) (c mod length (tidx s)); do q <- rd (local s) i; match q with Some _ => Ok (s, Some i) | None => UB end
    end
  else Ok (s, None).

(* what the main thread may do *)
Inductive op := OCreate | OFuture (h : option nat) | OPool (h : option nat) | OInit (count : nat) | ODestroy (h : option nat)
              | OAccept (c : nat).
Definition step (s : st) (o : op) : outcome st :=
  match o with
  | OCreate => do r <- create s; Ok (fst r)
  | OFuture h => do r <- create_future s h; Ok (fst r)
  | OPool h => do r <- create_pool s h; Ok (fst r)
  | OInit n => do r <- init_pool s n; Ok (fst r)
  | ODestroy h => do r <- destroy s h; Ok (fst r)
  | OAccept c => do r <- accept s c; Ok (fst r)
  end.
Fixpoint run (s : st) (l : list op) : outcome st :=
  match l with [] => Ok s | o :: k => do s <- step s o; run s k end.
End Setup.

(* future.c 228-240 thrd_pool_shutdown: the places told to stop *)
Fixpoint tell (n i : nat) (l : list (option que)) : outcome (list nat) :=
  match n with
  | 0 => Ok []
  | S k => do q <- rd l i; do r <- tell k (S i) l; Ok (match q with Some _ => i :: r | None => r end)
  end.
Definition shutdown (s : st) : outcome (list nat) := tell (S (numl s)) 0 (local s).

(* deque.c 148-173.  Joining waits for the thread, which destroys the loop of its queue (events.c 2543 and 2659);
   joining no thread is undefined.  The places joined. *)
Fixpoint join (n i : nat) (s : st) : outcome (st * list nat) :=
  match n with
  | 0 => Ok (s, [])
  | S k =>
    do q <- rd (local s) i;
    match q with
    | None => join k (S i) s
    | Some q =>
      match qthr q with
      | TRun => do x <- loop_at s (Some (qloop q)); do s <- free_loop s (qloop q);
                do l <- wr (local s) i None; do r <- join k (S i) (with_local s l); Ok (fst r, i :: snd r)
      | _ => UB
      end
    end
  end.
Definition deinit (cores : nat) (s : st) : outcome (st * list nat) :=
  do r <- join cores 1 s; do l <- wr (local (fst r)) 0 None; Ok (with_local (fst r) l, snd r).
