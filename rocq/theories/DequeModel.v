(* deque.c: the task queue of a pool thread, used by a single thread. *)
From Verif Require Import Base.

(* deque.c 3: the two sentinel pointers 0x300 and 0x400; tasks are arbitrary pointer values. *)
Definition EMPTY : Z := 768%Z.
Definition ABORT : Z := 1024%Z.

(* events_internal.h 150-170: top, bottom (size_t) and the buffer; a->size is the length of the
   buffer.  The counters unrelated to the queue order are left out. *)
Record deque := { dtop : Z; dbot : Z; dbuf : list Z }.

(* deque.c 23-42 deque_init: calloc'd buffer of size_hint pointers *)
Definition deque_init (size_hint : nat) : deque :=
  {| dtop := 0; dbot := 0; dbuf := repeat 0%Z size_hint |}.

(* i % size: dividing by zero is undefined *)
Definition slot (i : Z) (size : nat) : outcome nat :=
  if Nat.eqb size 0 then UB else Ok (Z.to_nat (i mod Z.of_nat size)).

(* deque.c 55-56: for (i = t; i < b; i++) new[i % new_size] = a[i % old_size], [n] rounds left *)
Fixpoint copy_loop (n : nat) (i : Z) (old new : list Z) : outcome (list Z) :=
  match n with
  | O => Ok new
  | S k =>
    do s <- slot i (length old);
    do v <- rd old s;
    do d <- slot i (length new);
    do new' <- wr new d v;
    copy_loop k (wrapu 64 (i + 1)) old new'
  end.

(* deque.c 44-74 deque_resize; the allocator does not fail and 2 * old_size does not wrap.
   The old buffer is freed at once, which a single thread cannot notice. *)
Definition deque_resize (q : deque) : outcome deque :=
  do new <- copy_loop (Z.to_nat (dbot q - dtop q)) (dtop q) (dbuf q) (repeat 0%Z (2 * length (dbuf q)));
  Ok {| dtop := dtop q; dbot := dbot q; dbuf := new |}.

(* deque.c 102-114 deque_push; b - t > a->size - 1 is size_t arithmetic *)
Definition deque_push (q : deque) (w : Z) : outcome deque :=
  do q1 <- (if (wrapu 64 (Z.of_nat (length (dbuf q)) - 1) <? wrapu 64 (dbot q - dtop q))%Z
            then deque_resize q else Ok q);
  do s <- slot (dbot q) (length (dbuf q1));
  do buf <- wr (dbuf q1) s w;
  Ok {| dtop := dtop q1; dbot := wrapu 64 (dbot q + 1); dbuf := buf |}.

(* deque.c 76-100 deque_take; without other threads the compare-exchange succeeds *)
Definition deque_take (q : deque) : outcome (Z * deque) :=
  let b := wrapu 64 (dbot q - 1) in
  let t := dtop q in
  if (t <=? b)%Z then
    do s <- slot b (length (dbuf q));
    do x <- rd (dbuf q) s;
    if (t =? b)%Z then
      Ok (x, {| dtop := wrapu 64 (t + 1); dbot := wrapu 64 (b + 1); dbuf := dbuf q |})
    else Ok (x, {| dtop := t; dbot := b; dbuf := dbuf q |})
  else Ok (EMPTY, {| dtop := t; dbot := wrapu 64 (b + 1); dbuf := dbuf q |}).

(* deque.c 116-132 deque_steal; without other threads the compare-exchange succeeds *)
Definition deque_steal (q : deque) : outcome (Z * deque) :=
  let t := dtop q in
  let b := dbot q in
  if (t <? b)%Z then
    do s <- slot t (length (dbuf q));
    do x <- rd (dbuf q) s;
    Ok (x, {| dtop := wrapu 64 (t + 1); dbot := b; dbuf := dbuf q |})
  else Ok (EMPTY, q).

(* deque.c 176-182 deque_peek: index is an int compared with the size_t size *)
Definition deque_peek (q : deque) (index : Z) : outcome Z :=
  if (wrapu 64 index <=? Z.of_nat (length (dbuf q)))%Z then
    (* index % a->size converts the int to size_t *)
    do s <- slot (wrapu 64 index) (length (dbuf q));
    rd (dbuf q) s
  else Ok 0%Z.

Inductive dop := DPush (w : Z) | DTake | DSteal.

Definition dstep (q : deque) (o : dop) : outcome (deque * list Z) :=
  match o with
  | DPush w => do q' <- deque_push q w; Ok (q', [])
  | DTake => do r <- deque_take q; Ok (snd r, [fst r])
  | DSteal => do r <- deque_steal q; Ok (snd r, [fst r])
  end.

(* outputs of take and steal in order *)
Fixpoint drun (q : deque) (ops : list dop) : outcome (deque * list Z) :=
  match ops with
  | [] => Ok (q, [])
  | o :: r =>
    do a <- dstep q o;
    do b <- drun (fst a) r;
    Ok (fst b, snd a ++ snd b)
  end.

(* events.c 2446-2479 task_take, on the queue of the calling thread: [available] is the counter
   kept beside the queue, the result is (tasks appended to the run queue, queue, counter).
   ABORT cannot occur without a competing thread. *)
Fixpoint take_loop (n : nat) (q : deque) (avail : Z) (taken : list Z) : outcome (list Z * deque * Z) :=
  match n with
  | O => Ok (taken, q, avail)
  | S k =>
    do r <- deque_steal q;
    if (fst r =? EMPTY)%Z then Ok (taken, snd r, avail)
    else take_loop k (snd r) (avail - 1)%Z (taken ++ [fst r])
  end.
Definition task_take (q : deque) (avail : Z) : outcome (list Z * deque * Z) :=
  take_loop (Z.to_nat avail) q avail [].

(* events.c 2481-2488 enqueue_tasks *)
Definition enqueue_tasks (q : deque) (avail : Z) (t : Z) : outcome (deque * Z) :=
  do q' <- deque_push q t; Ok (q', avail + 1)%Z.
