(* deque.c under concurrency: interleaving of the atomic accesses of any number of threads,
   sequentially consistent.  Indices are unbounded (a size_t that never wraps); a take on bottom = 0,
   where the index wraps, is treated as undefined here and covered by DequeModel. *)
From Verif Require Import Base DequeModel.

(* the heap block behind q->array: buffer (its length is a->size) and whether it is still allocated *)
Record arr := { abuf : list Z; alive : bool }.

(* What a thread is about to do.  P: deque_push (deque.c 102-114), R: deque_resize (44-74),
   T: deque_take (76-100), S: deque_steal (116-132).  Arguments are the local variables. *)
Inductive pc :=
| Idle
| PL (w : Z)                         (* 103: load bottom *)
| PT (w : Z) (b : nat)               (* 104: load top *)
| PA (w : Z) (b t : nat)             (* 105-106: load array, compare b - t with a->size - 1 *)
| RA (w : Z) (b : nat)               (* 45: load array *)
| RT (w : Z) (b a : nat)             (* 53: load top *)
| RB (w : Z) (b a t : nat)           (* 54: load bottom *)
| RC (w : Z) (b a t b2 : nat)        (* 46-51, 55-56: allocate, copy; the new block is private *)
| RS (w : Z) (b a n : nat)           (* 58: store array *)
| RF (w : Z) (b a : nat)             (* 73: free the old block *)
| PR (w : Z) (b : nat)               (* 108: load array again *)
| PS (w : Z) (b a : nat)             (* 111: store into the buffer *)
| PB (w : Z) (b : nat)               (* 113: store bottom *)
| TL                                 (* 77: load bottom *)
| TT (b : nat)                       (* 78: load top *)
| TA (b t : nat)                     (* 79: load array *)
| TS (b t a : nat)                   (* 80: store bottom *)
| TC (b t a : nat)                   (* 83-85: compare, read the buffer *)
| TX (b t : nat) (x : Z)             (* 88: compare-exchange top *)
| TY (b : nat) (x : Z)               (* 92, 96: store bottom *)
| SL                                 (* 117: load top *)
| SB (t : nat)                       (* 119-121: load bottom, compare *)
| SA (t : nat)                       (* 123: load array *)
| SR (t a : nat)                     (* 124: read the buffer *)
| SX (t : nat) (x : Z).              (* 125: compare-exchange top *)

(* observable history: completed pushes, and results of take and steal *)
Inductive event :=
| Pushed (i : nat) (w : Z)
| Got (i : nat) (x : Z)
| SawEmpty (i : nat)
| Aborted (i : nat).

Record st := {
  top : nat; bot : nat; cur : nat;   (* q->top, q->bottom, q->array *)
  arrs : list arr;                   (* all blocks ever allocated *)
  thr : list pc;
  log : list event }.

Definition init (size threads : nat) : st :=
  {| top := 0; bot := 0; cur := 0; arrs := [{| abuf := repeat 0%Z size; alive := true |}];
     thr := repeat Idle threads; log := [] |}.

(* access to a block: undefined when freed *)
Definition get_arr (s : st) (a : nat) : outcome (list Z) :=
  match nth_error (arrs s) a with
  | Some A => if alive A then Ok (abuf A) else UB
  | None => UB
  end.
Definition idx (i size : nat) : outcome nat :=
  if Nat.eqb size 0 then UB else Ok (Nat.modulo i size).

(* deque.c 55-56, [n] rounds left *)
Fixpoint copy (n i : nat) (old new : list Z) : outcome (list Z) :=
  match n with
  | O => Ok new
  | S k =>
    do x <- idx i (length old);
    do v <- rd old x;
    do d <- idx i (length new);
    do new' <- wr new d v;
    copy k (S i) old new'
  end.

Definition go_to (s : st) (i : nat) (p : pc) : st :=
  {| top := top s; bot := bot s; cur := cur s; arrs := arrs s; thr := set_nth i p (thr s); log := log s |}.
Definition finish (s : st) (i : nat) (e : event) : st :=
  {| top := top s; bot := bot s; cur := cur s; arrs := arrs s; thr := set_nth i Idle (thr s); log := log s ++ [e] |}.
Definition set_top (s : st) (t : nat) : st :=
  {| top := t; bot := bot s; cur := cur s; arrs := arrs s; thr := thr s; log := log s |}.
Definition set_bot (s : st) (b : nat) : st :=
  {| top := top s; bot := b; cur := cur s; arrs := arrs s; thr := thr s; log := log s |}.
Definition set_cur (s : st) (a : nat) : st :=
  {| top := top s; bot := bot s; cur := a; arrs := arrs s; thr := thr s; log := log s |}.
Definition set_arrs (s : st) (l : list arr) : st :=
  {| top := top s; bot := bot s; cur := cur s; arrs := l; thr := thr s; log := log s |}.

(* what take and steal report *)
Definition result (i : nat) (x : Z) : event :=
  if (x =? EMPTY)%Z then SawEmpty i else Got i x.

(* one atomic step of thread [i] *)
Definition run_pc (s : st) (i : nat) (p : pc) : outcome st :=
  match p with
  | Idle => Ok s
  | PL w => Ok (go_to s i (PT w (bot s)))
  | PT w b => Ok (go_to s i (PA w b (top s)))
  | PA w b t =>
    do buf <- get_arr s (cur s);
    Ok (go_to s i (if Nat.ltb (length buf) (b - t + 1) then RA w b else PS w b (cur s)))
  | RA w b => Ok (go_to s i (RT w b (cur s)))
  | RT w b a => Ok (go_to s i (RB w b a (top s)))
  | RB w b a t => Ok (go_to s i (RC w b a t (bot s)))
  | RC w b a t b2 =>
    do buf <- get_arr s a;
    do new <- copy (b2 - t) t buf (repeat 0%Z (2 * length buf));
    Ok (go_to (set_arrs s (arrs s ++ [{| abuf := new; alive := true |}])) i (RS w b a (length (arrs s))))
  | RS w b a n => Ok (go_to (set_cur s n) i (RF w b a))
  | RF w b a =>
    do buf <- get_arr s a;
    Ok (go_to (set_arrs s (set_nth a {| abuf := buf; alive := false |} (arrs s))) i (PR w b))
  | PR w b => Ok (go_to s i (PS w b (cur s)))
  | PS w b a =>
    do buf <- get_arr s a;
    do d <- idx b (length buf);
    do buf' <- wr buf d w;
    Ok (go_to (set_arrs s (set_nth a {| abuf := buf'; alive := true |} (arrs s))) i (PB w b))
  | PB w b => Ok (finish (set_bot s (b + 1)) i (Pushed i w))
  | TL => match bot s with O => UB | S b => Ok (go_to s i (TT b)) end
  | TT b => Ok (go_to s i (TA b (top s)))
  | TA b t => Ok (go_to s i (TS b t (cur s)))
  | TS b t a => Ok (go_to (set_bot s b) i (TC b t a))
  | TC b t a =>
    if Nat.leb t b then
      do buf <- get_arr s a;
      do d <- idx b (length buf);
      do x <- rd buf d;
      if Nat.eqb t b then Ok (go_to s i (TX b t x)) else Ok (finish s i (result i x))
    else Ok (go_to s i (TY b EMPTY))
  | TX b t x =>
    if Nat.eqb (top s) t then Ok (go_to (set_top s (t + 1)) i (TY b x))
    else Ok (go_to s i (TY b EMPTY))
  | TY b x => Ok (finish (set_bot s (b + 1)) i (result i x))
  | SL => Ok (go_to s i (SB (top s)))
  | SB t => if Nat.ltb t (bot s) then Ok (go_to s i (SA t)) else Ok (finish s i (SawEmpty i))
  | SA t => Ok (go_to s i (SR t (cur s)))
  | SR t a =>
    do buf <- get_arr s a;
    do d <- idx t (length buf);
    do x <- rd buf d;
    Ok (go_to s i (SX t x))
  | SX t x =>
    if Nat.eqb (top s) t then Ok (finish (set_top s (t + 1)) i (Got i x))
    else Ok (finish s i (Aborted i))
  end.

(* schedule: start an operation on an idle thread, or let a thread take one step; a choice that does
   not apply changes nothing *)
Inductive label := LPush (i : nat) (w : Z) | LTake (i : nat) | LSteal (i : nat) | LRun (i : nat).

Definition start (s : st) (i : nat) (p : pc) : outcome st :=
  match nth_error (thr s) i with Some Idle => Ok (go_to s i p) | _ => Ok s end.

Definition step (s : st) (l : label) : outcome st :=
  match l with
  | LPush i w => start s i (PL w)
  | LTake i => start s i TL
  | LSteal i => start s i SL
  | LRun i => match nth_error (thr s) i with Some p => run_pc s i p | None => Ok s end
  end.

Fixpoint run (s : st) (ls : list label) : outcome st :=
  match ls with
  | [] => Ok s
  | l :: r => do s' <- step s l; run s' r
  end.
