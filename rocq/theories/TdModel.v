(* Arrays given back by functions that run in threads and in the pool: future.c 42-57 (promise_set), 94-118 (_thrd_wrapper),
   125-136 (thrd_async), 178-199 (thrd_data, the macros $ and $$), 338-385 (queue_work); events.c 2625-2655 (__future_wrapper),
   1868-1891 (defer_free), 1893-1950 (deferred), 1957-1968 (active_task); except.c 998-1087 (scope_init, get_scope, scope_unwind),
   1089-1103 (scope_deferred); arrays.c 145-164 (data_delete, data_append), 234-302 (data_copy, data_reset, data_ex, arrays).
   Native thread-local storage.  The function uses arguments, makes arrays, defers functions and returns; it does not throw, and
   uses no guard of its own.  Words other than arrays are integers that are not taken for addresses (C132); 0 is NULL.  Memory
   does not run out, an array counts as released when its block is given back. *)
From Coq Require Import ZArith List Bool Arith.
From Verif Require Import Base.
Import ListNotations.

(* size: what $size tells; cells: the cells stored to, some of them beyond the size after data_reset *)
Record arr := mkA { alive : bool; size : nat; cells : list Z }.
Inductive word := Int (z : Z) | Arr (i : nat).

(* what the function does *)
Inductive op :=
| Data (xs : list Z)       (* thrd_data: $ or $$ *)
| New (xs : list Z)        (* arrays(count, ...) *)
| Arg (i : nat)            (* reads args[i] *)
| Defer (f : nat).
(* what it returns: an integer, what its v-th call of Data or New gave, its arguments *)
Inductive ret := RInt (z : Z) | RVar (v : nat) | RArgs.
(* what the promise holds: as before, a word, a copied array *)
Inductive got := Kept | Word (z : Z) | Tuple (l : list Z).

Record st := mkS {
  heap : list arr;
  scope : bool;            (* scope_local() of the thread is set *)
  local : option nat;      (* its field local *)
  pend : list nat;         (* deferred functions that have not run, latest first *)
  seen : list Z;           (* what was read of the arguments *)
  ran : list nat }.        (* deferred functions that ran *)

Section Arrays.
Variable cap : nat.        (* data_queue_size(), the capacity of a new array *)
Variable moves : bool.     (* growing an array moves it *)

(* an array with the capacity cap, whose address is kept: past the first growth the address is stale (C03), and it is used by
   the next append *)
Definition fill (n : nat) : outcome bool :=
  if negb moves || (n <=? cap) then Ok true else if n =? S cap then Ok false else UB.
Definition stale (n : nat) : bool := moves && (cap <? n).

Definition alloc (h : list arr) (a : arr) : list arr * nat := (h ++ [a], length h).

(* arrays.c 270-284 *)
Definition data_ex (h : list arr) (xs : list Z) : outcome (list arr * word) :=
  match xs with
  | [] => Ok (h, Int 0)
  | _ => do ok <- fill (length xs);
         let (h1, i) := alloc h (mkA ok (length xs) xs) in Ok (h1, Arr i)
  end.

(* future.c 178-199 *)
Definition thrd_data (s : st) (xs : list Z) : outcome (st * word) :=
  match local s with
  | None => do r <- data_ex (heap s) xs;
            Ok (mkS (fst r) true None (pend s) (seen s) (ran s), snd r)
  | Some a =>
      do x <- rd (heap s) a;
      if alive x then
        do ok <- fill (length xs);
        do h <- wr (heap s) a (mkA ok (length xs) (xs ++ skipn (length xs) (cells x)));
        Ok (mkS h true (Some a) (pend s) (seen s) (ran s), Arr a)
      else UB
  end.

(* arrays.c 286-302 *)
Definition arrays (s : st) (xs : list Z) : st * word :=
  let (h, i) := alloc (heap s) (mkA true (length xs) xs) in
  (mkS h (scope s) (local s) (pend s) (seen s) (ran s), Arr i).

Definition read (s : st) (args : word) (i : nat) : outcome st :=
  match args with
  | Int _ => UB
  | Arr a => do x <- rd (heap s) a;
             if alive x then
               do z <- rd (cells x) i;
               Ok (mkS (heap s) (scope s) (local s) (pend s) (seen s ++ [z]) (ran s))
             else UB
  end.

(* In a thread of its own (base: 1 if the arguments are on the list of its guard) the list is that of the guard's scope; in the
   pool tasks_is_active holds as __thrd() was called, and the list is the garbage of a task that is none. *)
Definition defer (base : nat) (s : st) (f : nat) : outcome st :=
  if stale (base + length (pend s)) then UB
  else Ok (mkS (heap s) true (local s) (f :: pend s) (seen s) (ran s)).

Fixpoint body (base : nat) (args : word) (l : list op) (env : list word) (s : st) : outcome (list word * st) :=
  match l with
  | [] => Ok (env, s)
  | Data xs :: r => do x <- thrd_data s xs; body base args r (env ++ [snd x]) (fst x)
  | New xs :: r => let (s1, w) := arrays s xs in body base args r (env ++ [w]) s1
  | Arg i :: r => do s1 <- read s args i; body base args r env s1
  | Defer f :: r => do s1 <- defer base s f; body base args r env s1
  end.

Definition value (args : word) (env : list word) (r : ret) : word :=
  match r with RInt z => Int z | RVar v => nth v env (Int 0) | RArgs => args end.

(* future.c 42-57 *)
Definition promise_set (s : st) (w : word) : outcome got :=
  match w with
  | Int z => Ok (if (z =? 0)%Z then Kept else Word z)
  | Arr i => do x <- rd (heap s) i;
             if alive x then Ok (Tuple (firstn (size x) (cells x))) else UB
  end.

(* arrays.c 145-151 *)
Definition delete (s : st) (w : word) : outcome st :=
  match w with
  | Int _ => Ok s
  | Arr i => do x <- rd (heap s) i;
             if alive x then
               do h <- wr (heap s) i (mkA false (size x) (cells x));
               Ok (mkS h (scope s) (local s) (pend s) (seen s) (ran s))
             else UB
  end.

(* future.c 94-118 with 125-136: scope_init()->local is set, the arguments are first on the guard's list *)
Definition thread (h : list arr) (args : list Z) (l : list op) (r : ret) : outcome (got * st) :=
  do x <- data_ex h args;
  let (h1, w) := x in
  let base := match w with Arr _ => 1 | Int _ => 0 end in
  let s := mkS h1 true (match w with Arr a => Some a | Int _ => None end) [] [] [] in
  do y <- body base w l [] s;
  let (env, s1) := y in
  do g <- promise_set s1 (value w env r);
  if stale (base + length (pend s1)) then UB
  else do s2 <- delete s1 w;
       Ok (g, mkS (heap s2) true (local s2) [] (seen s2) (ran s2 ++ pend s2)).

(* events.c 2637-2653: one job of the pool *)
Definition job (s : st) (args : list Z) (l : list op) (r : ret) : outcome (option got * st) :=
  do x <- data_ex (heap s) args;
  let (h1, w) := x in
  match w with
  | Int _ => Ok (None, s)                                     (* queue_work gives NULL *)
  | Arr a =>
      do y <- body 0 w l [] (mkS h1 (scope s) (local s) (pend s) (seen s) (ran s));
      let (env, s1) := y in
      let v := value w env r in
      do g <- promise_set s1 v;
      do s2 <- delete s1 w;                                   (* 2648 *)
      match v with
      | Int _ => Ok (Some g, s2)
      | Arr i =>
          do x <- rd (heap s2) i;
          if alive x then                                     (* 2649: is_data, then scope_local()->local *)
            if scope s2 then
              match local s2 with
              | None => do s3 <- delete s2 v; Ok (Some g, s3)
              | Some _ => Ok (Some g, s2)
              end
            else UB
          else UB
      end
  end.

(* a worker of the pool, one job after the other *)
Fixpoint jobs (s : st) (l : list (list Z * list op * ret)) : outcome (list (option got) * st) :=
  match l with
  | [] => Ok ([], s)
  | (args, b, r) :: t => do x <- job s args b r; do y <- jobs (snd x) t; Ok (fst x :: fst y, snd y)
  end.

Definition fresh : st := mkS [] false None [] [] [].
End Arrays.
