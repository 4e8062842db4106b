(* Dynamic arrays of src/arrays.c and the iteration macros of include/arrays.h. *)
From Verif Require Import Base.

Section Arr.
Variable A : Type.        (* values_t, the 8-byte union stored in a slot *)

(* arrays.h 36-98: only the distinction made by the code below matters. *)
Inductive atype := T_ARRAY | T_TUPLE | T_RANGE | T_INVALID.

(* arrays.c 21-27 array_metadata_t plus the cells that follow it (array_base, line 33).
   [cells] has one entry per slot of capacity; None is memory never written.
   Simplification: capacity is the length of [cells]; the size_t capacity is not wrapped
   (a block of 2^64 bytes cannot be allocated). *)
Record block := mkb { b_type : atype; b_size : nat; b_cells : list (option A) }.

Definition cap (b : block) : nat := length (b_cells b).

(* arrays.c 41-55 array_grow on an existing block: realloc to [count] slots keeps the common
   prefix, leaves new slots uninitialised, sets the capacity only. *)
Definition grow (b : block) (count : nat) : block :=
  mkb (b_type b) (b_size b)
      (firstn count (b_cells b) ++ repeat None (count - cap b)).

(* arrays.c 48-52 array_grow on NULL: malloc, size 0, type DATA_ARRAY. *)
Definition fresh (count : nat) : block := mkb T_ARRAY 0 (repeat None count).

(* arrays.c 57-63, 127-130 data_reserve. *)
Definition reserve (b : block) (n : nat) : block :=
  if Nat.eqb n 0 then b else if Nat.ltb (cap b) n then grow b n else b.

(* arrays.c 132-143 data_remove.  memmove of size-1-i cells down by one; the size is updated
   first, which does not matter for the copied range. *)
Definition memmove_down (l : list (option A)) (i n : nat) : list (option A) :=
  (* memmove(arr+i, arr+i+1, n cells) *)
  firstn i l ++ firstn n (skipn (S i) l) ++ skipn (i + n) l.

Definition remove (b : block) (i : nat) : outcome block :=
  match b_type b with
  | T_TUPLE => Exn
  | _ =>
    if Nat.ltb i (b_size b) then
      if Nat.leb (b_size b) (cap b) then
        Ok (mkb (b_type b) (b_size b - 1) (memmove_down (b_cells b) i (b_size b - 1 - i)))
      else UB
    else Ok b
  end.

(* arrays.c 153-165 data_append (data_append_item 197-232 has the same control flow). *)
Definition append (b : block) (v : A) : outcome block :=
  match b_type b with
  | T_TUPLE => Exn
  | _ =>
    let b1 := if Nat.leb (cap b) (b_size b) then grow b (cap b * 2) else b in
    do c <- wr (b_cells b1) (b_size b1) (Some v);
    Ok (mkb (b_type b1) (S (b_size b1)) c)
  end.

(* Reading a slot: UB outside the block or when the slot was never written. *)
Definition get (b : block) (i : nat) : outcome A :=
  match nth_error (b_cells b) i with
  | Some (Some v) => Ok v
  | _ => UB
  end.

(* arrays.c 167-180 data_pop; None is data_values_empty. *)
Definition pop (b : block) : outcome (block * option A) :=
  match b_type b with
  | T_TUPLE => Exn
  | _ =>
    if Nat.ltb 0 (b_size b) then
      do v <- get b (b_size b - 1);
      do b' <- remove b (b_size b - 1);
      Ok (b', Some v)
    else Ok (b, None)
  end.

(* arrays.c 182-195 data_shift. *)
Definition shift (b : block) : outcome (block * option A) :=
  match b_type b with
  | T_TUPLE => Exn
  | _ =>
    if Nat.ltb 0 (b_size b) then
      do v <- get b 0;
      do b' <- remove b 0;
      Ok (b', Some v)
    else Ok (b, None)
  end.

(* arrays.c 254-263 data_reset. *)
Definition reset (b : block) : outcome block :=
  match b_type b with
  | T_TUPLE => Exn
  | _ => Ok (mkb (b_type b) 0 (b_cells b))
  end.

(* arrays.c 248-252 data_tuple. *)
Definition tuple (b : block) : block := mkb T_TUPLE (b_size b) (b_cells b).

(* Operations used by the theorems. *)
Inductive op := OAppend (v : A) | OPop | OShift | ORemove (i : nat) | OReset | OReserve (n : nat).

Definition step (b : block) (o : op) : outcome (block * option A) :=
  match o with
  | OAppend v => do b' <- append b v; Ok (b', None)
  | OPop => pop b
  | OShift => shift b
  | ORemove i => do b' <- remove b i; Ok (b', None)
  | OReset => do b' <- reset b; Ok (b', None)
  | OReserve n => Ok (reserve b n, None)
  end.

Fixpoint run (b : block) (os : list op) : outcome (block * list (option A)) :=
  match os with
  | [] => Ok (b, [])
  | o :: r =>
    do '(b1, x) <- step b o;
    do '(b2, xs) <- run b1 r;
    Ok (b2, x :: xs)
  end.

(* include/arrays.h 416-421 foreach: an int index re-testing the size before each iteration.
   The body may change the array; it is a function from (block, index, element).
   Fuel bounds the number of iterations. *)
Section Foreach.
Variable S : Type.
Variable body : block -> nat -> A -> S -> outcome (block * S).

Fixpoint foreach (fuel : nat) (b : block) (i : nat) (s : S) : outcome (block * S) :=
  if Nat.ltb i (b_size b) then
    match fuel with
    | O => Fuel
    | Datatypes.S f =>
      do v <- get b i;
      do '(b', s') <- body b i v s;
      foreach f b' (Datatypes.S i) s'
    end
  else Ok (b, s).

(* foreach_back: index from size-1 down to 0, fixed start. *)
Fixpoint foreach_back_from (n : nat) (b : block) (s : S) : outcome (block * S) :=
  match n with
  | O => Ok (b, s)
  | Datatypes.S i =>
    do v <- get b i;
    do '(b', s') <- body b i v s;
    foreach_back_from i b' s'
  end.
Definition foreach_back (b : block) (s : S) := foreach_back_from (b_size b) b s.
End Foreach.

(* arrays.c 234-246 data_copy: append every element of src to a fresh array whose capacity is
   data_queue_size() ([q] slots), then shrink the capacity to the size (array_grow with
   count = size) and take over the type. *)
Fixpoint append_all (b : block) (l : list A) : outcome block :=
  match l with
  | [] => Ok b
  | v :: r => do b' <- append b v; append_all b' r
  end.

Definition elements (b : block) : outcome (list A) :=
  do '(_, r) <- foreach (list A) (fun b _ v acc => Ok (b, acc ++ [v])) (b_size b) b 0 [];
  Ok r.

Definition copy (q : nat) (src : block) : outcome block :=
  do l <- elements src;
  do d <- append_all (fresh q) l;
  let d' := grow d (b_size d) in
  Ok (mkb (b_type src) (b_size d') (b_cells d')).

(* arrays.c 77-89 rangeing with the appends as a list of values, then shrunk. *)
Definition shrink_to_size (b : block) : block := grow b (b_size b).

(* Handle level: arrays.c 153-165 with array_grow on the callee's parameter.  A heap maps
   addresses to live blocks; realloc either keeps the address or moves (oracle [moved]).
   The caller's handle [a] is passed by value and is not updated. *)
Definition heap := list (option block).

Definition hget (h : heap) (a : nat) : outcome block :=
  match nth_error h a with Some (Some b) => Ok b | _ => UB end.

Definition happend (moved : bool) (h : heap) (a : nat) (v : A) : outcome heap :=
  do b <- hget h a;
  match b_type b with
  | T_TUPLE => Exn
  | _ =>
    if Nat.leb (cap b) (b_size b) then
      do b' <- append b v;
      if moved then Ok (set_nth a None h ++ [Some b']) else Ok (set_nth a (Some b') h)
    else
      do b' <- append b v; Ok (set_nth a (Some b') h)
  end.

Fixpoint happends (h : heap) (a : nat) (vs : list (A * bool)) : outcome heap :=
  match vs with
  | [] => Ok h
  | (v, m) :: r => do h' <- happend m h a v; happends h' a r
  end.

End Arr.

Arguments mkb {A} _ _ _.
Arguments b_type {A} _.
Arguments b_size {A} _.
Arguments b_cells {A} _.
Arguments cap {A} _.
Arguments grow {A} _ _.
Arguments fresh {A} _.
Arguments reserve {A} _ _.
Arguments memmove_down {A} _ _ _.
Arguments remove {A} _ _.
Arguments append {A} _ _.
Arguments get {A} _ _.
Arguments pop {A} _.
Arguments shift {A} _.
Arguments reset {A} _.
Arguments tuple {A} _.
Arguments OAppend {A} _.
Arguments OPop {A}.
Arguments OShift {A}.
Arguments ORemove {A} _.
Arguments OReset {A}.
Arguments OReserve {A} _.
Arguments step {A} _ _.
Arguments run {A} _ _.
Arguments foreach {A S} _ _ _ _ _.
Arguments foreach_back_from {A S} _ _ _ _.
Arguments foreach_back {A S} _ _ _.
Arguments append_all {A} _ _.
Arguments elements {A} _.
Arguments copy {A} _ _.
Arguments hget {A} _ _.
Arguments happend {A} _ _ _ _.
Arguments happends {A} _ _ _.
