(* Integer and character ranges of src/arrays.c 77-113. *)
From Verif Require Import Base ArrayModel.

(* C int: results outside 32 bits are undefined. *)
Definition int_ok (x : Z) : bool := ((- 2 ^ 31 <=? x) && (x <? 2 ^ 31))%Z.
Definition int (x : Z) : outcome Z := if int_ok x then Ok x else UB.

(* arrays.c 21-27: sizeof(array_metadata_t) on LP64: type 4 (+4), size 8, capacity 8, a 64-byte
   pad, a one-byte lock, rounded up to 8.  The capacity field ends at byte 24. *)
Definition meta : Z := 96%Z.
Definition capacity_end : Z := 24%Z.

(* What the caller gets: a usable array, or a block cut below the size of its own header
   ([bytes] long, claiming [claimed] slots). *)
Inductive ranged :=
| Whole (b : block Z)
| Cut (bytes claimed : Z).

(* arrays.c 41-55 array_grow with an int count: (count) * sizeof(slot) + sizeof(metadata) is
   computed in size_t.  A count that is not negative is ArrayModel.grow.  Otherwise the product
   wraps; the block is shortened to that many bytes if that is below [meta] and the store of the
   capacity lies inside it; a wrapped size of 0 or of nearly 2^64 bytes makes realloc return
   NULL, through which the capacity is stored. *)
Definition grow_int (b : block Z) (count : Z) : outcome ranged :=
  if (0 <=? count)%Z then Ok (Whole (grow b (Z.to_nat count)))
  else
    let bytes := wrapu 64 (count * 8 + meta) in
    if ((capacity_end <=? bytes) && (bytes <? meta))%Z then Ok (Cut bytes (wrapu 64 count)) else UB.

(* arrays.c 153-165 data_append through a handle that the callee cannot update: if the block is
   full and realloc moves it ([moved]), the handle is stale.  Every caller below uses its handle
   again (at the latest in array_set_type), so that is undefined at once. *)
Definition append_here (moved : bool) (b : block Z) (v : Z) : outcome (block Z) :=
  if Nat.leb (cap b) (b_size b) && moved then UB else append b v.

(* The same on either kind of block: for a cut block the claimed capacity is above the size (0),
   so the slot right after the header is written. *)
Definition append_ranged (moved : bool) (r : ranged) (v : Z) : outcome ranged :=
  match r with
  | Whole b => do b' <- append_here moved b v; Ok (Whole b')
  | Cut bytes _ => if (meta + 8 <=? bytes)%Z then Ok r else UB
  end.

Definition set_range_type (r : ranged) : ranged :=
  match r with
  | Whole b => Whole (mkb T_RANGE (b_size b) (b_cells b))
  | Cut _ _ => r
  end.

(* arrays.c 94-96: for (i = start; i < stop; i++) append(i).  [n] bounds the iterations. *)
Fixpoint range_loop (n : nat) (moved : bool) (r : ranged) (i stop : Z) : outcome ranged :=
  if (i <? stop)%Z then
    match n with
    | O => Fuel
    | S n' =>
      do r' <- append_ranged moved r i;
      do i' <- int (i + 1);
      range_loop n' moved r' i' stop
    end
  else Ok r.

(* arrays.c 91-101 range.  [q] is data_queue_size(), the capacity of array(). *)
Definition range (moved : bool) (q : nat) (start stop : Z) : outcome ranged :=
  do n <- int (stop - start);
  do n1 <- int (n + 1);
  do r <- grow_int (fresh q) n1;
  do r' <- range_loop (S (Z.to_nat (stop - start))) moved r start stop;
  Ok (set_range_type r').

(* arrays.c 103-113 range_char: *text is a (signed) char converted to uintptr_t. *)
Definition char_word (c : Z) : Z := wrapu 64 (wraps 8 c).
Fixpoint char_loop (moved : bool) (b : block Z) (text : list Z) : outcome (block Z) :=
  match text with
  | [] => Ok b
  | c :: t => do b' <- append_here moved b (char_word c); char_loop moved b' t
  end.
Definition range_char (moved : bool) (q : nat) (text : list Z) : outcome (block Z) :=
  do b <- char_loop moved (grow (fresh q) (length text + 1)) text;
  Ok (mkb T_RANGE (b_size b) (b_cells b)).

(* arrays.c 77-89 rangeing.  The appends go through the handle held in the local variable, which
   data_append cannot update (ArrayModel.happend); [mv] says for each append whether a growth at
   that point would move the block.  Afterwards array_length reads through the handle and the
   capacity is cut to the size. *)
Fixpoint rangeing_loop (n : nat) (mv : nat -> bool) (h : heap Z) (k : nat) (i stop steps : Z)
  : outcome (heap Z) :=
  if (i <? stop)%Z then
    match n with
    | O => Fuel
    | S n' =>
      do h' <- happend (mv k) h 0 i;
      do i' <- int (i + steps);
      rangeing_loop n' mv h' (S k) i' stop steps
    end
  else Ok h.

Definition rangeing (n q : nat) (mv : nat -> bool) (start stop steps : Z) : outcome (block Z) :=
  do _ <- int (stop - start);
  do h <- rangeing_loop n mv [Some (fresh q)] 0 start stop steps;
  do b <- hget h 0;
  let b' := shrink_to_size Z b in
  Ok (mkb T_RANGE (b_size b') (b_cells b')).
