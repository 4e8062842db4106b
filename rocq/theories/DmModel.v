(* Memory that is released when its task or scope ends: events.c 1868-1891 (defer_free), 1893-1950 (deferred), 1101-1125
   (deferred_unwind; scope_unwind, except.c 1043-1073, has the same loop), arrays.c 29-41 and 145-151 (array blocks, data_delete),
   321-336 (data_type, is_data, is_ptr_usable), 366-391 (str_trim, str_dup), 951-967 (mem_printf), 893-945 (vasprintf on
   Windows), arrays.h 37-93 (the numbers of the types), 149-162 (data_object_t, defer_t), rpmalloc.c 2937-2949 (rpfree).
   Memory is one row of bytes, least significant byte first, pointers of 64 bits.  Where the n-th block begins is the argument
   [place], what the allocator writes into the first 8 bytes of a block it gets back is [link], the head of a span that rpfree
   looks at is [head] (None: nothing is mapped there).  M is the size of an array's head.  Allocation does not fail.  Reading
   outside of a block gives what stands there.  The functions called do nothing to this memory (those that defer: DeferModel). *)
From Coq Require Import ZArith List Bool.
From Verif Require Import Base.
Import ListNotations.
Open Scope Z_scope.

Definition upd (m : Z -> Z) (a v : Z) : Z -> Z := fun x => if x =? a then v else m x.

(* a number of n bytes *)
Fixpoint val (m : Z -> Z) (a : Z) (n : nat) : Z :=
  match n with O => 0 | S k => m a + 256 * val m (a + 1) k end.
Fixpoint put (m : Z -> Z) (a : Z) (n : nat) (v : Z) : Z -> Z :=
  match n with O => m | S k => put (upd m a (v mod 256)) (a + 1) k (v / 256) end.
(* memcpy *)
Fixpoint fill (m : Z -> Z) (a : Z) (l : list Z) : Z -> Z :=
  match l with [] => m | b :: r => fill (upd m a b) (a + 1) r end.

(* a function called with an argument; a block given back to the allocator *)
Inductive event := Call (f x : Z) | Free (a : Z).

(* live: blocks of the library's allocator; sys: blocks of the C library's; gar: what is released at the end *)
Record st := mkSt { mem : Z -> Z; live : list Z; sys : list Z; gar : list Z; cnt : nat; out : list event }.

Definition init (m : Z -> Z) : st := mkSt m [] [] [] 0 [].

Fixpoint drop (a : Z) (l : list Z) : list Z :=
  match l with [] => [] | x :: r => if x =? a then r else x :: drop a r end.
Definition has (a : Z) (l : list Z) : bool := existsb (Z.eqb a) l.

(* rpfree: the head of the span decides; other addresses than those of blocks are undefined *)
Definition free (link : Z -> Z) (head : Z -> option Z) (s : st) (a : Z) : outcome st :=
  if has a (live s) then Ok (mkSt (put (mem s) a 8 (link a)) (drop a (live s)) (sys s) (gar s) (cnt s) (out s ++ [Free a]))
  else if has a (sys s) then
    match head (a / 65536 * 65536) with
    | None => UB
    | Some h => if (h =? 0) || (h =? 2 ^ 63 - 1) then Ok s else UB                                    (* 2939 *)
    end
  else UB.

(* arrays.c 334 *)
Definition usable (a : Z) : bool := 536870912 <? a.
(* arrays.c 325: DATA_ARRAY, DATA_RANGE, DATA_RANGE_CHAR, DATA_TUPLE at the place of an array's head *)
Definition is_data (M : Z) (m : Z -> Z) (a : Z) : bool :=
  usable a && (let t := val m (a - M) 4 in (t =? 31) || (t =? 33) || (t =? 34) || (t =? 32)).

Definition call (s : st) (f x : Z) : st := mkSt (mem s) (live s) (sys s) (gar s) (cnt s) (out s ++ [Call f x]).
Definition poke (s : st) (a : Z) : st := mkSt (put (mem s) a 4 4294967295) (live s) (sys s) (gar s) (cnt s) (out s).

(* one turn of the loop, 1104-1120 *)
Definition release (link : Z -> Z) (head : Z -> option Z) (M : Z) (s : st) (a : Z) : outcome st :=
  if usable a then
    let t := val (mem s) a 4 in
    if is_data M (mem s) a then free link head (poke s (a - M)) (a - M)                                (* data_delete *)
    else if t =? 37 then                                                                              (* DATA_DEFER *)
      let s1 := poke s a in
      let s2 := if val (mem s1) (a + 4) 4 =? 0 then call s1 (val (mem s1) (a + 32) 8) (val (mem s1) (a + 8) 8)
                else call s1 (val (mem s1) (a + 24) 8) (val (mem s1) (a + 16) 8) in
      free link head s2 a
    else if (t =? 21) || (t =? 35) || (t =? 36) then Ok (call s (val (mem s) (a + 16) 8) a)            (* DATA_OBJ, _HASHTABLE, _MAP *)
    else free link head s a
  else Ok s.

Fixpoint release_all (link : Z -> Z) (head : Z -> option Z) (M : Z) (s : st) (l : list Z) : outcome st :=
  match l with [] => Ok s | a :: r => do s' <- release link head M s a; release_all link head M s' r end.

(* foreach_back *)
Definition finish (link : Z -> Z) (head : Z -> option Z) (M : Z) (s : st) : outcome st :=
  release_all link head M s (rev (gar s)).

(* ---- what a task does ---- *)
Inductive op :=
| Text (t : list Z)                    (* str_trim, str_dup: a copy of these bytes *)
| Printf (t : list Z)                  (* mem_printf with this result *)
| Func (f d : Z)                       (* deferred with a pointer *)
| Value (f v : Z)                      (* deferred with a number *)
| Array (ty : Z) (c : list Z)          (* an array, tuple or range given to defer_free *)
| Object (ty dtor : Z).                (* data_object_t given to defer_free *)

Definition block (s : st) (a : Z) (m : Z -> Z) (ours defer : bool) (p : Z) : st :=
  mkSt m (if ours then live s ++ [a] else live s) (if ours then sys s else sys s ++ [a])
       (if defer then gar s ++ [p] else gar s) (S (cnt s)) (out s).

(* _mem_align_up(len + 1, 2) zero bytes, then the text *)
Definition calloc (m : Z -> Z) (a : Z) (len : nat) : Z -> Z := fill m a (repeat 0 (if Nat.even (len + 1) then len + 1 else len + 2)).

(* mem_printf(&c, ...): what it returns, *c, and the state; own: vasprintf takes its block from the library's allocator *)
Definition mem_printf (own : bool) (s : st) (a : Z) (c : Z) (t : list Z) : option Z * Z * st :=
  let m := fill (mem s) a (t ++ [0]) in
  match t with
  | [] => (None, c, block s a m own false a)
  | _ => (Some a, Z.of_nat (length t), block s a m own true a)
  end.

Definition step (own : bool) (M : Z) (place : nat -> Z) (s : st) (o : op) : st :=
  let a := place (cnt s) in
  match o with
  | Text t => block s a (fill (calloc (mem s) a (length t)) a t) true true a
  | Printf t => snd (mem_printf own s a 0 t)
  | Func f d => block s a (put (put (put (put (mem s) (a + 4) 4 1) (a + 24) 8 f) (a + 16) 8 d) a 4 37) true true a
  | Value f v => block s a (put (put (put (put (mem s) (a + 4) 4 0) (a + 32) 8 f) (a + 8) 8 v) a 4 37) true true a
  | Array ty c => block s a (fill (put (mem s) a 4 ty) (a + M) c) true true (a + M)
  | Object ty dtor => block s a (put (put (mem s) (a + 16) 8 dtor) a 4 ty) true true a
  end.

Definition run (own : bool) (M : Z) (place : nat -> Z) (s : st) (l : list op) : st := fold_left (step own M place) l s.
