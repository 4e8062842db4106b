(* The descriptor timeout wheel: events.c 408-444 (events_set_timeout), 267-270 (table sizes),
   740-769 (events_init_loop_internal), 775-811 (events_handle_timeout_internal), and the parts of
   events_add / events_del (585-600, 630-640) that touch it.  include/async_io.h 14-29 (macros).
   The two bit tables are bounded 2-dimensional tables here (row = slot); their flat layout in one
   block is the subject of table_fits in WheelProofs.v.  16-bit words are kept as numbers below 2^16;
   [v < 0] on a short is its top bit and [v <<= 1] drops it (as gcc defines it).
   assert() is compiled out (events_internal.h, USE_DEBUG unset). *)
From Verif Require Import Base DllModel.

(* async_io.h 21 *)
Definition rnd_up (v d : nat) : nat := (v + d - 1) / d * d.
(* events.c 268-270 *)
Definition vec_size (maxfd : nat) : nat := rnd_up maxfd 128 / 16.
Definition vec_of_vec_size (maxfd : nat) : nat := rnd_up (vec_size maxfd) 128 / 16.
(* events.c 760: EVENTS_RND_UP(max_timeout, 128) / 128 *)
Definition resolution (max_timeout : nat) : Z := Z.of_nat (rnd_up max_timeout 128 / 128).

Record cfg := { maxfd : nat; res : Z }.

Definition UNUSED : nat := 255.

Record wheel := {
  vec : nat -> nat -> Z;       (* slot, word *)
  vov : nat -> nat -> Z;       (* slot, summary word *)
  tidx : nat -> nat;           (* target->timeout_idx *)
  owned : nat -> bool;         (* target->loop_id == loop->loop_id *)
  base_idx : nat;
  base_time : Z;
  now : Z;                     (* loop->now *)
  wlog : list nat }.           (* history: descriptors whose timeout callback ran *)

Definition upd2 (f : nat -> nat -> Z) (i j : nat) (v : Z) : nat -> nat -> Z :=
  fun x y => if Nat.eqb x i && Nat.eqb y j then v else f x y.

Definition rd2 (rows cols : nat) (f : nat -> nat -> Z) (i j : nat) : outcome Z :=
  if (i <? rows) && (j <? cols) then Ok (f i j) else UB.
Definition wr2 (rows cols : nat) (f : nat -> nat -> Z) (i j : nat) (v : Z) : outcome (nat -> nat -> Z) :=
  if (i <? rows) && (j <? cols) then Ok (upd2 f i j v) else UB.

(* (unsigned short)SHRT_MIN >> (k % 16) *)
Definition mask (k : nat) : Z := Z.shiftl 1 (Z.of_nat (15 - k mod 16)).

Definition set_vec (s : wheel) v := {| vec := v; vov := vov s; tidx := tidx s; owned := owned s; base_idx := base_idx s; base_time := base_time s; now := now s; wlog := wlog s |}.
Definition set_vov (s : wheel) v := {| vec := vec s; vov := v; tidx := tidx s; owned := owned s; base_idx := base_idx s; base_time := base_time s; now := now s; wlog := wlog s |}.
Definition set_tidx (s : wheel) v := {| vec := vec s; vov := vov s; tidx := v; owned := owned s; base_idx := base_idx s; base_time := base_time s; now := now s; wlog := wlog s |}.
Definition set_owned (s : wheel) v := {| vec := vec s; vov := vov s; tidx := tidx s; owned := v; base_idx := base_idx s; base_time := base_time s; now := now s; wlog := wlog s |}.
Definition set_base (s : wheel) i t := {| vec := vec s; vov := vov s; tidx := tidx s; owned := owned s; base_idx := i; base_time := t; now := now s; wlog := wlog s |}.
Definition set_now (s : wheel) t := {| vec := vec s; vov := vov s; tidx := tidx s; owned := owned s; base_idx := base_idx s; base_time := base_time s; now := t; wlog := wlog s |}.
Definition add_log (s : wheel) k := {| vec := vec s; vov := vov s; tidx := tidx s; owned := owned s; base_idx := base_idx s; base_time := base_time s; now := now s; wlog := wlog s ++ [k] |}.

(* events.c 421-430 *)
Definition clear_timeout (c : cfg) (s : wheel) (fd : nat) : outcome wheel :=
  let vi := fd / 16 in
  if tidx s fd =? UNUSED then Ok s
  else
    do w <- rd2 128 (vec_size (maxfd c)) (vec s) (tidx s fd) vi;
    let w' := Z.ldiff w (mask fd) in
    do v <- wr2 128 (vec_size (maxfd c)) (vec s) (tidx s fd) vi w';
    let s1 := set_vec s v in
    do s2 <- (if (w' =? 0)%Z then
                do u <- rd2 128 (vec_of_vec_size (maxfd c)) (vov s1) (tidx s1 fd) (vi / 16);
                do vv <- wr2 128 (vec_of_vec_size (maxfd c)) (vov s1) (tidx s1 fd) (vi / 16) (Z.ldiff u (mask vi));
                Ok (set_vov s1 vv)
              else Ok s1);
    Ok (set_tidx s2 (upd (tidx s2) fd UNUSED)).

(* events.c 432-436: the slot distance; time_t arithmetic, stored in a size_t and clamped *)
Definition slot_delta (res now secs base : Z) : nat :=
  let d := Z.quot (now + secs - base) res in
  if (d <? 0)%Z || (128 <=? d)%Z then 127 else Z.to_nat d.

(* events.c 431-442 *)
Definition arm_timeout (c : cfg) (s : wheel) (fd : nat) (secs : Z) : outcome wheel :=
  if (res c =? 0)%Z then UB
  else
    let vi := fd / 16 in
    let idx := (base_idx s + slot_delta (res c) (now s) secs (base_time s)) mod 128 in
    let s1 := set_tidx s (upd (tidx s) fd idx) in
    do w <- rd2 128 (vec_size (maxfd c)) (vec s1) idx vi;
    do v <- wr2 128 (vec_size (maxfd c)) (vec s1) idx vi (Z.lor w (mask fd));
    do u <- rd2 128 (vec_of_vec_size (maxfd c)) (vov s1) idx (vi / 16);
    do vv <- wr2 128 (vec_of_vec_size (maxfd c)) (vov s1) idx (vi / 16) (Z.lor u (mask vi));
    Ok (set_vov (set_vec s1 v) vv).

(* events.c 408-444 events_set_timeout *)
Definition set_timeout (c : cfg) (s : wheel) (fd : nat) (secs : Z) : outcome wheel :=
  if fd <? maxfd c then
    if owned s fd then
      do s1 <- clear_timeout c s fd;
      if (secs =? 0)%Z then Ok s1 else arm_timeout c s1 fd secs
    else Ok s
  else UB.

(* what the program may do: set a timeout, register (events_add; the timeout index is overwritten
   without clearing the wheel, line 590), unregister (events_del).  The kernel calls succeed. *)
Inductive wact := WSet (fd : nat) (secs : Z) | WAdd (fd : nat) (secs : Z) | WDel (fd : nat).
Definition do_act (c : cfg) (s : wheel) (a : wact) : outcome wheel :=
  match a with
  | WSet fd secs => set_timeout c s fd secs
  | WAdd fd secs =>
    if fd <? maxfd c then
      set_timeout c (set_tidx (set_owned s (upd (owned s) fd true)) (upd (tidx s) fd UNUSED)) fd secs
    else Ok s
  | WDel fd =>
    if fd <? maxfd c then
      if owned s fd then
        do s1 <- set_timeout c s fd 0;
        Ok (set_owned s1 (upd (owned s1) fd false))
      else Ok s
    else UB
  end.
Fixpoint do_acts (c : cfg) (s : wheel) (l : list wact) : outcome wheel :=
  match l with [] => Ok s | a :: r => do s1 <- do_act c s a; do_acts c s1 r end.

(* v <<= 1 on a short *)
Definition shl (v : Z) : Z := ((v * 2) mod 65536)%Z.

(* events.c 793-806: the bits of one word; [cb] is what the callback of a descriptor does, given the
   callbacks that ran before it *)
Fixpoint word_loop (n : nat) (c : cfg) (cb : list nat -> nat -> list wact) (v : Z) (k : nat) (s : wheel) : outcome wheel :=
  if (v =? 0)%Z then Ok s
  else match n with
       | O => Fuel
       | S n =>
         do s1 <- (if Z.testbit v 15 then
                     if k <? maxfd c then
                       let s0 := set_tidx s (upd (tidx s) k UNUSED) in
                       do_acts c (add_log s0 k) (cb (wlog s0) k)
                     else UB
                   else Ok s);
         word_loop n c cb (shl v) (S k) s1
       end.

(* events.c 789-808: the words of one summary word *)
Fixpoint sum_loop (n : nat) (c : cfg) (cb : list nat -> nat -> list wact) (vv : Z) (j : nat) (s : wheel) : outcome wheel :=
  if (vv =? 0)%Z then Ok s
  else match n with
       | O => Fuel
       | S n =>
         do s1 <- (if Z.testbit vv 15 then
                     do v <- rd2 128 (vec_size (maxfd c)) (vec s) (base_idx s) j;
                     do s2 <- word_loop 16 c cb v (j * 16) s;
                     do w <- wr2 128 (vec_size (maxfd c)) (vec s2) (base_idx s2) j 0;
                     Ok (set_vec s2 w)
                   else Ok s);
         sum_loop n c cb (shl vv) (S j) s1
       end.

(* events.c 784-810: one slot; [todo] summary words remain, starting at i *)
Fixpoint slot_loop (todo : nat) (c : cfg) (cb : list nat -> nat -> list wact) (i : nat) (s : wheel) : outcome wheel :=
  match todo with
  | O => Ok s
  | S todo =>
    do vv <- rd2 128 (vec_of_vec_size (maxfd c)) (vov s) (base_idx s) i;
    do s1 <- (if (vv =? 0)%Z then Ok s
              else do s2 <- sum_loop 16 c cb vv (i * 16) s;
                   do w <- wr2 128 (vec_of_vec_size (maxfd c)) (vov s2) (base_idx s2) i 0;
                   Ok (set_vov s2 w));
    slot_loop todo c cb (S i) s1
  end.

(* events.c 775-811; callbacks neither shut the library down nor destroy the loop *)
Fixpoint handle_timeout (fuel : nat) (c : cfg) (cb : list nat -> nat -> list wact) (s : wheel) : outcome wheel :=
  if (base_time s <=? now s - res c)%Z then
    match fuel with
    | O => Fuel
    | S k =>
      do s1 <- slot_loop (vec_of_vec_size (maxfd c)) c cb 0 s;
      handle_timeout k c cb (set_base s1 ((base_idx s1 + 1) mod 128) (base_time s1 + res c)%Z)
    end
  else Ok s.

(* events.c 740-769 *)
Definition wheel_init (ti : nat -> nat) (t0 : Z) (n0 : Z) : wheel :=
  {| vec := fun _ _ => 0%Z; vov := fun _ _ => 0%Z; tidx := ti; owned := fun _ => false; base_idx := 0;
     base_time := t0; now := n0; wlog := [] |}.

(* one step of a program: an action outside callbacks, or an iteration of the loop at clock value t
   (events_once sets loop->now, then handles timeouts) *)
Inductive wop := WAct (a : wact) | WTick (t : Z) (cb : list nat -> nat -> list wact).
Definition do_op (fuel : nat) (c : cfg) (s : wheel) (o : wop) : outcome wheel :=
  match o with
  | WAct a => do_act c s a
  | WTick t cb => handle_timeout fuel c cb (set_now s t)
  end.
Fixpoint do_ops (fuel : nat) (c : cfg) (s : wheel) (l : list wop) : outcome wheel :=
  match l with [] => Ok s | o :: r => do s1 <- do_op fuel c s o; do_ops fuel c s1 r end.
