(* The memory of a task: how much is asked for and where its stack lies (events.c 1672-1748 create_task, 1469-1508
   and 1511-1531 task_derive with sigsetjmp and with ucontext, events_internal.h 412-463 the descriptor), the check
   of the stack (events.c 2392-2400 tasks_stack_check, 1643-1648 task_yielding), and the creation of a task where
   there is no assembly, by a signal handled on the new stack (events.c 1447-1453 _spring_board, 1469-1508).
   The sizes of the structures are arguments.  calloc gives the block or nothing. *)
From Coq Require Import ZArith List Bool.
From Verif Require Import Base.
Import ListNotations.
Open Scope Z_scope.

(* ---- sizes ---- *)

(* A platform: the number of values of size_t, sizeof(tasks_t), sizeof(_results_data_t), MINSIGSTKSZ where __APPLE__
   (events.c 1683-1686), and whether threads get more (not Windows, 1693-1696). *)
Record plat := mkP { p_max : Z; p_descr : Z; p_res : Z; p_minsig : option Z; p_more : bool }.

(* size_t arithmetic *)
Definition wrap (p : plat) (x : Z) : Z := x mod p_max p.

(* arrays.h 381: _mem_align_up(x, 16) *)
Definition up16 (p : plat) (x : Z) : Z := let y := wrap p (x + 15) in y - y mod 16.

(* events.c 1679-1698: the bytes asked of calloc for a request of s bytes; [main]: the condition of line 1688 *)
Definition block_bytes (p : plat) (s : Z) (main thread : bool) : Z :=
  let h0 := if (negb (s =? 0) && (s <? 8192)) || (s =? 0) then 8192 else s in
  let h1 := match p_minsig p with Some k => if h0 <=? k then wrap p (k + h0) else h0 | None => h0 end in
  let h2 := if main then wrap p (h1 * 6) else h1 in
  let h3 := if p_more p && thread && (h2 <=? 18 * 1024) then wrap p (18 * 1024 + h2) else h2 in
  up16 p (wrap p (wrap p (h3 + p_descr p) + p_res p)).

(* How the stack is made: assembly, sigaltstack, ucontext (with sizeof(ucontext_t)). *)
Inductive way := Asm | Sjlj | Uctx (u : Z).

(* The stack handed over, as offsets in the block: lowest byte, end.  Assembly takes the end of the block (asm.c
   task_derive: memory + size); events.c 1473, 1483-1484; 1515, 1524-1525. *)
Definition stack_of (p : plat) (y : way) (bytes : Z) : Z * Z :=
  match y with
  | Asm => (0, bytes)
  | Sjlj => (0, bytes - p_descr p)
  | Uctx u => (8, 8 + (bytes - u - 64))
  end.

(* ---- the check ---- *)

(* A block in use: its bytes, and the distance of the stack pointer from its start.  [base]: stack_base, the end of
   the descriptor (events.c 1741). *)
Record stk := mkS { s_mem : list Z; s_sp : Z }.

(* What a running task does: calls that write bytes below the stack pointer (lowest address first), returns, and
   giving up control with the check (task_yielding; the local variable t of the check is at the stack pointer). *)
Inductive act := Push (bs : list Z) | Pop (n : Z) | Check (n : Z).

(* bytes of the block replaced from offset o on *)
Definition put (l : list Z) (o : nat) (bs : list Z) : list Z := firstn o l ++ bs ++ skipn (o + length bs) l.

Definition bytes_eqb (a b : list Z) : bool := if list_eq_dec Z.eq_dec a b then true else false.

(* What happens to a task: it goes on, or the library stops the program (abort). *)
Inductive after := Goes (s : stk) | Stopped.

(* [base] end of the descriptor, [mo] offset of magic_number in it, [magic] its 8 bytes.  A write below the block
   is outside of it. *)
Definition do_act (base : Z) (mo : nat) (magic : list Z) (s : stk) (a : act) : outcome after :=
  match a with
  | Push bs =>
    let sp := s_sp s - Z.of_nat (length bs) in
    if sp <? 0 then UB else Ok (Goes (mkS (put (s_mem s) (Z.to_nat sp) bs) sp))
  | Pop n => Ok (Goes (mkS (s_mem s) (s_sp s + n)))
  | Check n =>
    (* events.c 2394-2396 *)
    if (s_sp s <=? base) || (s_sp s - base <? 256 + n)
       || negb (bytes_eqb (firstn (length magic) (skipn mo (s_mem s))) magic)
    then Ok Stopped else Ok (Goes s)
  end.

Fixpoint run (base : Z) (mo : nat) (magic : list Z) (s : stk) (l : list act) : outcome after :=
  match l with
  | [] => Ok (Goes s)
  | a :: r =>
    do x <- do_act base mo magic s a;
    match x with Goes s' => run base mo magic s' r | Stopped => Ok Stopped end
  end.

(* ---- a task made by a signal ---- *)

(* What SIGUSR1 does, for the whole process. *)
Inductive disp := DDefault | DIgnore | DSpring | DUser (n : nat).

(* The alternate stack of a thread: none, some of the program, the block of the task being made. *)
Inductive alt := ANone | AUser (n : nat) | ABlock.

(* What the system answers to the four calls that matter. *)
Record sys := mkY { y_alt : bool; y_act : bool; y_raise : bool }.

(* A thread making a task: where it is in task_derive, its alternate stack, what it saved, whether the jump buffer of
   the new task is set, sig_func = task_func, whether SIGUSR1 is blocked or waits. *)
Record thr := mkT {
  t_pc : nat; t_alt : alt; t_oldalt : alt; t_olddisp : disp; t_ctx : bool; t_func : bool;
  t_blocked : bool; t_pending : bool; t_user : list nat; t_ret : option bool }.

Record proc := mkProc { d_now : disp; killed : bool }.

Definition set_pc (t : thr) (n : nat) : thr :=
  mkT n (t_alt t) (t_oldalt t) (t_olddisp t) (t_ctx t) (t_func t) (t_blocked t) (t_pending t) (t_user t) (t_ret t).

(* events.c 1469-1508, one system call at a time.  The structures old_stack and old_handler are filled by the call
   that succeeds; t_ret: the task is given back, or NULL. *)
Definition derive_step (y : sys) (p : proc) (t : thr) : proc * thr :=
  match t_pc t with
  | 0%nat => (* 1484: sigaltstack(&stack, &old_stack) *)
    if y_alt y
    then (p, mkT 1 ABlock (t_alt t) (t_olddisp t) (t_ctx t) (t_func t) (t_blocked t) (t_pending t) (t_user t) (t_ret t))
    else (p, set_pc t 5)
  | 1%nat => (* 1490: sigaction(SIGUSR1, &handler, &old_handler) *)
    if y_act y
    then (mkProc DSpring (killed p),
          mkT 2 (t_alt t) (t_oldalt t) (d_now p) (t_ctx t) (t_func t) (t_blocked t) (t_pending t) (t_user t) (t_ret t))
    else (p, set_pc t 5)
  | 2%nat => (* 1491-1493: raise(SIGUSR1); the handler runs now unless the signal is blocked *)
    if negb (y_raise y) then (p, set_pc t 3)
    else if t_blocked t
    then (p, mkT 3 (t_alt t) (t_oldalt t) (t_olddisp t) (t_ctx t) true (t_blocked t) true (t_user t) (t_ret t))
    else match d_now p with
         | DDefault => (mkProc (d_now p) true, t)
         | DIgnore => (p, mkT 3 (t_alt t) (t_oldalt t) (t_olddisp t) (t_ctx t) true (t_blocked t) (t_pending t) (t_user t) (t_ret t))
         | DSpring => (p, mkT 3 (t_alt t) (t_oldalt t) (t_olddisp t) true true (t_blocked t) (t_pending t) (t_user t) (t_ret t))
         | DUser n => (p, mkT 3 (t_alt t) (t_oldalt t) (t_olddisp t) (t_ctx t) true (t_blocked t) (t_pending t) (n :: t_user t) (t_ret t))
         end
  | 3%nat => (* 1495: sigaltstack(&old_stack, 0) *)
    (p, mkT 4 (t_oldalt t) (t_oldalt t) (t_olddisp t) (t_ctx t) (t_func t) (t_blocked t) (t_pending t) (t_user t) (t_ret t))
  | 4%nat => (* 1496: sigaction(SIGUSR1, &old_handler, 0) *)
    (mkProc (t_olddisp t) (killed p), set_pc t 5)
  | 5%nat => (* 1500-1506 *)
    (p, mkT 6 (t_alt t) (t_oldalt t) (t_olddisp t) (t_ctx t) (t_func t) (t_blocked t) (t_pending t) (t_user t) (Some (t_func t)))
  | _ => (p, t)
  end.

(* a thread that starts to make a task *)
Definition begin (a : alt) (blocked : bool) : thr :=
  mkT 0 a ANone DDefault false false blocked false [] None.

(* Threads in any order: [sched] names the thread that makes its next call; a killed process does nothing more. *)
Fixpoint interleave (ys : list sys) (sched : list nat) (p : proc) (ts : list thr) : proc * list thr :=
  match sched with
  | [] => (p, ts)
  | i :: r =>
    if killed p then (p, ts)
    else match nth_error ts i, nth_error ys i with
         | Some t, Some y => let (p', t') := derive_step y p t in interleave ys r p' (set_nth i t' ts)
         | _, _ => interleave ys r p ts
         end
  end.
