(* How a program ends: except.c 104-117 (scope_destroy), 187-202 (ex_print), 387-390 (ex_flags_reset, which nothing calls),
   453-523 (ex_terminate, ex_throw), 631-657 (ex_handler), 891-921 (try_start, try_finish), 998-1023 (scope_init), 1043-1087
   (scope_unwind); events.c 1893-1950 (deferred) outside of tasks and guards; future.h 166-185, 207-210.
   Native thread-local storage, not Windows.  Functions are deferred outside of guards and tasks, they do not defer others and
   use no fence.  What is printed is the text [e] of the exception (snprintf with a NULL function name, which a signal gives,
   prints something).  exit within exit goes on with the handlers that have not run, as in glibc.  The handlers of other parts
   of the library (events_deinit, rpmalloc_shutdown) and output buffers are not followed. *)
From Coq Require Import List Arith Bool.
From Verif Require Import Base.
Import ListNotations.

(* scope_local() of a thread: never made; with the deferred functions, latest first; left in the middle of unwinding, the
   functions not yet run, and whether records that were freed stand before them; unwound and cleared *)
Inductive sc := Absent | Live (l : list nat) | Torn (bad : bool) (l : list nat) | Gone.

(* the line on stderr with a text (None: an empty one); deferred function f of thread t was called; the registered functions
   for control-C and termination were called; the end, by exit (true) or _Exit (false) *)
Inductive event := Told (m : option nat) | Ran (t f : nat) | CtrlC | Term | Done (clean : bool).

Record st := mkS {
  alive : nat -> bool;             (* threads *)
  scope : nat -> sc;
  first : option nat;              (* atexit_ctr_c_unwind: the thread whose scope it is *)
  regs : nat;                      (* how often scope_destroy was given to atexit *)
  tries : nat -> list bool;        (* by thread: its try blocks, innermost first, with is_scoped *)
  root : nat -> bool;              (* is_scoped of the thread's root context *)
  sig : bool;                      (* got_signal *)
  ctl : bool;                      (* got_ctrl_c *)
  term : bool;                     (* can_terminate *)
  unst : bool;                     (* unstack of the context that throws *)
  msg : option nat;                (* uncaught_message *)
  over : bool;
  out : list event }.

Definition init : st :=
  mkS (fun _ => true) (fun _ => Absent) None 0 (fun _ => []) (fun _ => false) false false true false None false [].

Definition upd {A} (m : nat -> A) (k : nat) (v : A) : nat -> A := fun x => if x =? k then v else m x.

Definition emit (e : event) (s : st) : st :=
  mkS (alive s) (scope s) (first s) (regs s) (tries s) (root s) (sig s) (ctl s) (term s) (unst s) (msg s) (over s) (out s ++ [e]).
Definition set_scope (u : nat) (c : sc) (s : st) : st :=
  mkS (alive s) (upd (scope s) u c) (first s) (regs s) (tries s) (root s) (sig s) (ctl s) (term s) (unst s) (msg s) (over s) (out s).
Definition set_first (o : option nat) (s : st) : st :=
  mkS (alive s) (scope s) o (regs s) (tries s) (root s) (sig s) (ctl s) (term s) (unst s) (msg s) (over s) (out s).
Definition set_msg (e : nat) (s : st) : st :=
  mkS (alive s) (scope s) (first s) (regs s) (tries s) (root s) (sig s) (ctl s) (term s) (unst s) (Some e) (over s) (out s).
Definition finish (clean : bool) (s : st) : st :=
  mkS (alive s) (scope s) (first s) (regs s) (tries s) (root s) (sig s) (ctl s) (term s) (unst s) (msg s) true (out s ++ [Done clean]).

Definition scoped (t : nat) (s : st) : bool := match tries s t with c :: _ => c | [] => root s t end.

(* ex_throw up to ex_print: during unwinding the text is not set (487-488) *)
Definition told (e : nat) (s : st) : st :=
  if unst s then emit (Told (msg s)) s else let s := set_msg e s in emit (Told (msg s)) s.

Section Functions.
Variable beh : nat -> option nat.    (* what a deferred function does: returns, or throws this *)

(* 1050-1070, in thread t, the functions of thread u's scope; some: records that were freed stand before l.  Result: whether
   a function threw, what was not run *)
Fixpoint runs (t u : nat) (l : list nat) (some : bool) (s : st) : outcome (st * bool * list nat) :=
  match l with
  | [] => Ok (s, false, [])
  | f :: r =>
      let s := emit (Ran u f) s in
      match beh f with
      | None => runs t u r true s
      | Some e =>
          if match tries s t with [] => false | _ => negb (unst s) end then UB   (* longjmp out of exit *)
          else
            let s := told e s in
            (* ex_terminate again: scope_destroy begins with the latest record once more; that of f is marked and freed *)
            if scoped t s then
              if some then UB else do x <- runs t u r true s; Ok (fst (fst x), true, snd x)
            else Ok (s, true, r)
      end
  end.

(* 104-117 in thread t; whether a function threw *)
Definition unwind (t u : nat) (l : list nat) (some : bool) (s : st) : outcome (st * bool) :=
  do x <- runs t u l some s;
  let '(s1, thrown, r) := x in
  Ok (if thrown && negb (scoped t s1) then set_scope u (Torn (some || (S (length r) <? length l)) r) s1 else set_scope u Gone s1, thrown).
Definition destroy_of (t u : nat) (s : st) : outcome (st * bool) :=
  match scope s u with
  | Live l => unwind t u l false s
  | Torn true _ => UB
  | Torn false r => unwind t u r true s
  | Gone | Absent => Ok (s, false)
  end.
Definition destroy (t : nat) (s : st) : outcome (st * bool) :=
  match scope s t with
  | Absent =>
      match first s with
      | None => Ok (s, false)
      | Some u => let s := set_first None s in if alive s u then destroy_of t u s else UB
      end
  | _ => destroy_of t t s
  end.

(* 462-476 *)
Definition calls (s : st) : st :=
  let s := if ctl s then emit CtrlC (mkS (alive s) (scope s) (first s) (regs s) (tries s) (root s) (sig s) false (term s) (unst s) (msg s) (over s) (out s)) else s in
  if term s then emit Term (mkS (alive s) (scope s) (first s) (regs s) (tries s) (root s) (sig s) (ctl s) false (unst s) (msg s) (over s) (out s)) else s.

(* exit in thread t, n handlers left *)
Fixpoint handlers (t n : nat) (s : st) : outcome st :=
  match n with
  | 0 => Ok (finish true s)
  | S n =>
      do x <- destroy t s;
      let '(s1, thrown) := x in
      if thrown then let s2 := calls s1 in if sig s2 then Ok (finish false s2) else handlers t n s2
      else handlers t n s1
  end.

(* 459-481 *)
Definition terminate (t : nat) (s : st) : outcome st :=
  do s1 <- (if scoped t s then do x <- destroy t s; Ok (fst x) else Ok s);
  let s2 := calls s1 in
  if sig s2 then Ok (finish false s2) else handlers t (regs s2) s2.

Inductive op :=
| Defer (t f : nat)
| Enter (t : nat) | Leave (t : nat)      (* a try block *)
| Throw (t e : nat)                      (* in a try block it is caught *)
| Signal (t e : nat) (int : bool)        (* a signal (int: SIGINT) thrown as e in thread t; in a try block it is caught *)
| Within (t e : nat)                     (* thrown by the release function of a protected pointer *)
| Exit (t : nat)
| EndThread (t : nat).

(* 1893-1950, 998-1023 *)
Definition defer (t f : nat) (s : st) : outcome st :=
  match scope s t with
  | Absent =>
      Ok (mkS (alive s) (upd (scope s) t (Live [f])) (match first s with None => Some t | o => o end) (S (regs s))
              (match tries s t with _ :: r => upd (tries s) t (true :: r) | [] => tries s end)
              (match tries s t with [] => upd (root s) t true | _ => root s end)
              (sig s) (ctl s) (term s) (unst s) (msg s) (over s) (out s))
  | Live l => Ok (set_scope t (Live (f :: l)) s)
  | Torn _ _ | Gone => UB                                                        (* $lock of no array *)
  end.

Definition op_thread (o : op) : nat :=
  match o with Defer t _ | Enter t | Leave t | Throw t _ | Signal t _ _ | Within t _ | Exit t | EndThread t => t end.

Definition step (s : st) (o : op) : outcome st :=
  if over s || negb (alive s (op_thread o)) then Ok s else
  match o with
  | Defer t f => defer t f s
  | Enter t => Ok (mkS (alive s) (scope s) (first s) (regs s) (upd (tries s) t (false :: tries s t)) (root s) (sig s) (ctl s) (term s) (unst s) (msg s) (over s) (out s))
  | Leave t => Ok (mkS (alive s) (scope s) (first s) (regs s) (upd (tries s) t (tl (tries s t))) (root s) (sig s) (ctl s) (term s) (unst s) (msg s) (over s) (out s))
  | Throw t e => match tries s t with [] => terminate t (told e s) | _ => Ok s end
  | Signal t e int =>
      let s := mkS (alive s) (scope s) (first s) (regs s) (tries s) (root s) true (ctl s || int) (term s) (unst s) (msg s) (over s) (out s) in
      match tries s t with [] => terminate t (told e s) | _ => Ok s end
  | Within t e =>
      let s := mkS (alive s) (scope s) (first s) (regs s) (tries s) (root s) (sig s) (ctl s) (term s) true (msg s) (over s) (out s) in
      terminate t (told e s)
  | Exit t => handlers t (regs s) s
  | EndThread t => Ok (mkS (upd (alive s) t false) (scope s) (first s) (regs s) (tries s) (root s) (sig s) (ctl s) (term s) (unst s) (msg s) (over s) (out s))
  end.

Fixpoint run (s : st) (l : list op) : outcome st :=
  match l with [] => Ok s | o :: r => do s <- step s o; run s r end.
End Functions.
