(* Signals turned into exceptions: except.c 119-129 (the table), 632-657 (ex_handler), 659-674 (ex_signal_reset),
   676-710 (ex_signal), 712-800 (ex_signal_setup), 802-860 (ex_signal_default).  POSIX branches with the signal
   numbers of Linux.  Simplifications: sigemptyset always succeeds; handlers installed by other code are left out; the
   signal mask is left out; setting the allocator and the program path in ex_signal_setup is left out. *)
From Verif Require Import Base.
From Coq Require Export String.
#[local] Open Scope Z_scope.

Definition max_ex_sig : nat := 32.
(* 123-129: the entries with a name; those without are all behind them.  (signal, name) *)
(* what the system does with a signal: the handler of the library or the default *)
Record st := { tab : list (Z * string); handled : Z -> bool; set : bool }.
Definition start : st := {| tab := []; handled := fun _ => false; set := false |}.

(* 679-682: the first entry that has no name or has the number *)
Fixpoint store (t : list (Z * string)) (s : Z) (n : string) : list (Z * string) :=
  match t with
  | [] => [(s, n)]
  | (s', n') :: r => if s' =? s then (s, n) :: r else (s', n') :: store r s n
  end.
Definition full (t : list (Z * string)) (s : Z) : bool := (max_ex_sig <=? List.length t)%nat && negb (existsb (fun e => fst e =? s) t).
Definition put (f : Z -> bool) (s : Z) (b : bool) : Z -> bool := fun x => if x =? s then b else f x.

(* ex_signal; `can s`: sigaction of this signal succeeds (not for SIGKILL, SIGSTOP and bad numbers) *)
Definition ex_signal (can : Z -> bool) (s : Z) (n : string) (x : st) : st :=
  if full (tab x) s then x
  else if can s then {| tab := store (tab x) s n; handled := put (handled x) s true; set := true |}
  else {| tab := tab x; handled := handled x; set := true |}.
(* ex_signal_reset: the entry stays *)
Definition ex_signal_reset (can : Z -> bool) (s : Z) (x : st) : st :=
  {| tab := tab x; handled := if can s then put (handled x) s false else handled x; set := false |}.

(* 745-799, in order *)
Definition installed : list (Z * string) :=
  [(11, "sig_segv"); (6, "sig_abrt"); (8, "sig_fpe"); (4, "sig_ill"); (2, "sig_int"); (15, "sig_term"); (3, "sig_quit"); (1, "sig_hup");
   (28, "sig_winch"); (5, "sig_trap"); (13, "sig_pipe"); (14, "sig_alrm"); (7, "sig_bus")]%string.
(* 803-859 *)
Definition restored : list Z := [11; 6; 8; 4; 2; 15; 3; 1; 28; 5; 14; 7].
Definition ex_signal_setup (can : Z -> bool) (x : st) : st :=
  if set x then x else fold_left (fun x e => ex_signal can (fst e) (snd e) x) installed x.
Definition ex_signal_default (can : Z -> bool) (x : st) : st := fold_left (fun x s => ex_signal_reset can s x) restored x.

(* calls of the program; guard blocks and scope_init call Setup too (except.h 334, except.c 1001) *)
Inductive op := Reg (s : Z) (n : string) | Res (s : Z) | Setup | Default.
Definition step (can : Z -> bool) (x : st) (o : op) : st :=
  match o with
  | Reg s n => ex_signal can s n x | Res s => ex_signal_reset can s x
  | Setup => ex_signal_setup can x | Default => ex_signal_default can x
  end.
Definition run (can : Z -> bool) (ops : list op) : st := fold_left (step can) ops start.

(* a signal comes: the default, or ex_handler throws the name found for it (NULL: None), 648-656 *)
Inductive effect := Dfl | Throw (n : option string).
Definition look (t : list (Z * string)) (s : Z) : option string :=
  match find (fun e => fst e =? s) t with Some e => Some (snd e) | None => None end.
Definition deliver (x : st) (s : Z) : effect := if handled x s then Throw (look (tab x) s) else Dfl.
