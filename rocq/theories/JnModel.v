(* Waiting for a thread to end: os_unix.c 750-764 (os_create), 766-774 (_timespec_addms), 776-812 (os_join), 818-824 (os_exit,
   os_detach); os_windows.c 1276-1306 (the same).  Linux has the timed joins, Android, macOS and the BSDs have not.  Time is
   counted in nanoseconds of the realtime clock, which is not set meanwhile; time_t has 64 bits and long at least 32 (2^31 is
   more than two seconds in nanoseconds).  A call takes no time besides the waiting; a thread that ends in the moment where a
   wait for it is over counts as ended.  A handle of Windows is not given again after it was closed. *)
From Coq Require Import ZArith List Bool.
From Verif Require Import Base.
Import ListNotations.
Local Open Scope Z_scope.

Inductive os := Linux | Unix | Windows.

(* how a thread ends: os_exit(c), or its function returns the int x; the machine word that pthread_join gives has the int in its
   lower half and junk above *)
Inductive last := Exits (c : Z) | Returns (x junk : Z).
Definition word (l : last) : Z :=
  match l with Exits c => c mod 2 ^ 32 | Returns x junk => (x mod 2 ^ 32) + 2 ^ 32 * (junk mod 2 ^ 32) end.

(* (int)(size_t) of a word; the DWORD of Windows read as an int *)
Definition to_int (w : Z) : Z := let z := w mod 2 ^ 32 in if z <? 2 ^ 31 then z else z - 2 ^ 32.

(* when it ends (None: never), how, and whether it was joined or detached *)
Record thread := mkT { ends : option Z; how : last; gone : bool }.
Record st := mkS { ths : list thread; now : Z; errno : Z }.

Definition ETIMEDOUT : Z := 110.
Definition EINVAL : Z := 22.
Definition giga : Z := 1000 * 1000 * 1000.

(* 766-774 *)
Definition addms (ts : Z * Z) (ms : Z) : Z * Z :=
  let sec := fst ts + ms / 1000 in
  let nsec := snd ts + (ms mod 1000) * 1000 * 1000 in
  if giga <=? nsec then (sec + 1, nsec - giga) else (sec, nsec).

Definition ended (t : thread) (at_ : Z) : bool := match ends t with Some e => e <=? at_ | None => false end.

(* what the system's join answers, and when: 0, or an error; None: never *)
Definition forever (t : thread) (n : Z) : option (Z * Z) :=
  match ends t with Some e => Some (0, Z.max n e) | None => None end.
Definition timed (t : thread) (n deadline : Z) : option (Z * Z) :=
  if ended t (Z.max n deadline) then Some (0, match ends t with Some e => Z.max n e | None => n end)
  else Some (ETIMEDOUT, Z.max n deadline).

(* 781-804; ms is a uint32_t *)
Definition wait (o : os) (t : thread) (n ms : Z) : option (Z * Z) :=
  if ms =? 2 ^ 32 - 1 then forever t n
  else match o with
  | Unix => forever t n
  | Windows => timed t n (n + ms * 1000 * 1000)
  | Linux =>
      if ms =? 0 then Some (if ended t n then 0 else ETIMEDOUT, n)
      else let ts := addms (n / giga, n mod giga) ms in
           if (snd ts <? 0) || (giga <=? snd ts) then Some (EINVAL, n)
           else timed t n (fst ts * giga + snd ts)
  end.

(* what os_join returns and stores; Never: it does not return *)
Inductive res := Zero (code : Z) | Minus | Never.

Definition os_join (o : os) (s : st) (i : nat) (ms : Z) : outcome (res * st) :=
  do t <- rd (ths s) i;
  if gone t then match o with Windows => Ok (Minus, s) | _ => UB end    (* WAIT_FAILED leaves errno alone *)
  else match wait o t (now s) ms with
  | None => Ok (Never, s)
  | Some (0, n) =>
      do l <- wr (ths s) i (mkT (ends t) (how t) true);
      Ok (Zero (to_int (word (how t))), mkS l n (errno s))
  | Some (e, n) => Ok (Minus, mkS (ths s) n e)
  end.

(* 822-824; Windows: CloseHandle *)
Definition os_detach (o : os) (s : st) (i : nat) : outcome (Z * st) :=
  do t <- rd (ths s) i;
  if gone t then match o with Windows => Ok (1, s) | _ => UB end
  else do l <- wr (ths s) i (mkT (ends t) (how t) true); Ok (0, mkS l (now s) (errno s)).

Inductive op := Join (i : nat) (ms : Z) | Detach (i : nat) | Pass (ns : Z).   (* Pass: something else is done meanwhile *)

(* the answers, until one call does not return *)
Fixpoint run (o : os) (s : st) (l : list op) : outcome (list res * st) :=
  match l with
  | [] => Ok ([], s)
  | Join i ms :: r =>
      do x <- os_join o s i ms;
      match fst x with
      | Never => Ok ([Never], snd x)
      | v => do y <- run o (snd x) r; Ok (v :: fst y, snd y)
      end
  | Detach i :: r => do x <- os_detach o s i; do y <- run o (snd x) r; Ok y
  | Pass ns :: r => run o (mkS (ths s) (now s + Z.max 0 ns) (errno s)) r
  end.
