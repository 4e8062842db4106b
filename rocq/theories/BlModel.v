(* How long calls block: events.c 373-407 (events_set_nonblocking, events_set_blocking, events_tcp_timeout), os_unix.c 880-886
   (os_sleep).
   The system is Linux: SO_RCVTIMEO and SO_SNDTIMEO take seconds and microseconds, refuse microseconds outside 0 .. 999999 (EDOM),
   take negative seconds for no waiting at all and zero for no limit; limits are kept in microseconds here and not rounded up to
   ticks.  F_SETFL changes the flags of [mask] of the open file only.  An int has 32 bits. *)
From Coq Require Import ZArith List Bool.
From Verif Require Import Base.
Import ListNotations.
Local Open Scope Z_scope.

Inductive limit := Endless | Micros (us : Z).
Record sock := mkS { rcv : limit; snd_ : limit }.

(* setsockopt with a struct timeval; able: that the descriptor is a socket, and so on *)
Definition sockopt (able : bool) (sec usec : Z) (old : limit) : Z * limit :=
  if negb able then (-1, old)
  else if (usec <? 0) || (1000000 <=? usec) then (-1, old)
  else if sec <? 0 then (0, Micros 0)
  else if (sec =? 0) && (usec =? 0) then (0, Endless)
  else (0, Micros (sec * 1000000 + usec)).

(* 391-406; (milliseconds * 1000) is computed in int *)
Definition tcp_timeout (able1 able2 : bool) (ms : Z) (s : sock) : outcome (Z * sock) :=
  let sec := Z.quot ms 1000 in
  let prod := ms * 1000 in
  if (prod <? - 2 ^ 31) || (2 ^ 31 <=? prod) then UB
  else
    let usec := Z.rem prod 1000000 in
    let r1 := sockopt able1 sec usec (rcv s) in
    let r2 := sockopt able2 sec usec (snd_ s) in
    Ok (if (fst r1 =? 0) && (fst r2 =? 0) then 0 else 1, mkS (snd r1) (snd r2)).

(* Windows: a DWORD of milliseconds, where 0 is no limit *)
Definition win_opt (able : bool) (dw : Z) (old : limit) : Z * limit :=
  if negb able then (-1, old) else (0, if dw =? 0 then Endless else Micros (dw * 1000)).
Definition win_timeout (able1 able2 : bool) (ms : Z) (s : sock) : Z * sock :=
  let dw := ms mod 2 ^ 32 in
  let r1 := win_opt able1 dw (rcv s) in
  let r2 := win_opt able2 dw (snd_ s) in
  (if (fst r1 =? 0) && (fst r2 =? 0) then 0 else 1, mkS (snd r1) (snd r2)).

(* 880-886; msec is a uint32_t; sig: in how many nanoseconds a signal is handled.  Gives the answer and the nanoseconds slept *)
Definition os_sleep (sig : option Z) (msec : Z) : Z * Z :=
  let sec := msec / 1000 in
  let nsec := (msec mod 1000) * 1000000 in
  if (nsec <? 0) || (1000000000 <=? nsec) || (sec <? 0) then (-1, 0)
  else let d := sec * 1000000000 + nsec in
       match sig with
       | Some t => if t <? d then (-1, t) else (0, d)
       | None => (0, d)
       end.

(* descriptors are of open files, which have flags *)
Record files := mkF { of_fd : Z -> option nat; flags : list Z }.

Definition getfl (f : files) (fd : Z) : Z :=
  match of_fd f fd with
  | Some k => nth k (flags f) (-1)
  | None => -1
  end.
Definition setfl (mask : Z) (f : files) (fd v : Z) : Z * files :=
  match of_fd f fd with
  | Some k =>
      match nth_error (flags f) k with
      | Some old => (0, mkF (of_fd f) (set_nth k (Z.lor (Z.land v mask) (Z.land old (Z.lnot mask))) (flags f)))
      | None => (-1, f)
      end
  | None => (-1, f)
  end.

(* nb: the number of the bit O_NONBLOCK *)
Definition set_nonblocking (mask nb : Z) (f : files) (fd : Z) : Z * files :=
  setfl mask f fd (Z.lor (getfl f fd) (2 ^ nb)).
Definition set_blocking (mask nb : Z) (f : files) (fd : Z) : Z * files :=
  setfl mask f fd (Z.land (getfl f fd) (Z.lnot (2 ^ nb))).
