(* The clocks: events.c 813-820 (events_nsec), 822-850 (events_timeofday), 852-883 (events_now), 272-274 (the frequency of
   the Windows counter, read by events_init).  The system's answers are arguments.  [tw] is the number of bits of time_t and
   [lw] of long: 64 and 64 on 64-bit Unix, 32 and 32 on 32-bit Unix, 64 and 32 there with a 64-bit time_t; on Windows tv_sec
   is a long of 32 bits.  Arithmetic on signed numbers that leaves their range is undefined.  The variant for macOS
   (mach_absolute_time, in floating point) is left out. *)
From Verif Require Import Base.
Open Scope Z_scope.

(* an operation whose result has b bits and a sign *)
Definition signed (b : Z) (v : Z) : outcome Z :=
  if (- 2 ^ (b - 1) <=? v) && (v <? 2 ^ (b - 1)) then Ok v else UB.

(* the conversion to a signed type of b bits, modulo 2^b *)
Definition cast (b v : Z) : Z := (v + 2 ^ (b - 1)) mod 2 ^ b - 2 ^ (b - 1).

Definition u64 (v : Z) : Z := v mod 2 ^ 64.

(* s * 1000000000 + n, in the type of s (876, 879) *)
Definition nanos (tw s n : Z) : outcome Z :=
  do p <- signed tw (s * 1000000000); do q <- signed tw (p + n); Ok (u64 q).

(* 874-880: if nothing was found, the time of day; None: the call failed *)
Definition fallback (tw lw : Z) (tod : option (Z * Z)) : outcome Z :=
  match tod with
  | Some (s, us) => do n <- signed lw (us * 1000); nanos tw s n
  | None => Ok 0
  end.

(* 867-871: clock_gettime(CLOCK_MONOTONIC) *)
Definition now_unix (tw lw : Z) (clock : option (Z * Z)) (tod : option (Z * Z)) : outcome Z :=
  do lapse <- match clock with Some (s, n) => nanos tw s n | None => Ok 0 end;
  if lapse =? 0 then fallback tw lw tod else Ok lapse.

(* 861-865: QueryPerformanceCounter; freq is 0 until events_init was called *)
Definition now_win (count : option Z) (freq : Z) (tod : option (Z * Z)) : outcome Z :=
  do lapse <- match count with
              | Some c => do p <- signed 64 (c * 1000000000);
                          if freq =? 0 then UB else Ok (u64 (Z.quot p freq))
              | None => Ok 0
              end;
  if lapse =? 0 then fallback 32 32 tod else Ok lapse.

(* 828-846: ms is the time given by GetSystemTime in milliseconds since 1601, SystemTimeToFileTime counts 100 ns; the two
   halves of the FILETIME are put together again *)
Definition timeofday_win (ms : Z) : Z * Z :=
  let ft := ms * 10000 in
  let low := ft mod 2 ^ 32 in
  let high := ft / 2 ^ 32 in
  let time := u64 (low + u64 (high * 2 ^ 32)) in
  (cast 32 (u64 (time - 116444736000000000) / 10000000), (ms mod 1000) * 1000).

(* 813-820; None: the call failed *)
Definition nsec (lw : Z) (tod : option (Z * Z)) : outcome Z :=
  match tod with
  | Some (s, us) => do n <- signed lw (us * 1000); Ok (u64 (u64 (u64 (u64 (u64 s * 1000) * 1000) * 1000) + u64 n))
  | None => Ok (u64 (-1))
  end.
