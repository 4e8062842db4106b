(* Processors for a thread: os_cpumask_set and os_affinity in os_unix.c 826-877 (Linux: the macros of the C library; macOS: the
   functions of lines 829-864) and os_windows.c 1307-1313.  A mask starts as zeroes, as in tests/test-thread.c 15.
   The system: [avail] the processors Linux has for the process, [p] the mask of the process on Windows.  A mask on Linux is the
   sixteen words of cpu_set_t; on Windows one number of [w] bits; on macOS 32 bits.  Left out: BSD, and Android (always ENOSYS). *)
From Coq Require Import ZArith List Bool.
From Verif Require Import Base.
Import ListNotations.
Local Open Scope Z_scope.

(* Linux: CPU_SET ignores what is beyond the set; the call gives the error number, 22 is EINVAL *)
Definition linux_zero : list Z := repeat 0 16.
Definition linux_set (m : list Z) (i : Z) : outcome (list Z) :=
  if i / 8 <? 128 then
    do x <- rd m (Z.to_nat (i / 64));
    wr m (Z.to_nat (i / 64)) (Z.lor x (Z.shiftl 1 (i mod 64)))
  else Ok m.
Definition linux_has (m : list Z) (i : Z) : bool := Z.testbit (nth (Z.to_nat (i / 64)) m 0) (i mod 64).
Definition linux_affinity (avail : Z -> bool) (m : list Z) (now : Z -> bool) : Z * (Z -> bool) :=
  let n i := linux_has m i && avail i in
  if existsb n (map Z.of_nat (seq 0 1024)) then (0, n) else (22, now).

(* Windows: (size_t)1 << i; SetThreadAffinityMask gives 0 for a mask of no processor or of one that the process may not use *)
Definition win_set (w v i : Z) : outcome Z := if w <=? i then UB else Ok (Z.lor v (Z.shiftl 1 i)).
Definition win_affinity (p v now : Z) : Z * Z :=
  if (v =? 0) || negb (Z.land v p =? v) then (1, now) else (0, v).

(* macOS: 1 << num in int; the argument is converted to int, so that those from 2^31 on are negative.  The answer is the tag given
   to thread_policy_set, whose result is not looked at *)
Definition mac_set (c i : Z) : outcome Z := if 31 <=? i then UB else Ok (Z.lor c (Z.shiftl 1 i)).
Fixpoint mac_find (n : nat) (core c : Z) : outcome Z :=
  match n with
  | O => Ok core
  | S n => if 31 <=? core then UB else if Z.testbit c core then Ok core else mac_find n (core + 1) c
  end.
Definition mac_affinity (c : Z) : outcome (Z * Z) := do t <- mac_find 32 0 c; Ok (0, t).

(* macOS sched_getaffinity, os_unix.c 833-849: n: the number of cores *)
Fixpoint mac_all (n : nat) (i c : Z) : outcome Z :=
  match n with
  | O => Ok c
  | S n => if 31 <=? i then UB else mac_all n (i + 1) (Z.lor c (Z.shiftl 1 i))
  end.
Definition mac_getaffinity (n : nat) : outcome Z := mac_all n 0 0.

(* os_cpumask_set for each of a list *)
Fixpoint sets {M} (f : M -> Z -> outcome M) (m : M) (l : list Z) : outcome M :=
  match l with
  | [] => Ok m
  | i :: r => do m1 <- f m i; sets f m1 r
  end.
