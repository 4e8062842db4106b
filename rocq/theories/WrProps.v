(* Ports of the Windows poller and their handles, and waiting times: the theorems. *)
Require Import Verif.Base Verif.WrModel Verif.WrProofs Verif.WrProofs2 Verif.WrProofs3 Verif.WrProofs4.
Require Import List ZArith Bool.
Import ListNotations.
Open Scope Z_scope.

(* ---- C117 ---- *)
Theorem C117_lifetime_partial : forall N ls, Z.of_nat N < 268435456 -> calm N world0 ls -> exists s o, run N world0 ls = Ok (s, o) /\ legal spec0 o.
Proof. exact lifetime. Qed.
(* a closing thread waits only while others are inside, and is told by the last of them, who meets it *)
Theorem C117_close_ends_partial : forall N ls s o t a, Z.of_nat N < 268435456 -> calm N world0 ls -> run N world0 ls = Ok (s, o) -> thr s t = TAwait a ->
  (exists u, thr s u = THold a \/ exists h, thr s u = TLoad a h) \/
  (exists u s', thr s u = TSig a /\ step N s (LMeet u t) = Ok (s', []) /\ thr s' t = TPoison a /\ thr s' u = TOut).
Proof. exact await_ends. Qed.
Theorem C117_signal_met_partial : forall N ls s o t a, Z.of_nat N < 268435456 -> calm N world0 ls -> run N world0 ls = Ok (s, o) -> thr s t = TSig a ->
  exists u, thr s u = TAwait a.
Proof. exact signal_met. Qed.
Theorem C117_nothing_left_partial : forall N ls s o, Z.of_nat N < 268435456 -> calm N world0 ls -> run N world0 ls = Ok (s, o) -> (forall t, thr s t = TOut) ->
  (forall a p, mem s a = Some p -> exists h, lookup h (sm (afters spec0 o)) = Some (pid p)) /\
  (forall h id, lookup h (hands s) = Some id <-> lookup h (sm (afters spec0 o)) = Some id).
Proof. exact nothing_left. Qed.
(* a registration that needs a new device handle while the port is being closed *)
Theorem C117_device_refuted : run 2 world0 [LCreate 0 7 100; LAdd 0; LFind 1 100; LRef 1; LDel 0 100; LClose 0; LUse 1 true] = UB.
Proof. exact device_race. Qed.
(* a wait takes the completions of another port that got the same handle value *)
Theorem C117_other_port_refuted : exists s o,
  run 3 world0 [LCreate 0 7 100; LAdd 0; LFind 1 100; LRef 1; LLoad 1; LDel 0 100; LClose 0; LCreate 2 8 100; LAdd 2; LTake 1] = Ok (s, o) /\ ~ legal spec0 o.
Proof. destruct steal_race as (s & R). eexists _, _. split; [exact R|exact steal_illegal]. Qed.
(* two calls inside, closed meanwhile, the handle value and the address used again *)
Example C117_ex : exists s, run 4 world0 [LCreate 0 7 100; LAdd 0; LFind 1 100; LFind 2 100; LRef 1; LDel 0 100; LRef 2; LDel 0 100; LUse 1 true; LClose 0; LDestroy 0;
    LCreate 3 7 100; LCreate 3 9 100; LAdd 3; LUnref 1; LUse 2 false; LUnref 2; LMeet 2 0; LPoison 0; LFree 0; LFind 1 100; LRef 1; LUse 1 true; LCreate 0 7 50; LAdd 0; LDel 0 60] =
  Ok (s, [OCreate 0 (Some (100, 0%nat)); OCall 1 100 (Some 0%nat); OCall 2 100 (Some 0%nat); OClose 0 100 (Some 0%nat); OUse 1 0; OCreate 3 (Some (100, 1%nat)); OLeave 1; OUse 2 0; OLeave 2; OFreed 0;
    OCall 1 100 (Some 1%nat); OUse 1 1; OCreate 0 (Some (50, 2%nat)); OClose 0 60 None]) /\ thr s 1%nat = THold 9.
Proof. eexists. vm_compute. split; reflexivity. Qed.

(* ---- C118 ---- *)
Theorem C118_wait_partial : forall timeout now rs res t l, 0 < timeout <= 2147483647 -> (forall d k, In (d, k) rs -> 0 <= d) -> port_wait timeout now rs = Ok (res, t, l) ->
  (forall n x, In (n, x) l -> n + x = now + timeout /\ 0 < x) /\ (res = WZero -> now + timeout <= t).
Proof. exact wait_pos. Qed.
Theorem C118_no_wait_partial : forall now rs res t l, 0 <= now -> (forall d k, In (d, k) rs -> 0 <= d) -> port_wait 0 now rs = Ok (res, t, l) -> l = [(now, 0)].
Proof. exact wait_zero. Qed.
(* the report is that of the last call of the kernel: events, a failure, or neither when the time is over *)
Theorem C118_told_partial : forall timeout now rs res t l, 0 <= timeout <= 2147483647 -> 0 <= now -> (forall d k, In (d, k) rs -> 0 <= d) -> port_wait timeout now rs = Ok (res, t, l) ->
  exists d k, nth_error rs (length l - 1) = Some (d, k) /\ (0 < length l)%nat /\ (res = WErr <-> k = KErr) /\ (res = WGot <-> k = KGot).
Proof. exact wait_told. Qed.
Theorem C118_endless_partial : forall timeout now rs res t l, timeout < 0 -> port_wait timeout now rs = Ok (res, t, l) -> res <> WZero /\ forall n x, In (n, x) l -> x = INFINITE.
Proof. exact wait_endless. Qed.
Theorem C118_no_time_partial : pwait2 None = Ok (-1).
Proof. exact pwait2_none. Qed.
(* a time given in nanoseconds is right for one value in a million *)
Theorem C118_nanoseconds_refuted : forall sec nsec, 0 <= sec <= 2000000 -> 0 <= nsec < 1000000000 ->
  (pwait2 (Some (sec, nsec)) = Ok (asked sec nsec) <-> exists q, 0 <= q < 1000 /\ nsec = q * 1000001 + 2).
Proof. exact pwait2_iff. Qed.
Theorem C118_seconds_refuted : forall sec, 0 <= sec <= 2000000 -> pwait2 (Some (sec, 0)) = Ok (asked sec 0 + 999999).
Proof. exact pwait2_seconds. Qed.
Example C118_ex : port_wait 500 1000 [(100, KNone); (200, KNone); (3, KTimeout)] = Ok (WZero, 1503, [(1000, 500); (1100, 400); (1300, 200)]) /\ pwait2 (Some (2, 5000000)) = Ok 1001999.
Proof. vm_compute. auto. Qed.

Print Assumptions C117_lifetime_partial.
Print Assumptions C117_close_ends_partial.
Print Assumptions C117_signal_met_partial.
Print Assumptions C117_nothing_left_partial.
Print Assumptions C117_device_refuted.
Print Assumptions C117_other_port_refuted.
Print Assumptions C118_wait_partial.
Print Assumptions C118_no_wait_partial.
Print Assumptions C118_told_partial.
Print Assumptions C118_endless_partial.
Print Assumptions C118_no_time_partial.
Print Assumptions C118_nanoseconds_refuted.
Print Assumptions C118_seconds_refuted.
