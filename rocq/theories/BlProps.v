(* C195, C196, C197: how long calls block. *)
From Coq Require Import ZArith List Bool.
From Verif Require Import Base BlModel BlProofs.
Import ListNotations.
Local Open Scope Z_scope.

(* C195: up to 2147483 milliseconds *)
Theorem C195_limit_partial : forall a b ms s, 0 <= ms <= 2147483 ->
  tcp_timeout a b ms s = Ok (if a && b then 0 else 1, mkS (if a then limit_of ms else rcv s) (if b then limit_of ms else snd_ s)).
Proof. exact timeout_ok. Qed.
Print Assumptions C195_limit_partial.

(* the product overflows an int *)
Theorem C195_long_refuted : forall a b ms s, 2147483 < ms \/ ms < -2147483 -> tcp_timeout a b ms s = UB.
Proof. exact timeout_long. Qed.
Print Assumptions C195_long_refuted.

(* less than nothing: refused, but whole seconds are taken, for no waiting at all *)
Theorem C195_negative_refuted : forall a b ms s, -2147483 <= ms < 0 ->
  tcp_timeout a b ms s =
    if Z.rem ms 1000 =? 0 then Ok (if a && b then 0 else 1, mkS (if a then Micros 0 else rcv s) (if b then Micros 0 else snd_ s))
    else Ok (1, s).
Proof. exact timeout_neg. Qed.
Print Assumptions C195_negative_refuted.

Theorem C195_windows : forall a b ms s, - 2 ^ 31 <= ms < 2 ^ 31 ->
  let l := if ms <? 0 then Micros ((ms + 2 ^ 32) * 1000) else limit_of ms in
  win_timeout a b ms s = (if a && b then 0 else 1, mkS (if a then l else rcv s) (if b then l else snd_ s)).
Proof. exact win_ok. Qed.
Print Assumptions C195_windows.

(* C196 *)
Theorem C196_sleeps : forall sig ms, 0 <= ms -> (forall t, sig = Some t -> ms * 1000000 <= t) -> os_sleep sig ms = (0, ms * 1000000).
Proof. exact sleep_ok. Qed.
Print Assumptions C196_sleeps.

Theorem C196_signal_refuted : forall t ms, 0 <= ms -> t < ms * 1000000 -> os_sleep (Some t) ms = (-1, t).
Proof. exact sleep_sig. Qed.
Print Assumptions C196_signal_refuted.

(* C197 *)
Theorem C197_nonblocking : forall mask nb f fd v, shows f fd v -> 0 <= nb -> Z.testbit mask nb = true ->
  exists g, set_nonblocking mask nb f fd = (0, g) /\ only_bit f g fd nb true.
Proof. exact nonblocking_ok. Qed.
Print Assumptions C197_nonblocking.

Theorem C197_blocking : forall mask nb f fd v, shows f fd v -> 0 <= nb -> Z.testbit mask nb = true ->
  exists g, set_blocking mask nb f fd = (0, g) /\ only_bit f g fd nb false.
Proof. exact blocking_ok. Qed.
Print Assumptions C197_blocking.

Theorem C197_bad : forall mask nb f fd, (forall v, ~ shows f fd v) ->
  set_nonblocking mask nb f fd = (-1, f) /\ set_blocking mask nb f fd = (-1, f).
Proof. exact bad_fd. Qed.
Print Assumptions C197_bad.

(* tests *)
Example ex_limit : tcp_timeout true true 1500 (mkS Endless Endless) = Ok (0, mkS (Micros 1500000) (Micros 1500000)).
Proof. reflexivity. Qed.
Example ex_hour : tcp_timeout true true 3600000 (mkS Endless Endless) = UB.
Proof. reflexivity. Qed.
Example ex_minus : tcp_timeout true true (-2000) (mkS Endless Endless) = Ok (0, mkS (Micros 0) (Micros 0)).
Proof. reflexivity. Qed.
Example ex_sleep : os_sleep (Some 1000) 1 = (-1, 1000).
Proof. reflexivity. Qed.
Definition two := mkF (fun fd => if fd =? 5 then Some 0%nat else if fd =? 6 then Some 0%nat else if fd =? 7 then Some 1%nat else None) [2; 2].
Example ex_shared : let g := snd (set_nonblocking 11264 11 two 5) in map (getfl g) [5; 6; 7; 8] = [2050; 2050; 2; -1].
Proof. reflexivity. Qed.
