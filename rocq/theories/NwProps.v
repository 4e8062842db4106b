(* C171, C172: the clocks. *)
From Verif Require Import Base NwModel NwProofs.
From Coq Require Import Lia.
Open Scope Z_scope.

(* 64-bit Unix: nanoseconds of the monotonic clock, never less than before, and differences are true *)
Theorem C171_unix_partial : forall s n tod lw s' n' tod',
  0 <= s /\ 0 <= n < 1000000000 -> 0 <= s' /\ 0 <= n' < 1000000000 ->
  0 < s * 1000000000 + n -> s' * 1000000000 + n' < 9223372036854775808 ->
  (s < s' \/ s = s' /\ n <= n') ->
  exists a b, now_unix 64 lw (Some (s, n)) tod = Ok a /\ now_unix 64 lw (Some (s', n')) tod' = Ok b /\ a <= b /\
    b - a = (s' - s) * 1000000000 + (n' - n).
Proof. exact now_unix_64_mono. Qed.
Print Assumptions C171_unix_partial.

Theorem C171_unix_value_partial : forall s n tod lw, 0 <= s /\ 0 <= n < 1000000000 -> 0 < s * 1000000000 + n < 9223372036854775808 ->
  now_unix 64 lw (Some (s, n)) tod = Ok (s * 1000000000 + n).
Proof. exact now_unix_64. Qed.
Print Assumptions C171_unix_value_partial.

(* if the monotonic clock fails: the time of day *)
Theorem C171_fallback_partial : forall s us lw, 0 <= s /\ 0 <= us * 1000 < 1000000000 -> 32 <= lw ->
  s * 1000000000 + us * 1000 < 9223372036854775808 -> now_unix 64 lw None (Some (s, us)) = Ok (s * 1000000000 + us * 1000).
Proof. exact now_unix_failed. Qed.
Print Assumptions C171_fallback_partial.

(* which is another clock: the next reading may be less *)
Theorem C171_fallback_refuted : exists c1 t1 c2 t2 a b, now_unix 64 64 c1 t1 = Ok a /\ now_unix 64 64 c2 t2 = Ok b /\
  c1 = None /\ c2 = Some (5, 0) /\ t1 = Some (1700000000, 0) /\ t2 = Some (1700000001, 0) /\ b < a.
Proof. exact now_unix_back. Qed.
Print Assumptions C171_fallback_refuted.

(* time_t of 32 bits: undefined from the third second after the start of the system on *)
Theorem C171_unix32_refuted : forall s n tod, 0 <= s /\ 0 <= n < 1000000000 -> 3 <= s -> now_unix 32 32 (Some (s, n)) tod = UB.
Proof. exact now_unix_32. Qed.
Print Assumptions C171_unix32_refuted.

(* Windows, as long as the counter times 10^9 fits *)
Theorem C171_windows_partial : forall c c' f tod tod', 0 < f <= c * 1000000000 -> 0 <= c <= c' -> c' * 1000000000 < 9223372036854775808 ->
  exists a b, now_win (Some c) f tod = Ok a /\ now_win (Some c') f tod' = Ok b /\ a <= b.
Proof. exact now_win_mono. Qed.
Print Assumptions C171_windows_partial.

Theorem C171_windows_value_partial : forall c f tod, 0 <= c -> 0 < f <= c * 1000000000 -> c * 1000000000 < 9223372036854775808 ->
  now_win (Some c) f tod = Ok (c * 1000000000 / f).
Proof. exact now_win_ok. Qed.
Print Assumptions C171_windows_value_partial.

(* with 10^7 counts a second that is for 922 seconds *)
Theorem C171_windows_refuted : forall c f tod, 9223372037 <= c -> now_win (Some c) f tod = UB.
Proof. exact now_win_late. Qed.
Print Assumptions C171_windows_refuted.

(* before events_init the frequency is 0 *)
Theorem C171_windows_init_refuted : forall c tod, now_win (Some c) 0 tod = UB.
Proof. exact now_win_early. Qed.
Print Assumptions C171_windows_init_refuted.

(* and the time of day does not fit in its place *)
Theorem C171_windows_fallback_refuted : forall s us f, 3 <= s -> 0 <= us < 1000000 -> now_win None f (Some (s, us)) = UB.
Proof. exact now_win_failed. Qed.
Print Assumptions C171_windows_fallback_refuted.

(* the time of day on Windows, ms milliseconds after the start of 1970: exact until 2038 *)
Theorem C172_timeofday_partial : forall ms, 0 <= ms < 2147483648000 ->
  let (s, us) := timeofday_win (ms + 11644473600000) in s * 1000000 + us = ms * 1000 /\ 0 <= us < 1000000.
Proof. exact timeofday_ok. Qed.
Print Assumptions C172_timeofday_partial.

Theorem C172_timeofday_refuted : forall ms, 2147483648000 <= ms < 4294967296000 -> fst (timeofday_win (ms + 11644473600000)) < 0.
Proof. exact timeofday_late. Qed.
Print Assumptions C172_timeofday_refuted.

(* the time by which timers and sleeping tasks are measured *)
Theorem C172_nsec_partial : forall lw s us, 32 <= lw -> 0 <= s -> 0 <= us < 1000000 -> s * 1000000000 + us * 1000 < 18446744073709551616 ->
  nsec lw (Some (s, us)) = Ok (s * 1000000000 + us * 1000).
Proof. exact nsec_ok. Qed.
Print Assumptions C172_nsec_partial.

(* tests *)
Example t_now : now_unix 64 64 (Some (100000, 5)) None = Ok 100000000000005.
Proof. reflexivity. Qed.
Example t_now_last : now_unix 64 64 (Some (9223372036, 854775807)) None = Ok 9223372036854775807.
Proof. reflexivity. Qed.
Example t_now_32 : now_unix 32 32 (Some (2, 147483647)) None = Ok 2147483647 /\ now_unix 32 32 (Some (2, 147483648)) None = UB.
Proof. split; reflexivity. Qed.
Example t_now_32_time64 : now_unix 64 32 (Some (1000000, 1)) None = Ok 1000000000000001.
Proof. reflexivity. Qed.
Example t_failed_both : now_unix 64 64 None None = Ok 0.
Proof. reflexivity. Qed.
Example t_win : now_win (Some 5000000000) 10000000 None = Ok 500000000000.
Proof. reflexivity. Qed.
(* 2001-09-09 01:46:40.123 *)
Example t_tod : timeofday_win (1000000000123 + 11644473600000) = (1000000000, 123000).
Proof. reflexivity. Qed.
Example t_nsec_failed : nsec 64 None = Ok 18446744073709551615.
Proof. reflexivity. Qed.
