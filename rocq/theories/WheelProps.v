From Verif Require Import Base DllModel DllProofs WheelModel WheelProofs.

(* wheel refines the reference, callbacks included: spec_ops = None when a program breaks a rule (registers a
   registered descriptor, or a callback touches a timeout about to be reported in its own group of 16) *)
Theorem C23_wheel_refines_reference : forall fuel c ti t0 n0 l z, (res c > 0)%Z ->
  spec_ops fuel c (wspec0 t0 n0) l = Some z ->
  exists s, do_ops fuel c (wheel_init ti t0 n0) l = Ok s /\ wlog s = slog z /\ (forall f, owned s f = own z f) /\
    now s = snow z /\ base_time s = stime z.
Proof. exact wheel_observable. Qed.
Print Assumptions C23_wheel_refines_reference.

(* the timeout is reported exactly once, by the first iteration whose clock reaches E *)
Theorem C23_reported_exactly_once_in_time : forall fuel c ti n0 pre z1 f secs, (res c > 0)%Z -> (0 < secs)%Z -> f < maxfd c ->
  spec_ops fuel c (wspec0 n0 n0) pre = Some z1 -> own z1 f = true -> clock_ok n0 pre ->
  exists s1 E, do_ops fuel c (wheel_init ti n0 n0) pre = Ok s1 /\ reported_at c (now s1) secs E /\
  forall during t cb after z', spec_ops fuel c z1 (WAct (WSet f secs) :: during ++ WTick t cb :: after) = Some z' ->
    Forall (op_avoids f) during -> cb_avoids f cb -> Forall (op_avoids f) after ->
    Forall (op_tick (fun u => (u < E)%Z)) during -> (E <= t)%Z ->
    exists s2 s3 s4, do_ops fuel c s1 (WAct (WSet f secs) :: during) = Ok s2 /\ do_op fuel c s2 (WTick t cb) = Ok s3 /\
      do_ops fuel c s3 after = Ok s4 /\
      fires f (wlog s2) = fires f (wlog s1) /\ fires f (wlog s3) = S (fires f (wlog s1)) /\ fires f (wlog s4) = S (fires f (wlog s1)).
Proof. exact fires_once. Qed.
Print Assumptions C23_reported_exactly_once_in_time.

Theorem C23_cleared_is_silent : forall fuel c ti n0 pre z1 a f l z', (res c > 0)%Z -> f < maxfd c -> a = WSet f 0 \/ a = WDel f ->
  spec_ops fuel c (wspec0 n0 n0) pre = Some z1 -> spec_ops fuel c z1 (WAct a :: l) = Some z' -> Forall (op_avoids f) l ->
  exists s1 s2, do_ops fuel c (wheel_init ti n0 n0) pre = Ok s1 /\ do_ops fuel c s1 (WAct a :: l) = Ok s2 /\
    fires f (wlog s2) = fires f (wlog s1).
Proof. exact cleared_quiet. Qed.
Print Assumptions C23_cleared_is_silent.

(* without callback actions the reference never gets stuck *)
Theorem C23_iteration_completes : forall c, (res c > 0)%Z -> forall fuel z, (snow z < stime z + (Z.of_nat fuel + 1) * res c)%Z ->
  exists z', spec_tick fuel c nocb z = Some z'.
Proof. exact tick_nocb. Qed.
Print Assumptions C23_iteration_completes.

Example C23_applies :
  let rearm := fun (_ : list nat) k => if Nat.eqb k 3 then [WSet 3 4; WSet 20 0]%Z else [] in
  match spec_ops 300 cfg0 (wspec0 0 0) [WAct (WAdd 3 2); WAct (WAdd 20 3); WAct (WAdd 21 2); WTick 2 rearm; WTick 3 rearm; WTick 8 nocb] with
  | Some z => slog z = [3; 21; 3]
  | None => False
  end.
Proof. vm_compute. reflexivity. Qed.

(* false without the rules: a timeout cleared, re-armed or unregistered from the callback of another descriptor
   of its group of 16 is still reported (and, re-armed, reported twice) *)
Theorem C23_clear_in_callback_refuted :
  run_log 10 cfg0 [WAct (WAdd 3 1); WAct (WAdd 5 1); WTick 2 clear5] = Some [3; 5] /\
  run_log 10 cfg0 [WAct (WAdd 3 1); WAct (WAdd 5 1); WTick 2 del5] = Some [3; 5] /\
  run_log 20 cfg0 [WAct (WAdd 3 1); WAct (WAdd 5 1); WTick 2 rearm5; WTick 12 nocb] = Some [3; 5; 5].
Proof. exact clear_in_callback. Qed.
Print Assumptions C23_clear_in_callback_refuted.
Example C23_other_group_fine :
  run_log 10 cfg0 [WAct (WAdd 3 1); WAct (WAdd 25 1); WTick 2 (fun _ k => if Nat.eqb k 3 then [WSet 25 0%Z] else [])] = Some [3].
Proof. exact clear_other_group. Qed.

(* registering a registered descriptor again: its old timeout can no longer be cleared *)
Theorem C23_add_twice_refuted :
  run_log 20 cfg0 [WAct (WAdd 3 5); WAct (WAdd 3 0); WAct (WSet 3 0); WAct (WDel 3); WTick 9 nocb] = Some [3].
Proof. exact add_twice. Qed.
Print Assumptions C23_add_twice_refuted.

(* every timeout of more than 128 slots fires when 128 slots have passed *)
Theorem C24_long_timeout_refuted : forall c ti n0 f secs, (res c > 0)%Z -> f < maxfd c -> (128 * res c < secs)%Z ->
  exists s, do_ops 200 c (wheel_init ti n0 n0) [WAct (WAdd f 0); WAct (WSet f secs); WTick (n0 + 128 * res c) nocb] = Ok s /\
    fires f (wlog s) = 1 /\ (n0 + 128 * res c < n0 + secs)%Z.
Proof. exact long_early. Qed.
Print Assumptions C24_long_timeout_refuted.
(* what does hold: timeouts within the configured maximum lie within the 128-slot span *)
Theorem C24_configured_maximum_fits : forall n, (Z.of_nat n <= 128 * resolution n)%Z.
Proof. exact resolution_span. Qed.
Print Assumptions C24_configured_maximum_fits.

Theorem C25_summary_bits_exact : forall fuel c ti t0 n0 l z, (res c > 0)%Z -> spec_ops fuel c (wspec0 t0 n0) l = Some z ->
  exists s, do_ops fuel c (wheel_init ti t0 n0) l = Ok s /\
    (forall r w, r < 128 -> w < vec_size (maxfd c) -> (get (vov s) r w = true <-> vec s r w <> 0%Z)) /\
    (forall r w, r < 128 -> w < vec_size (maxfd c) ->
       (vec s r w <> 0%Z <-> exists f, f < maxfd c /\ f / 16 = w /\ get (vec s) r f = true)) /\
    (forall r f, r < 128 -> f < maxfd c -> (get (vec s) r f = true <-> owned s f = true /\ tidx s f = r)) /\
    (forall f, f < maxfd c -> owned s f = true -> tidx s f < 128 \/ tidx s f = UNUSED).
Proof. exact summary_exact. Qed.
Print Assumptions C25_summary_bits_exact.

(* one block holds both tables: entries lie inside it and distinct entries do not overlap *)
Theorem C25_tables_fit_one_block : forall n idx fd, fd < n -> idx < 128 ->
  let vs := vec_size n in let vvs := vec_of_vec_size n in
  idx * vvs + fd / 16 / 16 < vvs * 128 /\
  vvs * 128 + idx * vs + fd / 16 < (vvs + vs) * 128 /\
  (forall idx' fd', fd' < n -> idx' < 128 -> idx * vs + fd / 16 = idx' * vs + fd' / 16 -> idx = idx' /\ fd / 16 = fd' / 16) /\
  (forall idx' fd', fd' < n -> idx' < 128 -> idx * vvs + fd / 16 / 16 = idx' * vvs + fd' / 16 / 16 -> idx = idx' /\ fd / 16 / 16 = fd' / 16 / 16).
Proof. exact table_fits. Qed.
Print Assumptions C25_tables_fit_one_block.

(* a maximum timeout of 0 gives slots of 0 seconds *)
Theorem C69_zero_maximum_means_zero_slots : forall n, resolution n = 0%Z <-> n = 0.
Proof. exact zero_resolution_value. Qed.
Print Assumptions C69_zero_maximum_means_zero_slots.
Theorem C69_timeout_divides_by_zero_refuted : forall c s f secs, res c = 0%Z -> f < maxfd c -> owned s f = true -> tidx s f = UNUSED ->
  secs <> 0%Z -> set_timeout c s f secs = UB.
Proof. exact zero_resolution. Qed.
Print Assumptions C69_timeout_divides_by_zero_refuted.
Theorem C69_loop_never_returns_refuted : forall c cb, res c = 0%Z -> forall fuel s, base_idx s < 128 -> (forall r j, vov s r j = 0%Z) ->
  (base_time s <= now s)%Z -> handle_timeout fuel c cb s = Fuel.
Proof. exact zero_never_ends. Qed.
Print Assumptions C69_loop_never_returns_refuted.
