(* Deadlines, aligned allocation, allocator table, start-up and shutdown: the claims. *)
From Verif Require Import Base CoreModel CoreProofs.
Local Open Scope Z_scope.

(* C53 *)
Theorem C53_deadline_exact sec nsec ms : 0 <= sec <= 2 ^ 62 -> 0 <= nsec < G -> 0 <= ms < 2 ^ 64 ->
  nanos (timespec_addms sec nsec ms) = nanos (sec, nsec) + ms * 1000000 /\ 0 <= snd (timespec_addms sec nsec ms) < G.
Proof. exact (addms_exact sec nsec ms). Qed.
Theorem C53_sleep_exact ms : 0 <= ms < 2 ^ 32 -> nanos (sleep_spec ms) = ms * 1000000 /\ 0 <= snd (sleep_spec ms) < G.
Proof. exact (sleep_exact ms). Qed.
Example C53_carry : timespec_addms 5 999000000 1001 = (7, 0).
Proof. vm_compute. reflexivity. Qed.

(* C71 *)
Theorem C71_socket_timeout_exact_partial ms : -2147483 <= ms <= 2147483 ->
  exists s u, tcp_timeval ms = Ok (s, u) /\ s * 1000000 + u = ms * 1000 /\ (0 <= ms -> 0 <= u < 1000000).
Proof. exact (tcp_exact ms). Qed.
Theorem C71_socket_timeout_refuted ms : 2147484 <= ms -> tcp_timeval ms = UB.
Proof. exact (tcp_overflow ms). Qed.
Example C71_ex : tcp_timeval 2500 = Ok (2, 500000).
Proof. vm_compute. reflexivity. Qed.

(* C60 *)
Theorem C60_inside line sz base rnd : line = 16 \/ line = 32 \/ line = 64 \/ line = 128 \/ line = 256 ->
  0 <= sz -> 0 <= rnd -> 0 < base -> base + (sz + PAGE + line) <= 2 ^ 64 ->
  forall req p, memalign line sz base rnd = (req, p) ->
  req = sz + PAGE + line /\ base <= p /\ p + sz <= base + req /\ p mod line = 0.
Proof. exact (memalign_inside line sz base rnd). Qed.
Theorem C60_huge_size_refuted : exists sz base rnd req p, 0 <= sz < 2 ^ 64 /\ 0 < base < 2 ^ 63 /\
  memalign 64 sz base rnd = (req, p) /\ req < 4096 /\ base + req < p + sz.
Proof. exact memalign_wraps. Qed.
Example C60_ex : memalign 64 100 10001 4097 = (4260, 10048).
Proof. vm_compute. reflexivity. Qed.

(* C58 *)
Theorem C58_all_or_nothing s m r c f :
  (full m r c f = None /\ snd (set_allocator s m r c f) = -1 /\ errno (fst (set_allocator s m r c f)) = EINVAL /\ tab (fst (set_allocator s m r c f)) = tab s)
  \/ (exists t, full m r c f = Some t /\ snd (set_allocator s m r c f) = 0 /\ errno (fst (set_allocator s m r c f)) = errno s /\ tab (fst (set_allocator s m r c f)) = t).
Proof. exact (set_all_or_nothing s m r c f). Qed.
Theorem C58_calls_installed_partial l s : calls (do_aops None s l) = calls s ++ ref_calls (tab s) l.
Proof. exact (alloc_calls l s). Qed.
Theorem C58_free_keeps_errno s e : errno (call s Free e) = errno s.
Proof. exact (free_errno s e). Qed.
Theorem C58_startup_replaces_refuted p s m r c f w e :
  pick (tab (do_aops (Some p) s [ASet (Some m) (Some r) (Some c) (Some f); AInit])) w = p /\
  exists k, calls (do_aops (Some p) s [ASet (Some m) (Some r) (Some c) (Some f); AInit; ACall w e]) = k ++ [(w, p)].
Proof. exact (init_replaces p s m r c f w e). Qed.
Example C58_ex : ref_calls {| a_malloc := 1; a_realloc := 2; a_calloc := 3; a_free := 4 |}
  [ACall Malloc 0; ASet (Some 5%nat) None (Some 6%nat) (Some 7%nat); ACall Free 0;
   ASet (Some 5%nat) (Some 8%nat) (Some 6%nat) (Some 7%nat); ACall Realloc 0] = [(Malloc, 1%nat); (Free, 4%nat); (Realloc, 8%nat)].
Proof. vm_compute. reflexivity. Qed.

(* C59 *)
Theorem C59_history_balanced_partial l ph : cref Stopped l = Some ph -> exists s, do_cops core0 l = Ok s /\
  allocs s = (frees s + live s)%nat /\ (ph <> Running -> live s = 0%nat) /\
  (ph = Running -> io_table s = true /\ port s = true /\ fds s = true /\ local s = true /\ gc s = true).
Proof. exact (core_history l ph). Qed.
Theorem C59_init_twice s a b c s' r a' b' c' : ev_init s a b c = Ok (s', r) -> ev_init s' a' b' c' = Ok (s', 0).
Proof. exact (init_twice s a b c s' r a' b' c'). Qed.
Theorem C59_deinit_twice s s' : ev_deinit s = Ok s' -> ev_deinit s' = Ok s'.
Proof. exact (deinit_twice s s'). Qed.
Theorem C59_platform_init_twice s a b s' a' b' : os_init s a b = Ok (s', 0) -> os_init s' a' b' = Ok (s', 0).
Proof. exact (os_init_twice s a b s' a' b'). Qed.
Theorem C59_failed_start_refuted :
  exists s s1, ev_init core0 true true false = Ok (s, -1) /\ ev_init s true true true = Ok (s1, 0) /\ live s1 = 0%nat.
Proof. exact failed_start_reports_success. Qed.
Theorem C59_failed_table_refuted : do_cops core0 [CInit false true true; CDeinit] = UB /\ do_cops core0 [CInit true false true] = UB.
Proof. exact failed_table_crashes. Qed.
Example C59_ex : cref Stopped [CDeinit; CInit true true true; CUse; CInit true true true; CDeinit; CDeinit; CInit true true true; CUse] = Some Running.
Proof. reflexivity. Qed.

Print Assumptions C53_deadline_exact.
Print Assumptions C53_sleep_exact.
Print Assumptions C71_socket_timeout_exact_partial.
Print Assumptions C71_socket_timeout_refuted.
Print Assumptions C60_inside.
Print Assumptions C60_huge_size_refuted.
Print Assumptions C58_all_or_nothing.
Print Assumptions C58_calls_installed_partial.
Print Assumptions C58_free_keeps_errno.
Print Assumptions C58_startup_replaces_refuted.
Print Assumptions C59_history_balanced_partial.
Print Assumptions C59_init_twice.
Print Assumptions C59_deinit_twice.
Print Assumptions C59_platform_init_twice.
Print Assumptions C59_failed_start_refuted.
Print Assumptions C59_failed_table_refuted.
