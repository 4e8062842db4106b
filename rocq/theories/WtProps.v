(* Claims C128 and C129. *)
From Verif Require Import Base WtModel WtProofs WtProofs2 WtProofs3.

Theorem C128_numbers_reach_their_objects n lp k p l s rs y es : (lp = true \/ forallb (fun o => negb (writes o)) l = true) ->
  steps (start n lp k p) l = Ok (s, rs) -> spec_run sp0 l (map fst rs) = Some (y, es) ->
  map (fun re => (fst re, calls (snd re))) rs = es.
Proof. exact (run_right n lp k p l s rs y es). Qed.
Theorem C128_files_apart f a ok s h s' r e : open_file f a ok s FD_FILE_ASYNC h = Ok (s', r, e) -> r <> (-1)%Z ->
  valid_in (tab s) r = false /\ (0 < r)%Z /\ slot_of (tab s') r = Some (Handle h false None) /\
  forall q, q <> r -> slot_of (tab s') q = slot_of (tab s) q.
Proof. exact (open_fresh f a ok s h s' r e). Qed.
Theorem C128_defined_in_reach n lp k p l s rs y es o : (lp = true \/ forallb (fun o => negb (writes o)) l = true) ->
  steps (start n lp k p) l = Ok (s, rs) -> spec_run sp0 l (map fst rs) = Some (y, es) -> in_reach s o -> exists s' r e, step s o = Ok (s', r, e).
Proof. exact (run_defined n lp k p l s rs y es o). Qed.
Theorem C128_growth_ends a t : 0 < length t -> exists f t', grows f (Some a) t = Ok t' /\ a < length t'.
Proof. exact (grow_ends a t). Qed.
Theorem C128_standard_output_taken_refuted n fdn port h f : 2 <= n -> (Z.of_nat n <= h < fdn)%Z ->
  exists s, steps (start n true fdn port) [Open f None true h; Write 1%Z] = Ok (s, [(1%Z, [EventH]); (0%Z, [WriteH h])]).
Proof. exact (takes_stdout n fdn port h f). Qed.
Theorem C128_far_number_refuted s fd : loops s = true -> entry (tab s) fd = None -> os_read s fd = UB /\ os_write s fd = UB.
Proof. exact (far_read s fd). Qed.
Theorem C128_failed_open_refuted f a ok s : open_file f a ok s FD_FILE_ASYNC (-1) = UB.
Proof. exact (failed_open f a ok s). Qed.
Theorem C128_far_handle_refuted f a ok s h : (fdn s <= h)%Z -> open_file f a ok s FD_FILE_ASYNC h = UB.
Proof. exact (far_handle f a ok s h). Qed.
Theorem C128_idle_write_refuted s fd : loops s = false -> is_socket s fd = false -> os_write s fd = Ok [WriteC fd].
Proof. exact (idle_write s fd). Qed.
Theorem C128_same_number_refuted s fd e : live s = true -> loops s = true -> entry (tab s) fd = Some e -> is_socket s fd = true ->
  os_read s fd = Ok [Recv fd] /\ os_write s fd = Ok [Send fd].
Proof. exact (same_number s fd e). Qed.
Theorem C128_without_table_refuted fl dc s fd e : live s = false -> entry (tab s) fd = Some e -> is_socket s fd = false -> os_close fl dc s fd = UB.
Proof. exact (gone_close fl dc s fd e). Qed.
Theorem C128_after_shutdown_refuted fl dc s fd e : live s = true -> entry (tab s) fd = Some e -> is_socket (os_shutdown s) fd = false -> os_close fl dc (os_shutdown s) fd = UB.
Proof. exact (shut_close fl dc s fd e). Qed.

Theorem C129_closed_once h n lp k p l s rs : forallb (fun o => negb (accepts o)) l = true -> steps (start n lp k p) l = Ok (s, rs) ->
  opened_all h l rs = closed_all h rs + in_use h (tab s).
Proof. exact (handles_balance h n lp k p l s rs). Qed.
Theorem C129_client_never_closed_refuted fl s fd e : live s = true -> entry (tab s) fd = Some e -> ety e = FD_PIPE_ASYNC -> is_socket s fd = false ->
  os_close fl false s fd = Ok (s, -1, [])%Z.
Proof. exact (client_stuck fl s fd e). Qed.
Theorem C129_accepted_closed_twice_refuted n fdn port h : (0 < port < Z.of_nat n)%Z -> (0 < h < Z.of_nat n)%Z -> port <> h -> (Z.of_nat n <= fdn)%Z ->
  exists s, steps (start n true fdn port) [Fifo 0 None h 7; Pipe 0 None true true 7; Close true true h; Close true true port]
  = Ok (s, [(port, [EventH]); (h, [EventH]); (0%Z, [CloseH h]); (0%Z, [CloseH h])]).
Proof. exact (accepted_twice n fdn port h). Qed.
Theorem C129_pipe_lost_refuted n lp fdn h : (0 < fdn)%Z -> h <> (-1)%Z ->
  exists s, steps (start n lp fdn 0) [Fifo 0 None h 7] = Ok (s, [((-1)%Z, [])]) /\ tab s = repeat ent0 n.
Proof. exact (fifo_lost n lp fdn h). Qed.
Theorem C129_events_left_refuted m lp k p h n t e : entry t h = Some e -> ety e = 0 -> (0 < h < k)%Z -> exists t2 rs,
  steps {| live := true; tab := t; loops := lp; fdn := k; port := p; socks := [] |} (again m h) =
    Ok ({| live := true; tab := t2; loops := lp; fdn := k; port := p; socks := [] |}, rs) /\ events rs = m /\ in_use n t2 = in_use n t.
Proof. exact (events_left m lp k p h n t e). Qed.
Theorem C129_shutdown_closes_nothing_refuted s p e : entry (tab s) p = Some e -> live s = true ->
  exists d, entry (tab (os_shutdown s)) p = Some d /\ ety d = 0 /\ eh d = eh e.
Proof. exact (shutdown_keeps s p e). Qed.

Definition st9 : st := with_tab (start 16 true 512 5) (set_nth 1 {| ety := 9; eh := 100; epath := None |} (set_nth 2 {| ety := 9; eh := 104; epath := None |} (set_nth 3 {| ety := 9; eh := 108; epath := None |} (repeat ent0 16)))).
Example C128_ex : exists s, steps (start 16 true 512 5) [Open 0 None true 8%Z; Sock 12%Z; Crt 3%Z; Read 8%Z; Write 8%Z; Write 12%Z; Read 3%Z; Close true true 8%Z; Close true true 12%Z] =
    Ok (s, [(8%Z, [EventH]); (12%Z, []); (3%Z, []); (0%Z, [ReadH 8]); (0%Z, [WriteH 8]); (0%Z, [Send 12]); (0%Z, [ReadC 3]); (0%Z, [CloseH 8]); (0%Z, [CloseS 12])]) /\
  (exists y es, spec_run sp0 [Open 0 None true 8%Z; Sock 12%Z; Crt 3%Z; Read 8%Z] [8; 12; 3; 0]%Z = Some (y, es)) /\
  (* the fourth file takes the number of an open socket *)
  (exists s2, steps (with_socks st9 [4%Z]) [Open 0 None true 300%Z; Write 4%Z] = Ok (s2, [(4%Z, [EventH]); (0%Z, [Send 4])])).
Proof. eexists. split; [reflexivity|]. split; [do 2 eexists; reflexivity|]. eexists. reflexivity. Qed.
Print Assumptions C128_numbers_reach_their_objects.
Print Assumptions C128_files_apart.
Print Assumptions C128_defined_in_reach.
Print Assumptions C128_growth_ends.
Print Assumptions C128_standard_output_taken_refuted.
Print Assumptions C128_far_number_refuted.
Print Assumptions C128_failed_open_refuted.
Print Assumptions C128_far_handle_refuted.
Print Assumptions C128_idle_write_refuted.
Print Assumptions C128_same_number_refuted.
Print Assumptions C128_without_table_refuted.
Print Assumptions C128_after_shutdown_refuted.
Print Assumptions C129_closed_once.
Print Assumptions C129_client_never_closed_refuted.
Print Assumptions C129_accepted_closed_twice_refuted.
Print Assumptions C129_pipe_lost_refuted.
Print Assumptions C129_events_left_refuted.
Print Assumptions C129_shutdown_closes_nothing_refuted.
