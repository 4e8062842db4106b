(* Theorems about setting up the threads of the library and ending them. *)
From Verif Require Import Base PsModel PsProofs PsProofs2 PsProofs3 PsProofs4.

(* C164.  Whatever the main thread calls and whatever fails on the way: a thread has a place between 1 and the number of
   cores and the loop of that number; tasks go to running threads of tasks, futures to running threads of futures, and
   each such thread gets some; without a thread of tasks there is a panic, nothing worse. *)
Theorem C164_threads : forall cores ok l s, run cores ok (init cores) l = Ok s ->
  (forall i o h, o = QFuture \/ o = QTasks -> runs s i o h ->
     h = i - 1 /\ 1 <= i <= cores /\ exists b, nth_error (loops s) h = Some {| lid := i; lalive := b |}) /\
  (forall c i, go s c = Ok i -> runs s i QTasks (i - 1)) /\
  (forall i h, runs s i QTasks h -> exists c, go s c = Ok i) /\
  (forall c, go s c <> UB /\ go s c <> Fuel) /\
  (forall c, go s c = Exn <-> forall i h, ~ runs s i QTasks h) /\
  (forall c i, futures_pool s c = Ok i -> runs s i QFuture (i - 1)) /\
  (forall i h, runs s i QFuture h -> exists c, futures_pool s c = Ok i) /\
  (forall i h c, runs s i QFuture h -> exists j, futures_pool s c = Ok j) /\
  (forall i, mpool s = Some i -> runs s i QFuture (i - 1)).
Proof. exact threads_ok. Qed.
Print Assumptions C164_threads.
(* the two tables name each thread once *)
Theorem C164_tables : forall cores ok l s, run cores ok (init cores) l = Ok s ->
  NoDup (fidx s ++ tidx s) /\ length (fidx s ++ tidx s) <= cores /\
  (forall i, In i (fidx s) <-> exists h, runs s i QFuture h) /\ (forall i, In i (tidx s) <-> exists h, runs s i QTasks h).
Proof. exact threads_round. Qed.
Print Assumptions C164_tables.
Example C164_test : exists s, run 4 (fun _ => true) (init 4) [OCreate; OCreate; OPool (Some 1); OAccept 5; OInit 2] = UB /\
  run 4 (fun _ => true) (init 4) [OCreate; OCreate; OPool (Some 1); OAccept 5] = Ok s /\ fidx s = [1] /\ tidx s = [2].
Proof. eexists. split; [vm_compute; reflexivity|]. split; [vm_compute; reflexivity|]. split; reflexivity. Qed.

(* C165.  Nothing failing, all cores are set up as asked: as many futures as asked, at least one and at most the number
   of cores, and threads of tasks for the rest; a round of calls reaches each of them once. *)
Theorem C165_init_pool : forall cores ok count s0, 1 <= cores -> (forall n, ok n = true) ->
  (s0 = init cores \/ create cores ok (init cores) = Ok (s0, Some 0)) ->
  let f := Nat.max 1 (Nat.min count cores) in
  exists s, init_pool cores ok s0 count = Ok (s, Some 0) /\ mloop s = Some 0 /\
    (forall i, 1 <= i <= f -> runs s i QFuture (i - 1)) /\ (forall i, f < i <= cores -> runs s i QTasks (i - 1)) /\
    loops s = map (fun i => {| lid := i; lalive := true |}) (seq 1 cores) /\
    (forall c, futures_pool s c = Ok (1 + c mod f)) /\
    (f < cores -> forall c, go s c = Ok (S f + c mod (cores - f)) /\ accept cores ok s c = Ok (s, Some (S f + c mod (cores - f)))) /\
    (f = cores -> forall c, go s c = Exn).
Proof. exact init_pool_ok. Qed.
Print Assumptions C165_init_pool.
(* after two loops of the main thread's own, the set-up reads behind the table *)
Theorem C165_two_loops_refuted : forall cores ok, (forall n, ok n = true) -> forall k count, 2 <= cores -> 2 <= k ->
  run cores ok (init cores) (repeat OCreate k ++ [OInit count]) = UB.
Proof. exact init_pool_many. Qed.
Print Assumptions C165_two_loops_refuted.
(* with futures on all cores, or a single core, a server's first connection reads behind the table *)
Theorem C165_first_connection_refuted : forall cores ok, (forall n, ok n = true) -> forall count c, 1 <= cores -> cores <= Nat.max 1 count ->
  exists s, init_pool cores ok (init cores) count = Ok (s, Some 0) /\ accept cores ok s c = UB.
Proof. exact accept_full_pool. Qed.
Print Assumptions C165_first_connection_refuted.
Example C165_test : exists s, init_pool 4 (fun _ => true) (init 4) 2 = Ok (s, Some 0) /\ fidx s = [1; 2] /\ tidx s = [3; 4].
Proof. eexists. split; [vm_compute; reflexivity|]. split; reflexivity. Qed.

(* C166.  Nothing having failed, and the main thread not having destroyed a loop: every thread is joined once, no queue is
   left, and exactly the loops of the threads are freed. *)
Theorem C166_end_partial : forall cores ok l s, (forall n, ok n = true) -> Forall no_destroy l -> run cores ok (init cores) l = Ok s ->
  exists s' js, deinit cores s = Ok (s', js) /\
    NoDup js /\ (forall i, In i js <-> exists o h, (o = QFuture \/ o = QTasks) /\ runs s i o h) /\
    (forall i q, nth_error (local s') i <> Some (Some q)) /\
    (forall h n b, nth_error (loops s') h = Some {| lid := n; lalive := b |} ->
       (b = false <-> exists i o, (o = QFuture \/ o = QTasks) /\ runs s i o h)).
Proof. exact deinit_ok. Qed.
Print Assumptions C166_end_partial.
(* with no more loops than cores, all queues are told to stop *)
Theorem C166_stop_partial : forall cores ok l s, run cores ok (init cores) l = Ok s -> length (loops s) <= cores ->
  exists js, shutdown s = Ok js /\ (forall i, In i js <-> exists q, nth_error (local s) i = Some (Some q)).
Proof. exact shutdown_ok. Qed.
Print Assumptions C166_stop_partial.
(* the usual end, as in the examples and in events_start: the main thread destroys the loop it was given, and the thread of
   the first future does so again *)
Theorem C166_usual_end_refuted : forall cores ok, (forall n, ok n = true) -> forall count, 1 <= cores ->
  exists s s1, init_pool cores ok (init cores) count = Ok (s, Some 0) /\ destroy s (Some 0) = Ok (s1, true) /\ deinit cores s1 = UB.
Proof. exact end_twice. Qed.
Print Assumptions C166_usual_end_refuted.
(* with more loops than cores, telling them to stop reads behind the table *)
Theorem C166_stop_refuted : forall cores ok, (forall n, ok n = true) -> forall k, 1 <= cores -> cores < k ->
  exists s, run cores ok (init cores) (repeat OCreate k) = Ok s /\ shutdown s = UB.
Proof. exact shutdown_many. Qed.
Print Assumptions C166_stop_refuted.
(* a thread that did not start is joined *)
Theorem C166_not_started_refuted : forall cores, 1 <= cores ->
  exists s, create cores (fails_at 5) (init cores) = Ok (s, Some 0) /\ deinit cores s = UB.
Proof. exact thread_fails. Qed.
Print Assumptions C166_not_started_refuted.
Example C166_test : exists s s' js, run 3 (fun _ => true) (init 3) [OCreate; OCreate; OCreate; OPool (Some 2)] = Ok s /\
  deinit 3 s = Ok (s', js) /\ js = [1; 3] /\ map lalive (loops s') = [false; true; false].
Proof. eexists _, _, _. split; [vm_compute; reflexivity|]. split; [vm_compute; reflexivity|]. split; reflexivity. Qed.

(* C167.  For a loop whose place is free, the answer tells whether a thread was made; others are not touched. *)
Theorem C167_pool_partial : forall cores ok l s h i s' b, run cores ok (init cores) l = Ok s -> loop_at s (Some h) = Ok i -> i <= cores ->
  nth_error (local s) i = Some None -> create_pool cores ok s (Some h) = Ok (s', b) ->
  (b = true <-> runs s' i QTasks h) /\ (b = false -> forall o h', ~ runs s' i o h') /\
  (forall j, j <> i -> nth_error (local s') j = nth_error (local s) j) /\ loops s' = loops s.
Proof. exact create_pool_new. Qed.
Print Assumptions C167_pool_partial.
Theorem C167_future_partial : forall cores ok l s h i s' f, run cores ok (init cores) l = Ok s -> loop_at s (Some h) = Ok i -> i <= cores ->
  nth_error (local s) i = Some None -> create_future cores ok s (Some h) = Ok (s', f) ->
  (f = Some i <-> runs s' i QFuture h) /\ (f <> Some i -> f = mpool s /\ forall o h', ~ runs s' i o h') /\
  (forall j, j <> i -> nth_error (local s') j = nth_error (local s) j) /\ loops s' = loops s.
Proof. exact create_future_new. Qed.
Print Assumptions C167_future_partial.
(* asked for a thread of tasks for the main thread's own loop, the library answers that all is well and makes none *)
Theorem C167_own_loop_refuted : forall cores ok, (forall n, ok n = true) -> 1 <= cores ->
  exists s, create cores ok (init cores) = Ok (s, Some 0) /\ create_pool cores ok s (Some 0) = Ok (s, true) /\ forall c, go s c = Exn.
Proof. exact own_loop. Qed.
Print Assumptions C167_own_loop_refuted.
(* asked again after the thread did not start, it answers that all is well *)
Theorem C167_again_refuted : forall cores, 2 <= cores ->
  exists s1 s2 s3, create cores (fails_at 13) (init cores) = Ok (s1, Some 0) /\
  create cores (fails_at 13) s1 = Ok (s2, Some 1) /\ create_pool cores (fails_at 13) s2 (Some 1) = Ok (s3, false) /\
  create_pool cores (fails_at 13) s3 (Some 1) = Ok (s3, true) /\ forall c, go s3 c = Exn.
Proof. exact retry. Qed.
Print Assumptions C167_again_refuted.
(* a loop that could not be made stays the loop of the main thread *)
Theorem C167_no_poller_refuted : forall cores, 1 <= cores ->
  exists s, create cores (fails_at 6) (init cores) = Ok (s, None) /\ mloop s = Some 0 /\ loop_at s (mloop s) = UB /\ deinit cores s = UB.
Proof. exact poller_fails. Qed.
Print Assumptions C167_no_poller_refuted.
(* a loop that could not be made is used for a connection *)
Theorem C167_connection_refuted : forall cores c, 2 <= cores ->
  exists s, create cores (fails_at 7) (init cores) = Ok (s, Some 0) /\ accept cores (fails_at 7) s c = UB.
Proof. exact accept_no_memory. Qed.
Print Assumptions C167_connection_refuted.
Example C167_test : exists s s', run 3 (fun _ => true) (init 3) [OCreate; OCreate] = Ok s /\
  loop_at s (Some 1) = Ok 2 /\ create_pool 3 (fun _ => true) s (Some 1) = Ok (s', true) /\ tidx s' = [2].
Proof. eexists _, _. split; [vm_compute; reflexivity|]. split; [vm_compute; reflexivity|]. split; [vm_compute; reflexivity|]. reflexivity. Qed.
