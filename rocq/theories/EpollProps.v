From Verif Require Import Base DllModel DllProofs EpollModel EpollProofs.
Local Open Scope Z_scope.

(* programs may register, re-register, unregister, change interest and close, also from callbacks *)
Theorem C26_kernel_watches_registered_interest : forall twice maxfd pollable ops z, spec_eops twice maxfd espec0 ops = Some z ->
  exists s, do_eops maxfd pollable ep_init ops = Ok s /\ elog s = dlog z /\
    forall f l i p, reg z f = Some (l, i, p) -> i <> 0 -> pollable f = true -> kern s l f = Some (kmask i).
Proof. exact kernel_interest. Qed.
Print Assumptions C26_kernel_watches_registered_interest.

(* false for a descriptor the kernel cannot poll: it is registered and counted, and no error is returned *)
Theorem C26_refused_descriptor_refuted : forall maxfd pollable l f i, (l <> 0)%nat -> (f < maxfd)%nat -> 0 <= i <= 3 -> pollable f = false ->
  exists s, do_eops maxfd pollable ep_init [EAct (EAdd l f i)] = Ok s /\ tloop s f = l /\ active s l = 1 /\ kern s l f = None.
Proof. exact refused. Qed.
Print Assumptions C26_refused_descriptor_refuted.
(* false for path watches: none is ever passed to the kernel *)
Theorem C26_path_watch_refuted : forall maxfd pollable l f, (l <> 0)%nat -> (f < maxfd)%nat ->
  exists s, do_eops maxfd pollable ep_init [EAct (EAdd l f PATHWATCH)] = Ok s /\ tloop s f = l /\ active s l = 1 /\ forall l' f', kern s l' f' = None.
Proof. exact path_unwatched. Qed.
Print Assumptions C26_path_watch_refuted.
(* false for a path watch together with an interest: the kernel gets edge-triggered reading whatever was asked *)
Theorem C26_path_with_interest_refuted : forall maxfd pollable l f i, (l <> 0)%nat -> (f < maxfd)%nat -> 1 <= i <= 3 -> pollable f = true ->
  exists s, do_eops maxfd pollable ep_init [EAct (EAdd l f (Z.lor PATHWATCH i))] = Ok s /\ tpath s f = false /\ kern s l f = Some (1 + 2 ^ 31).
Proof. exact path_mixed. Qed.
Print Assumptions C26_path_with_interest_refuted.

Example C26_applies :
  let cb := fun (_ : list edeliv) f (_ : Z) => if Nat.eqb f 4 then [EDel 5; EAdd 2 5 2; ESet 4 0] else [] in
  match spec_eops false 8 espec0 [EAct (EAdd 1 4 1); EAct (EAdd 1 5 3); EAct (ESet 5 1); EPoll 1 [(4%nat, 1); (5%nat, 17); (6%nat, 1)] cb;
                            EAct (ESet 4 2); EAct (EDel 5); EAct (EClose 5); EAct (EAdd 1 5 1)] with
  | Some z => reg z 4%nat = Some (1%nat, 2, false) /\ reg z 5%nat = Some (1%nat, 1, false) /\ dlog z = [ECall 1 4 1]
  | None => False
  end.
Proof. vm_compute. auto. Qed.

(* each callback of a batch goes to a descriptor registered with this loop, with a non-empty interest, in the
   state the earlier callbacks left, and shows exactly the reported flags; every other event calls nothing *)
Theorem C27_callbacks_only_for_registered : forall twice maxfd pollable ops l b cb z z',
  spec_eops twice maxfd espec0 ops = Some z -> spec_eop twice maxfd z (EPoll l b cb) = Some z' ->
  emits twice maxfd l cb b z z' /\
  exists s s', do_eops maxfd pollable ep_init ops = Ok s /\ do_eop maxfd pollable s (EPoll l b cb) = Ok s' /\ elog s = dlog z /\ elog s' = dlog z'.
Proof. exact poll_emits. Qed.
Print Assumptions C27_callbacks_only_for_registered.
Theorem C27_stale_event_silent_and_removed : forall twice maxfd pollable ops z l f m cb,
  spec_eops twice maxfd espec0 ops = Some z -> (l <> 0)%nat -> (f < maxfd)%nat ->
  (forall i p, reg z f = Some (l, i, p) -> i = 0) ->
  exists s s', do_eops maxfd pollable ep_init ops = Ok s /\ do_eop maxfd pollable s (EPoll l [(f, m)] cb) = Ok s' /\
    elog s' = elog s /\ kern s' l f = None /\ (forall l' f', (l', f') <> (l, f) -> kern s' l' f' = kern s l' f') /\
    tloop s' = tloop s /\ tev s' = tev s.
Proof. exact stale_event. Qed.
Print Assumptions C27_stale_event_silent_and_removed.

Theorem C28_count_is_number_registered : forall maxfd pollable ops z, spec_eops false maxfd espec0 ops = Some z ->
  exists s, do_eops maxfd pollable ep_init ops = Ok s /\ forall l, (l <> 0)%nat ->
    active s l = Z.of_nat (registered maxfd z l) /\ (is_running s l = true <-> exists f i p, reg z f = Some (l, i, p)).
Proof. exact count_balanced. Qed.
Print Assumptions C28_count_is_number_registered.
Theorem C28_registered_twice_refuted : forall maxfd pollable l f i n m, (l <> 0)%nat -> (f < maxfd)%nat -> 0 <= i <= 3 ->
  exists s, do_eacts maxfd pollable ep_init (repeat (EAdd l f i) (S n) ++ repeat (EDel f) (S m)) = Ok s /\
    tloop s f = 0%nat /\ active s l = Z.of_nat n.
Proof. exact double_add. Qed.
Print Assumptions C28_registered_twice_refuted.

(* closed, error and path events *)
Theorem C70_hangup_shows_read_and_timeout_refuted : forall m, Z.testbit m 4 = true -> Z.land (revents m) 5 = 5.
Proof. exact closed_bits. Qed.
Print Assumptions C70_hangup_shows_read_and_timeout_refuted.
Theorem C70_error_only_spins_refuted : forall maxfd pollable l f cb s, (f < maxfd)%nat -> tloop s f = l -> Z.land (tev s f) RW <> 0 -> tpath s f = false ->
  do_eop maxfd pollable s (EPoll l [(f, EPOLLERR)] cb) = Ok s.
Proof. exact error_only. Qed.
Print Assumptions C70_error_only_spins_refuted.
Theorem C70_path_event_drops_batch_refuted : forall maxfd pollable l f m rest cb s, (f < maxfd)%nat -> tloop s f = l -> Z.land (tev s f) RW <> 0 -> tpath s f = true ->
  do_eop maxfd pollable s (EPoll l ((f, m) :: rest) cb) = Ok (add_elog s (EPath l f)).
Proof. exact path_drops. Qed.
Print Assumptions C70_path_event_drops_batch_refuted.
