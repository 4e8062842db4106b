(* The Windows poller: properties. *)
Require Import Verif.Base Verif.WeModel Verif.WeProofs Verif.WeProofs2 Verif.WeProofs3 Verif.WeProofs4.
Require Import List ZArith Bool.
Import ListNotations.
Open Scope Z_scope.

(* C113: whatever callers, threads and kernel do in whatever order, no freed socket state is used, no assertion
   fails, no socket has two requests at the kernel, and what the callers see is as `fair` says *)
Theorem C113_port : forall c ls, exists p o, run (port0 c) ls = Ok (p, o) /\ legal st0 o.
Proof. exact port_run. Qed.
Print Assumptions C113_port.
Example C113_reports : exists p, run (port0 (fun _ => 0)) [LCtl 4 (CAdd (EPOLLIN + EPOLLONESHOT) 7 0) true good; LWait 0 8 true true good; KCond 0 AFD_RECEIVE; KDone 0 (KEvents AFD_RECEIVE); LTake 0 1; LFeed 0 false good] =
  Ok (p, [OCtl 4 (CAdd (EPOLLIN + EPOLLONESHOT) 7 0) true None; OWait 0 8 true; OAnswer 4 (KEvents AFD_RECEIVE); OReport 0 4 EPOLLIN 7; ORet 0 (Some 1%nat)]).
Proof. eexists. vm_compute. reflexivity. Qed.
Example C113_closed : exists p, run (port0 (fun _ => 0)) [LCtl 4 (CAdd EPOLLIN 7 0) true good; LWait 0 8 true true good; KClose 0; KDone 0 (KEvents AFD_LOCAL_CLOSE); LTake 0 1; LFeed 0 false good; LCtl 4 CDel true good] =
  Ok (p, [OCtl 4 (CAdd EPOLLIN 7 0) true None; OWait 0 8 true; OClosed 4; OAnswer 4 (KEvents AFD_LOCAL_CLOSE); ODrop 4; OCtl 4 CDel true (Some ENOENT)]).
Proof. eexists. vm_compute. reflexivity. Qed.
(* what is not allowed *)
Example C113_not_asked : ~ fair (ends st0 [OCtl 4 (CAdd EPOLLIN 7 0) true None; OWait 0 8 true; OAnswer 4 (KEvents AFD_SEND)]) (OReport 0 4 EPOLLOUT 7).
Proof. intros (_ & e & a & E & A & _ & _ & B). vm_compute in E. injection E as <-. vm_compute in A. injection A as <-. specialize (B 2 ltac:(discriminate)). vm_compute in B. discriminate. Qed.
Example C113_once : ~ fair (ends st0 [OCtl 4 (CAdd EPOLLIN 7 0) true None; OWait 0 8 true; OAnswer 4 (KEvents AFD_RECEIVE); OReport 0 4 EPOLLIN 7]) (OReport 0 4 EPOLLIN 7).
Proof. intros (_ & e & a & E & A & _). vm_compute in E. injection E as <-. discriminate A. Qed.

(* C114: while a thread waits and the device takes every poll and cancel, nothing that was asked for stays unseen *)
Theorem C114_no_lost_event_partial : forall c ls p o t, run (port0 c) ls = Ok (p, o) -> Forall cool ls -> quiet p -> thr p t <> TOut ->
  forall k e, ents (ends st0 o) k = Some e -> exists i, lookup k (tree p) = Some i /\ ecl e = false /\ forall j, 0 <= j -> told (KEvents (cond p i)) j && Z.testbit (easked e) j = false.
Proof. exact no_lost. Qed.
Print Assumptions C114_no_lost_event_partial.
Theorem C114_time_out_partial : forall c ls p o t m v, run (port0 c) ls = Ok (p, o) -> Forall cool ls -> thr p t = TIn m false -> exists p', step p (LStop t true v) = Ok (p', [ORet t (Some O)]).
Proof. exact time_out. Qed.
Print Assumptions C114_time_out_partial.
Theorem C114_lost_event_refuted : exists ls p o t k e i, run (port0 (fun _ => 0)) ls = Ok (p, o) /\ quiet p /\ thr p t <> TOut /\ In (OCtl k (CAdd EPOLLIN 7 0) true None) o /\
  ents (ends st0 o) k = Some e /\ lookup k (tree p) = Some i /\ told (KEvents (cond p i)) 0 && Z.testbit (easked e) 0 = true.
Proof. exact lost. Qed.
Print Assumptions C114_lost_event_refuted.
Theorem C114_one_socket_blocks_refuted : exists ls p o e, run (port0 (fun _ => 0)) ls = Ok (p, o) /\ lookup 4 (tree p) = Some O /\ lookup 5 (tree p) = Some 1%nat /\ ents (ends st0 o) 5 = Some e /\ told (KEvents (cond p 1)) 0 && Z.testbit (easked e) 0 = true /\
  forall ls', Forall (blocked 0) ls' -> exists p', run p ls' = Ok (p', failing ls') /\ lookup 5 (tree p') = Some 1%nat /\ cond p' 1%nat = cond p 1%nat.
Proof. exact stuck. Qed.
Print Assumptions C114_one_socket_blocks_refuted.
Theorem C114_time_out_refuted : exists ls p o p', run (port0 (fun _ => 0)) ls = Ok (p, o) /\ thr p 0%nat = TIn 1 false /\ step p (LStop 0 true refusing) = Ok (p', [ORet 0 None]).
Proof. exact late. Qed.
Print Assumptions C114_time_out_refuted.
Definition rest_run : list label := [LCtl 4 (CAdd EPOLLIN 7 0) true good; LWait 0 8 true true good; KCond 0 AFD_SEND].
Example C114_at_rest : Forall cool rest_run /\ quiet (port_of rest_run) /\ thr (port_of rest_run) 0%nat <> TOut /\ ents (ends st0 (obs_of rest_run)) 4 <> None.
Proof.
  split; [|split; [|split; vm_compute; discriminate]].
  - repeat constructor; discriminate.
  - split; [reflexivity|]. split; [intros [|t]; exact I|]. intros [|i] q X; vm_compute in X; [injection X as <-; vm_compute; auto|discriminate].
Qed.

(* C115 *)
Theorem C115_groups : forall c ls p o, run (port0 c) ls = Ok (p, o) ->
  (forall x n, In (x, n) (grps p) -> n = members p x /\ (n <= 32)%nat) /\ (forall i s, socks p i = Some s -> In (grp s) (map fst (grps p))) /\ NoDup (map fst (grps p)) /\ length (grps p) = ngrp p /\
  ((0 < ngrp p)%nat -> exists pre post p1 o1, ls = pre ++ post /\ run (port0 c) pre = Ok (p1, o1) /\ (32 * (ngrp p - 1) <= alive p1)%nat).
Proof. exact groups_run. Qed.
Print Assumptions C115_groups.
Definition many (n : nat) : list label := map (fun k => LCtl (Z.of_nat (S k)) (CAdd EPOLLIN 0 0) true good) (seq 0 n).
Example C115_thirty_three : grps (port_of (many 33)) = [(0, 32); (1, 1)]%nat.
Proof. vm_compute. reflexivity. Qed.

(* C116 *)
Theorem C116_delete_partial : forall c ls p o pick v, run (port0 c) ls = Ok (p, o) ->
  exists p', port_delete pick v p = Ok p' /\ (forall i, socks p' i = None) /\ tree p' = [] /\ updq p' = [] /\ delq p' = [] /\ grps p' = [].
Proof. exact deleted. Qed.
Print Assumptions C116_delete_partial.
Theorem C116_kernel_still_writes_refuted : exists ls p o p' q, run (port0 (fun _ => 0)) ls = Ok (p, o) /\ (forall t, thr p t = TOut) /\ port_delete (fun _ => O) good p = Ok p' /\ socks p' 0%nat = None /\ req p' 0%nat = Some q /\ kdone q = None.
Proof. exact left_over. Qed.
Print Assumptions C116_kernel_still_writes_refuted.
Example C116_all : forall pick, exists p', port_delete pick good (port_of (many 33)) = Ok p'.
Proof. intros pick. destruct (delete_port pick good (port_of (many 33)) (inv_of _)) as (p' & X & _). eauto. Qed.
