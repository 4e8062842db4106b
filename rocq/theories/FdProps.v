(* Property theorems for pseudo descriptors. *)
From Verif Require Import Base FdModel FdProofs.

(* every sequence of allocations, attachments and closes behaves like a map of open handles: a handle
   handed out is never one still open, an allocation and a close change no other handle, growing keeps all
   of them, and exactly the stated descriptors are closed *)
Theorem C48_handles_unique_partial n l s rs : Forall typed l -> fsteps (fst0 n) l = Ok (s, rs) ->
  exists m, spec_run fno l rs = Some (m, closed s) /\ forall p, m p = used (tab s) p.
Proof. exact (handles_unique n l s rs). Qed.
Theorem C48_refused_only_when_full f room act s ty fd des s' : fd_new f room act s ty fd des = Ok (s', (-1)%Z) ->
  free_at (tab s') des = false /\ ((fd <= 0)%Z \/ forall i e, 0 < i -> nth_error (tab s') i = Some e -> ety e <> 0).
Proof. exact (refused_only_when_full f room act s ty fd des s'). Qed.
Theorem C48_growth_ends room a t : 0 < length t -> a + a <= room -> exists f t', grows f room (Some a) t = Ok t'.
Proof. exact (grows_ok room a t). Qed.
Theorem C48_growth_keeps f room act t t' : grows f room act t = Ok t' ->
  exists k, t' = t ++ repeat ent0 k /\ (forall a, act = Some a -> a < length t').
Proof. exact (grows_app f room act t t'). Qed.
Theorem C48_child_process_number_closed_refuted n ev pid : (0 < ev < Z.of_nat n)%Z -> (0 < pid)%Z ->
  exists s, fsteps (fst0 n) [FNew 0 0 None FD_CHILD ev (-1); FSet ev pid; FClose ev] = Ok (s, [ev; 0; 0]%Z) /\ closed s = [ev; pid].
Proof. exact (child_pid_closed n ev pid). Qed.
Theorem C48_unattached_never_freed_refuted s i e : fd_entry (tab s) i = Some (Z.to_nat i, e) -> ety e <> 0 -> efd e = (-1)%Z ->
  fd_close s i = {| tab := tab s; closed := closed s ++ [i] |}.
Proof. exact (unattached_never_freed s i e). Qed.
Theorem C48_closed_twice_refuted s i e : fd_entry (tab s) i = Some (Z.to_nat i, e) -> ety e <> 0 -> keeps_event (ety e) = false ->
  efd e = eev e -> efd e <> (-1)%Z -> closed (fd_close s i) = closed s ++ [efd e; efd e].
Proof. exact (closed_twice s i e). Qed.
Theorem C48_full_table_not_grown_refuted f room s ty fd des : Forall (fun e => ety e <> 0) (tab s) -> fd_new f room None s ty fd des = Ok (s, (-1)%Z).
Proof. exact (full_not_grown f room s ty fd des). Qed.

Definition demo : list fop := [FNew 3 100 (Some 5) FD_REG_ASYNC 1 (-1); FNew 3 100 (Some 5) FD_REG_ASYNC 1 2; FNew 0 0 None FD_REG_ASYNC 1 2; FAssign 7 1 9; FClose 1; FNew 0 0 None FD_REG_ASYNC 40 1].
Example C48_ex : exists s, fsteps (fst0 4) demo = Ok (s, [1; 2; 3; 1; 0; 1]%Z) /\ closed s = [9; 7]%Z /\ length (tab s) = 8.
Proof. eexists. split; [vm_compute; reflexivity|]. auto. Qed.

Print Assumptions C48_handles_unique_partial.
Print Assumptions C48_refused_only_when_full.
Print Assumptions C48_growth_ends.
Print Assumptions C48_growth_keeps.
Print Assumptions C48_child_process_number_closed_refuted.
Print Assumptions C48_unattached_never_freed_refuted.
Print Assumptions C48_closed_twice_refuted.
Print Assumptions C48_full_table_not_grown_refuted.
