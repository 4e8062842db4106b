From Verif Require Import Base DllModel KqModel KqProofs.
Local Open Scope Z_scope.

(* After any lawful program, once a poll begins, the kernel watches every registered descriptor for
   exactly the interest last asked for.  [partial]: the rules exclude interest in both directions at
   once, path watches and registering a descriptor again without closing it; all three fail, below. *)
Theorem C88_kernel_follows_partial : forall maxfd fuel l, Z.of_nat maxfd <= 2 ^ 23 -> (maxfd <= fuel)%nat -> kobeys maxfd kspec0 l ->
  exists s, krun maxfd fuel kq_create (l ++ [KPoll]) = Ok s /\
    (forall f e, want (kspec_run l) f = Some e ->
       (kern s f F_READ = Some true <-> e = READ) /\ (kern s f F_WRITE = Some true <-> e = WRITE) /\
       forall flt, flt <> F_READ -> flt <> F_WRITE -> kern s f flt <> Some true).
Proof. exact kernel_follows. Qed.
Print Assumptions C88_kernel_follows_partial.

Definition lawful : list kop :=
  [KOpen 3; KOpen 4; KAdd 3 1; KAdd 4 2; KSet 3 2; KPoll; KSet 4 1; KSet 3 0; KDel 4; KClose 4; KOpen 4; KAdd 4 2; KEvent 4 (-2) false].
Example C88_applies : kobeys 16 kspec0 lawful /\
  want (kspec_run lawful) 4%nat = Some 2 /\ want (kspec_run lawful) 3%nat = Some 0.
Proof.
  split; [|vm_compute; auto]. cbn. unfold upd. cbn. repeat split; auto; try lia; congruence.
Qed.

(* the table of changes handed to the kernel is never overrun, whatever state the loop is in *)
Theorem C88_change_list_in_bounds : forall fuel s all, apply_pending_changes fuel s all <> UB /\
  forall s' cl, apply_pending_changes fuel s all = Ok (s', cl) -> (length cl <= 254)%nat.
Proof. exact in_bounds. Qed.
Print Assumptions C88_change_list_in_bounds.



(* what holds after a program on a loop with 16 descriptors *)
Definition after (l : list kop) (P : kq -> Prop) : Prop :=
  match krun 16 16 kq_create l with Ok s => P s | _ => False end.

(* asking for both directions watches reading only, since -1 | -2 is -1 *)
Theorem C88_both_directions_refuted : after ([KOpen 3; KAdd 3 (Z.lor READ WRITE); KPoll]) (fun s => kev s 3%nat = 3 /\ kern s 3%nat F_READ = Some true /\ kern s 3%nat F_WRITE = None).
Proof. vm_compute. auto. Qed.
Print Assumptions C88_both_directions_refuted.

(* widening an interest in writing to both directions even stops the writing *)
Theorem C88_widening_stops_writing_refuted : after ([KOpen 3; KAdd 3 WRITE; KPoll; KSet 3 (Z.lor READ WRITE); KPoll]) (fun s => kern s 3%nat F_WRITE = Some false).
Proof. vm_compute. auto. Qed.
Print Assumptions C88_widening_stops_writing_refuted.

(* deleting a descriptor the kernel already knows changes nothing in the kernel: every later poll
   returns at once with its events, which are dropped *)
Theorem C88_deleted_stays_watched_refuted : after ([KOpen 3; KAdd 3 READ; KPoll; KDel 3; KPoll; KEvent 3 F_READ false]) (fun s => kreg s 3%nat = false /\ kern s 3%nat F_READ = Some true /\ klog s = []).
Proof. vm_compute. auto. Qed.
Print Assumptions C88_deleted_stays_watched_refuted.

(* registered again for writing only, its callback is still called for reading *)
Theorem C88_registered_again_refuted : after ([KOpen 3; KAdd 3 READ; KPoll; KDel 3; KAdd 3 WRITE; KPoll; KEvent 3 F_READ false]) (fun s => kev s 3%nat = WRITE /\
  kern s 3%nat F_READ = Some true /\ klog s = [KCall 3 READ]).
Proof. vm_compute. auto. Qed.
Print Assumptions C88_registered_again_refuted.

(* a path watch is never passed to the kernel *)
Theorem C88_path_watch_refuted : after ([KOpen 3; KAdd 3 PATHWATCH; KPoll]) (fun s => kreg s 3%nat = true /\ kpath s 3%nat = true /\ forall flt, kern s 3%nat flt = None).
Proof. vm_compute. auto. Qed.
Print Assumptions C88_path_watch_refuted.

(* registering a descriptor twice before a poll loses the registration of another one *)
Theorem C88_twice_loses_another_refuted : after ([KOpen 3; KOpen 4; KAdd 4 READ; KAdd 3 READ; KAdd 3 READ; KPoll; KPoll]) (fun s => kreg s 4%nat = true /\ kev s 4%nat = READ /\ kern s 4%nat F_READ = None).
Proof. vm_compute. auto. Qed.
Print Assumptions C88_twice_loses_another_refuted.

(* Callbacks: exactly the events of registered descriptors, in order, with reading told as 1 and
   writing as 2; at the end of the stream reading is still told as 1 and writing as 0. *)
Theorem C89_callbacks_partial : forall maxfd fuel l, Z.of_nat maxfd <= 2 ^ 23 -> (maxfd <= fuel)%nat -> kobeys maxfd kspec0 l ->
  exists s, krun maxfd fuel kq_create l = Ok s /\ klog s = told (kspec_run l).
Proof. exact callbacks_follow. Qed.
Print Assumptions C89_callbacks_partial.

Example C89_applies : told (kspec_run lawful) = [KCall 4 2].
Proof. reflexivity. Qed.

(* the end of the stream is never told: no callback of a lawful program ever sees the bit 4 of CLOSED *)
Theorem C89_hangup_never_told_refuted : forall maxfd fuel l s f rev, Z.of_nat maxfd <= 2 ^ 23 -> (maxfd <= fuel)%nat -> kobeys maxfd kspec0 l ->
  krun maxfd fuel kq_create l = Ok s -> In (KCall f rev) (klog s) -> Z.land rev 4 = 0.
Proof. exact hangup_never_told. Qed.
Print Assumptions C89_hangup_never_told_refuted.

(* and for a writer it is a callback with no event at all *)
Theorem C89_writer_told_nothing_refuted : after ([KOpen 3; KAdd 3 WRITE; KPoll; KEvent 3 F_WRITE true]) (fun s => klog s = [KCall 3 0]).
Proof. vm_compute. auto. Qed.
Print Assumptions C89_writer_told_nothing_refuted.
