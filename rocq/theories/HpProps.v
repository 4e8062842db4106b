(* C156-C157: which thread works in which heap of the allocator. *)
From Coq Require Import List Bool Arith.
From Verif Require Import Base HpModel HpProofs HpProofs2 HpProofs3 HpProofs4.
Import ListNotations.

(* C156: no run of any number of threads is undefined, and no two threads ever work in one heap *)
Theorem C156_one_thread_in_a_heap : forall t l, exists s, run None (first_use t ++ l) cold = Ok s /\
  forall a b h, inside s a h -> inside s b h -> a = b.
Proof. exact never_two. Qed.
Print Assumptions C156_one_thread_in_a_heap.

(* the list of waiting heaps is a list without repeats; a waiting heap has no owner and is nobody's; when all threads
   have returned, the lock is free and no heap is lost *)
Theorem C156_one_place : forall t l, exists s q, run None (first_use t ++ l) cold = Ok s /\
  (forall n, orphan_at s n = nth_error q n) /\ NoDup q /\
  (forall x, In x q -> x < fresh s /\ owner s x = None /\ forall u, tls s u <> Some x) /\
  (forall u v x, tls s u = Some x -> tls s v = Some x -> u = v) /\
  ((forall u, at_ s u = Idle) -> lock s = false /\ forall x, x < fresh s -> In x q \/ exists u, tls s u = Some x).
Proof. exact one_place. Qed.
Print Assumptions C156_one_place.

(* a free touches the block's heap exactly when the heap is the thread's own *)
Theorem C156_free : forall t l u g, exists s, run None (first_use t ++ l) cold = Ok s /\
  (at_ s u = Idle -> exists s', step None u (Free g) s = Ok s' /\ (inside s' u g <-> tls s u = Some g)).
Proof. exact free_direct. Qed.
Print Assumptions C156_free.

(* whoever has the lock gives it back by steps of its own *)
Theorem C156_lock : forall t l, exists s, run None (first_use t ++ l) cold = Ok s /\
  (lock s = true -> exists u n s', run None (repeat (u, Mem 0) n) s = Ok s' /\ lock s' = false).
Proof. exact lock_back. Qed.
Print Assumptions C156_lock.

(* a thread without a heap takes the first that waits; only when none waits is memory asked for *)
Theorem C156_reuse : forall t l u k, exists s, run None (first_use t ++ l) cold = Ok s /\
  (at_ s u = Idle -> tls s u = None -> lock s = false ->
   exists n s' h, run None ((u, Malloc) :: repeat (u, Mem k) n) s = Ok s' /\ inside s' u h /\ tls s' u = Some h /\ owner s' h = Some u /\
     match hd s with Some x => h = x /\ fresh s' = fresh s /\ hd s' = nxt s x | None => h = fresh s /\ fresh s' = fresh s + 1 + k end).
Proof. exact alone. Qed.
Print Assumptions C156_reuse.

(* three threads; heaps 0, 1 and 2 come from one piece of memory; thread 1 gives its heap back and thread 2 takes it *)
Definition three : list (nat * choice) :=
  first_use 0 ++ steps 0 (Mem 2) 13 ++ (1, Malloc) :: steps 1 NoMem 10 ++ (2, Malloc) :: steps 2 NoMem 9.
Example C156_ex : exists s, run None three cold = Ok s /\ tls s 0 = Some 0 /\ tls s 1 = Some 2 /\ tls s 2 = Some 1 /\
  inside s 2 1 /\ fresh s = 3 /\ hd s = None.
Proof. eexists. split; [vm_compute; reflexivity|]. vm_compute. tauto. Qed.
Example C156_ex_back : exists s, run None (three ++ (1, GiveUp) :: steps 1 NoMem 9) cold = Ok s /\ tls s 1 = None /\ hd s = Some 2 /\ owner s 2 = None.
Proof. eexists. split; [vm_compute; reflexivity|]. vm_compute. tauto. Qed.
Example C156_ex_exit : exists s, run None (three ++ (1, Exit) :: steps 1 NoMem 8) cold = Ok s /\ tls s 1 = None /\ hd s = Some 2 /\ owner s 2 = None.
Proof. eexists. split; [vm_compute; reflexivity|]. vm_compute. tauto. Qed.

(* C157: a thread that is named the main thread gives its heap back without the lock: two threads in one heap *)
Theorem C157_main_refuted : exists s, run (Some 0) main_bad cold = Ok s /\ inside s 1 1 /\ inside s 3 1.
Proof. exact main_two. Qed.
Print Assumptions C157_main_refuted.

Theorem C157_same_run_unnamed : exists s, run None main_bad cold = Ok s /\ forall a b h, inside s a h -> inside s b h -> a = b.
Proof. exact main_not. Qed.
Print Assumptions C157_same_run_unnamed.

(* the first use by two threads at once *)
Theorem C157_first_use_refuted : forall a b, a <> b -> run None (steps a Malloc 5 ++ steps b Malloc 3) cold = UB.
Proof. exact race_ub. Qed.
Print Assumptions C157_first_use_refuted.

Theorem C157_two_set_ups_refuted : forall a b, a <> b -> exists s,
  run None (steps a Malloc 4 ++ steps b Malloc 4 ++ steps a (Mem 0) 11 ++ steps b (Mem 0) 2) cold = Ok s /\
  at_ s a = Idle /\ owner s 0 = Some a /\ tls s a = None /\ hd s = None /\ fresh s = 1.
Proof. exact race_forgotten. Qed.
Print Assumptions C157_two_set_ups_refuted.
