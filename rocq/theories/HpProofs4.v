(* Runs in which two threads work in one heap, and in which the first use goes wrong. *)
From Coq Require Import List Bool Arith Lia.
From Verif Require Import Base HpModel HpProofs HpProofs3.
Import ListNotations.

Definition steps (t : nat) (c : choice) (n : nat) : list (nat * choice) := repeat (t, c) n.

(* thread 0 told the allocator that it is the main thread; it frees with rp_free while others allocate *)
Definition main_bad : list (nat * choice) :=
  first_use 0 ++ steps 0 (Mem 1) 11 ++
  (1, Malloc) :: steps 1 NoMem 5 ++
  (0, GiveUp) :: steps 0 NoMem 9 ++
  (2, Malloc) :: steps 2 NoMem 5 ++
  steps 1 NoMem 4 ++
  steps 2 NoMem 1 ++ steps 2 NoMem 3 ++
  (3, Malloc) :: steps 3 NoMem 9.

Lemma main_two : exists s, run (Some 0) main_bad cold = Ok s /\ inside s 1 1 /\ inside s 3 1.
Proof. eexists. split; [vm_compute; reflexivity|]. split; vm_compute; reflexivity. Qed.

(* with the same accesses and no main thread named, all is well *)
Lemma main_not : exists s, run None main_bad cold = Ok s /\ forall a b h, inside s a h -> inside s b h -> a = b.
Proof. exact (never_two 0 _). Qed.

(* for any two threads: the first is setting up when the second allocates *)
Lemma race_ub : forall a b, a <> b -> run None (steps a Malloc 5 ++ steps b Malloc 3) cold = UB.
Proof.
  intros a b Hab. unfold steps. cbn [repeat app run].
  do 5 (unfold step at 1; unfold cold; simp; cbn [bind]).
  do 3 (unfold step at 1; simp; rewrite ?upd_same, ?(upd_other _ _ a _ b) by congruence; cbn [bind]). reflexivity.
Qed.

(* both set up; the thread's heap is forgotten while the thread still owns it *)
Lemma race_forgotten : forall a b, a <> b -> exists s,
  run None (steps a Malloc 4 ++ steps b Malloc 4 ++ steps a (Mem 0) 11 ++ steps b (Mem 0) 2) cold = Ok s /\
  at_ s a = Idle /\ owner s 0 = Some a /\ tls s a = None /\ hd s = None /\ fresh s = 1.
Proof.
  intros a b Hab. unfold steps. cbn [repeat app run].
  do 21 (unfold step at 1; unfold cold; simp; rewrite ?upd_same, ?(upd_other _ _ a _ b), ?(upd_other _ _ b _ a) by congruence; rewrite ?upd_same; cbn [bind Nat.eqb]).
  eexists. split; [reflexivity|]. simp. rewrite ?(upd_other _ _ b _ a) by congruence. simp. auto 10.
Qed.
