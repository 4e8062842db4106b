(* Runs of spans: the theorems.  C119-C121. *)
From Verif Require Import Base RunModel RunProofs RunProofs2 RunProofs3 RunProofs4 RunProofs5 RunProofs6 RunProofs7 RunProofs8.
Local Open Scope Z_scope.

(* Every history of threads that start, take runs, give runs of their own or of others back and leave goes without
   undefined behaviour, and every event of it is fair: a run handed out is as long as asked, within mapped memory and apart
   from all others in use; memory dropped or given back to the kernel has nothing in use in it, and what is given back
   is exactly one mapping, once; a heap has one thread at a time. *)
Theorem C119_history os : good state0 os -> exists st, run state0 os = Ok st /\ fair (log st).
Proof. exact (run_ok os). Qed.
Theorem C119_answer os st t n cls mm : good state0 os -> run state0 os = Ok st -> allowed (after (log st)) (OTake t n cls mm) ->
  exists st' r lg, step st (OTake t n cls mm) = Ok st' /\ log st' = ETake t n r :: lg /\ (mm <> None -> r <> None).
Proof. exact (run_take os st t n cls mm). Qed.
Theorem C119_heap os st t a : good state0 os -> run state0 os = Ok st -> allowed (after (log st)) (OInit t (Some a)) ->
  exists st' h, step st (OInit t (Some a)) = Ok st' /\ In (t, h) (user (after (log st'))).
Proof. exact (run_init os st t a). Qed.
(* the first thread's heap cannot be mapped: the next call reads a null pointer *)
Theorem C119_no_heap_refuted t n cls mm : run state0 [OInit t None; OTake t n cls mm] = UB.
Proof. reflexivity. Qed.

Theorem C120_all_returned os st t idle hs : good state0 os -> run state0 os = Ok st ->
  Permutation idle (map fst (held (after (log st)))) -> (forall s, In s idle -> class_run st s) -> Permutation hs (seq 0 (nh st)) ->
  exists st', finalize st t idle hs = Ok st' /\ fair (log st') /\ mapped (after (log st')) = [].
Proof. exact (run_final os st t idle hs). Qed.

Theorem C121_again os st t n cls mm st1 s k lg : good state0 os -> run state0 os = Ok st -> allowed (after (log st)) (OTake t n cls mm) ->
  step st (OTake t n cls mm) = Ok st1 -> log st1 = ETake t n (Some (s, k)) :: lg ->
  exists st2 st3 r lg', step st1 (OGive t s) = Ok st2 /\ step st2 (OTake t n cls None) = Ok st3 /\ log st3 = ETake t n (Some r) :: lg' /\ (cls < CLASSES -> fst r = s).
Proof. exact (again os st t n cls mm st1 s k lg). Qed.

Print Assumptions C119_history.
Print Assumptions C119_answer.
Print Assumptions C119_heap.
Print Assumptions C119_no_heap_refuted.
Print Assumptions C120_all_returned.
Print Assumptions C121_again.

(* not vacuous *)
Definition sof (r : outcome state) : state := match r with Ok st => st | _ => state0 end.
Definition A0 : Z := SPAN * 1000 + 4096.
Definition A1 : Z := SPAN * 2000.
Definition ops : list op := [OInit 1 (Some A0); OTake 1 1 3 (Some A1); OTake 1 5 126 None; OInit 2 None; OGive 2 2002; OTake 1 4 126 None].
Definition seen (r : outcome state) := match r with Ok st => Some (mapped (after (log st)), held (after (log st)), user (after (log st))) | _ => None end.
Example run_seen : seen (run state0 ops) = Some ([(A1, 65 * SPAN); (A0, 15 * SPAN)], [(2007, 4); (2001, 1)], [(2%nat, 15%nat); (1%nat, 0%nat)]).
Proof. vm_compute. reflexivity. Qed.
Lemma good_step st o r : allowed (after (log st)) o -> good (sof (step st o)) r -> good st (o :: r).
Proof. intros A G. split; [exact A|]. intros st' E. rewrite E in G. exact G. Qed.
Lemma honest_ok z a len l : mapped z = l -> 0 <= a -> a mod 4096 = 0 -> forallb (fun p => (a + len <=? fst p) || (fst p + snd p <=? a)) l = true -> honest z (Some a) len.
Proof. intros M A B F. split; [exact A|]. split; [exact B|]. intros b k I. rewrite M in I. rewrite forallb_forall in F. specialize (F _ I). cbn [fst snd] in F. apply orb_true_iff in F as [F|F]; apply Z.leb_le in F; auto. Qed.
Example good_seen : good state0 ops.
Proof.
  unfold ops. repeat apply good_step; [| | | | | |exact I].
  - apply (honest_ok _ _ _ []); vm_compute; [reflexivity|discriminate|reflexivity|reflexivity].
  - split; [exists 0%nat; vm_compute; auto|]. split; [left; unfold CLASSES; lia|]. apply (honest_ok _ _ _ [(A0, 15 * SPAN)]); vm_compute; [reflexivity|discriminate|reflexivity|reflexivity].
  - split; [exists 0%nat; vm_compute; auto|]. split; [right; unfold K_LARGE, RUNS; lia|exact I].
  - exact I.
  - exists 5. vm_compute. auto.
  - split; [exists 0%nat; vm_compute; auto|]. split; [right; unfold K_LARGE, RUNS; lia|exact I].
Qed.
Example final_seen : seen (do st <- run state0 (ops ++ [OGive 1 2007]); finalize st 1 [2001] (seq 0 16)) = Some ([], [], [(2%nat, 15%nat)]).
Proof. vm_compute. reflexivity. Qed.
