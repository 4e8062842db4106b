From Verif Require Import Base WqModel WqProofs.
From Coq Require Import Permutation.

(* ---- C136: linked queues behave as lists ---- *)
(* whatever memory holds at the start, every allowed sequence of calls gets the answers of the lists *)
Theorem C136_lists : forall m os s aa, calls {| queues := []; apart := [] |} os s aa -> snd (runs m os) = aa.
Proof. exact queue_refines. Qed.
(* one call, from any memory that holds the lists *)
Theorem C136_step : forall m s o s' a, rep m s -> call s o s' a -> snd (exec m o) = a /\ rep (fst (exec m o)) s'.
Proof. exact call_ok. Qed.
Example C136_ex : exists s, calls {| queues := []; apart := [] |}
    [Init 0; Node 1; Append 0 1; Append 0 2; Node 3; Prepend 0 3; ToEnd 0 3; First 0; Last 0; Remove 1; Enqueued 1; Enqueued 2; Empty 0; First 0] s
    [Nothing; Nothing; Nothing; Nothing; Nothing; Nothing; Nothing; Got (Some 1); Got (Some 3); Nothing; Is false; Is true; Is false; Got (Some 2)].
Proof. eexists.
  eapply cs_cons; [apply c_init; split; intros []|]. cbn.
  eapply cs_cons; [apply c_node; split; cbn; intuition discriminate|]. cbn.
  eapply cs_cons; [eapply (c_append _ 0 [] []); apply Permutation_refl|]. cbn.
  eapply cs_cons; [eapply (c_append_new _ 0 [1] []); [apply Permutation_refl|split; cbn; intuition discriminate]|]. cbn.
  eapply cs_cons; [apply c_node; split; cbn; intuition discriminate|]. cbn.
  eapply cs_cons; [eapply (c_prepend _ 0 [1; 2] []); apply Permutation_refl|]. cbn.
  eapply cs_cons; [eapply (c_end _ 0 [] 3 [1; 2] []); apply Permutation_refl|]. cbn.
  eapply cs_cons; [eapply (c_first _ 0 [1; 2; 3]); cbn; auto|].
  eapply cs_cons; [eapply (c_last _ 0 [1; 2; 3]); cbn; auto|].
  eapply cs_cons; [eapply (c_remove _ 0 [] 1 [2; 3] []); apply Permutation_refl|]. cbn.
  eapply cs_cons; [apply c_out; cbn; auto|].
  eapply cs_cons; [eapply (c_in _ 0 [2; 3]); cbn; auto|].
  eapply cs_cons; [eapply (c_empty _ 0 [2; 3]); cbn; auto|].
  eapply cs_cons; [eapply (c_first _ 0 [2; 3]); cbn; auto|]. apply cs_nil. Qed.
Print Assumptions C136_lists. Print Assumptions C136_step.
