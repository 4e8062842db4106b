(* Proofs about giving back tasks. *)
From Coq Require Import ZArith List Bool.
From Verif Require Import Base DtModel.
Import ListNotations.
Local Open Scope Z_scope.

Lemma early_run : forall l s e d g, early s l -> exists e',
  run (Live (T s true e d), g) l = Ok (Live (T (last_state s l) true e' (last_data d l)), g) /\
  e' = (if existsb (fun o => match o with Delete => true | _ => false end) l then -1 else e).
Proof.
  induction l as [|o l IH]; intros s e d g H; cbn.
  - eauto.
  - destruct o; cbn in H.
    + destruct H as [S H]. assert (M : may_go s = false) by (destruct S as [->|[->|[->| ->]]]; reflexivity).
      unfold task_delete. cbn. rewrite M. cbn. destruct (IH s (-1) d g H) as [e' [R E]]. exists e'. split; [exact R|].
      rewrite E. destruct (existsb _ l); reflexivity.
    + contradiction.
    + apply IH; assumption.
    + apply IH; assumption.
Qed.

Lemma run_app : forall a b w, run w (a ++ b) = do w <- run w a; run w b.
Proof.
  induction a as [|o a IH]; intros b w; cbn; [reflexivity|].
  destruct (step w o); cbn; auto.
Qed.

Lemma kept : forall s l, early s l -> In Delete l ->
  run (fresh s) l = Ok (Live (T (last_state s l) true (-1) (last_data None l)), []).
Proof.
  intros s l H I. destruct (early_run l s 0 None [] H) as [e [R E]]. unfold fresh. rewrite R, E.
  replace (existsb _ l) with true; [reflexivity|]. symmetry. apply existsb_exists. exists Delete. auto.
Qed.

Definition over (s : status) : Prop := s = SNormal \/ s = SDead \/ s = SErred \/ s = SFinish.

Lemma gone : forall s l, early s l -> over (last_state s l) -> run (fresh s) (l ++ [Delete]) = Ok (Freed, []).
Proof.
  intros s l H O. destruct (early_run l s 0 None [] H) as [e [R _]]. rewrite run_app. unfold fresh. rewrite R. cbn.
  unfold task_delete. cbn. replace (may_go _) with true; [reflexivity|].
  destruct O as [->|[->|[->| ->]]]; reflexivity.
Qed.

Lemma after : forall s l o r, early s l -> over (last_state s l) -> run (fresh s) (l ++ Delete :: o :: r) = UB.
Proof.
  intros s l o r H O. replace (l ++ Delete :: o :: r) with ((l ++ [Delete]) ++ o :: r) by (rewrite <- app_assoc; reflexivity).
  rewrite run_app, (gone s l H O). cbn. destruct o; reflexivity.
Qed.

Lemma unwound : forall s l, early s l ->
  run (fresh s) (l ++ [Unwind]) = Ok (Freed, match last_data None l with Some d => [d] | None => [] end).
Proof.
  intros s l H. destruct (early_run l s 0 None [] H) as [e [R _]]. rewrite run_app. unfold fresh. rewrite R. cbn.
  unfold task_unwind. cbn. destruct (last_data None l); reflexivity.
Qed.

(* an interrupted task is running *)
Lemma interrupted : forall s l, early s l -> last_state s l = SRunning ->
  exists t, run (fresh s) (l ++ [Delete]) = Ok (Live t, []) /\ err t = -1.
Proof.
  intros s l H E. destruct (early_run l s 0 None [] H) as [e [R _]]. rewrite run_app. unfold fresh. rewrite R, E. cbn.
  eexists. split; reflexivity.
Qed.

Lemma ended : forall s l, early s l -> last_state s l = SDead \/ last_state s l = SErred \/ last_state s l = SFinish ->
  run (fresh s) (l ++ [Delete]) = Ok (Freed, []).
Proof. intros s l H O. apply gone; [assumption|]. unfold over. tauto. Qed.

Lemma normal : forall s l, early s l -> last_state s l = SNormal ->
  run (fresh s) (l ++ [Delete]) = Ok (Freed, []) /\ forall o r, run (fresh s) (l ++ Delete :: o :: r) = UB.
Proof.
  intros s l H O. split; [apply gone; [assumption|left; assumption]|].
  intros o r. apply after; [assumption|left; assumption].
Qed.
