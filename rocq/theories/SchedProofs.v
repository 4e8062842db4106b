From Verif Require Import Base DllModel DllProofs SchedModel.

(* ---- run queue: refinement to a sequence ---- *)
Inductive qop := QEnq (t : nat) | QDeq | QUnlink (t : nat).
(* enqueue only what is not queued, unlink only what is *)
Definition qvalid (l : list nat) (o : qop) : Prop :=
  match o with QEnq t => ~ In t l | QDeq => True | QUnlink t => In t l end.
Definition qspec (l : list nat) (o : qop) : list nat * option nat :=
  match o with
  | QEnq t => (l ++ [t], None)
  | QDeq => match l with [] => ([], None) | x :: r => (r, Some x) end
  | QUnlink t => (remove Nat.eq_dec t l, None)
  end.
Definition qstep (s : dll) (o : qop) : dll * option nat :=
  match o with
  | QEnq t => (enqueue s t, None)
  | QDeq => let '(r, s') := task_dequeue s in (s', r)
  | QUnlink t => (dequeue s t, None)
  end.
Fixpoint qrun (s : dll) (ops : list qop) : dll * list (option nat) :=
  match ops with [] => (s, []) | o :: r => let '(s1, x) := qstep s o in let '(s2, xs) := qrun s1 r in (s2, x :: xs) end.
Fixpoint qspec_run (l : list nat) (ops : list qop) : list nat * list (option nat) :=
  match ops with [] => (l, []) | o :: r => let '(l1, x) := qspec l o in let '(l2, xs) := qspec_run l1 r in (l2, x :: xs) end.
Fixpoint qvalid_run (l : list nat) (ops : list qop) : Prop :=
  match ops with [] => True | o :: r => qvalid l o /\ qvalid_run (fst (qspec l o)) r end.

Lemma remove_mid a t b : ~ In t a -> ~ In t b -> remove Nat.eq_dec t (a ++ t :: b) = a ++ b.
Proof.
  intros Ha Hb. rewrite remove_app. cbn. destruct (Nat.eq_dec t t); [|congruence].
  rewrite !notin_remove; auto.
Qed.

Lemma qstep_rep s l o : Rep s l -> qvalid l o ->
  Rep (fst (qstep s o)) (fst (qspec l o)) /\ snd (qstep s o) = snd (qspec l o).
Proof.
  intros R Hv. destruct o as [t| |t]; cbn [qstep qspec qvalid fst snd] in *.
  - split; auto. now apply enqueue_rep.
  - destruct (task_dequeue_rep s l R) as [H1 H2]. destruct (task_dequeue s) as [r s']; cbn [fst snd] in *.
    destruct l as [|x l]; cbn [first tl fst snd] in *; auto.
  - split; auto. destruct (in_split _ _ Hv) as (a & b & ->).
    destruct (NoDup_mid a b t (rep_nodup _ _ R)) as (_ & _ & Ha & Hb & _).
    rewrite remove_mid by auto. now apply dequeue_rep.
Qed.

Lemma queue_refines ops : forall s l, Rep s l -> qvalid_run l ops ->
  Rep (fst (qrun s ops)) (fst (qspec_run l ops)) /\ snd (qrun s ops) = snd (qspec_run l ops).
Proof.
  induction ops as [|o ops IH]; intros s l R Hv; cbn [qrun qspec_run qvalid_run] in *; auto.
  destruct Hv as [Hv Hr]. destruct (qstep_rep s l o R Hv) as [R1 E1].
  destruct (qstep s o) as [s1 x]; destruct (qspec l o) as [l1 x']; cbn [fst snd] in *. subst x'.
  destruct (IH s1 l1 R1 Hr) as [R2 E2].
  destruct (qrun s1 ops); destruct (qspec_run l1 ops); cbn [fst snd] in *. split; congruence.
Qed.

(* both directions of the links, and the walk *)
Lemma queue_links ops nx pv : qvalid_run [] ops ->
  let s := fst (qrun (dll_empty nx pv) ops) in
  let l := fst (qspec_run [] ops) in
  snd (qrun (dll_empty nx pv) ops) = snd (qspec_run [] ops) /\
  NoDup l /\ head s = first l None /\ tail s = lastp l None /\
  walk (length l) (next s) (head s) = Ok l /\
  (forall a x y b, l = a ++ x :: y :: b -> next s x = Some y /\ prev s y = Some x).
Proof.
  intros Hv s l. destruct (queue_refines ops _ _ (empty_rep nx pv) Hv) as [R E]. fold s l in R, E.
  pose proof R as [H1 H2 H3 H4]. repeat split; auto.
  - now apply walk_rep.
  - rewrite H in H4. apply seg_app in H4. destruct H4 as [_ H4]. now destruct H4 as (_ & H4 & _).
  - rewrite H in H4. apply seg_app in H4. destruct H4 as [_ H4]. now destruct H4 as (_ & _ & H4 & _).
Qed.

(* ---- enqueuing a queued task ---- *)
Lemma enqueue_twice_loses s a x b : Rep s (a ++ x :: b) ->
  walk (length (a ++ x :: b)) (next (enqueue s x)) (head (enqueue s x)) = Ok (a ++ [x]).
Proof.
  intros [HN Hh Ht Hs]. destruct (NoDup_mid a b x HN) as (Na & Nb & Xa & Xb & Dj).
  apply seg_app in Hs. destruct Hs as [Hsa Hsb]. cbn [first] in Hsa.
  rewrite lastp_app in Ht. cbn [lastp] in Ht.
  assert (W : forall s' a p n fuel, ~ In x a -> length a + 1 <= fuel -> seg s' p a n ->
     (n = Some x) -> next s' x = None -> walk fuel (next s') (first a (Some x)) = Ok (a ++ [x])).
  { clear. intros s' a. induction a as [|y a IH]; intros p n fuel Hi L Hs -> Hx; cbn [first app].
    - destruct fuel as [|f]; [cbn in L; lia|]. cbn [walk]. rewrite Hx. destruct f; reflexivity.
    - destruct fuel as [|f]; [cbn in L; lia|]. cbn [walk]. destruct Hs as (_ & -> & Hs).
      rewrite (IH (Some y) (Some x) f); auto; [|cbn in L; lia]. intros H; apply Hi; now right. }
  unfold enqueue. destruct (tail s) as [z|] eqn:Ez.
  - rewrite app_length. cbn [length].
    set (s' := set_next _ x None).
    assert (E1 : head s' = first a (Some x)) by (cbn; rewrite Hh, first_app; reflexivity).
    rewrite E1. apply (W s' a None (Some x)); auto; try lia.
    + apply seg_frame with s; auto. intros y Hy. cbn.
      assert (y <> x) by (intros ->; contradiction).
      assert (y <> z).
      { intros ->. symmetry in Ht. apply lastp_in in Ht. destruct Ht as [Ht|[= ->]]; [|auto]. apply (Dj z); auto. }
      now rewrite !upd_other by auto.
    + cbn. now rewrite upd_same.
  - symmetry in Ht. apply lastp_none in Ht. destruct Ht as [_ Ht]. discriminate.
Qed.

(* n successive dequeues *)
Fixpoint dequeues (n : nat) (s : dll) : list (option nat) :=
  match n with O => [] | S k => let '(r, s') := task_dequeue s in r :: dequeues k s' end.

(* a queue of one task, made ready again: it is handed out for ever *)
Lemma enqueue_self_sticks s x n : Rep s [x] -> dequeues n (enqueue s x) = repeat (Some x) n.
Proof.
  intros [_ Hh Ht _]. cbn [first lastp] in *.
  assert (H : forall n q, head q = Some x -> prev q x = Some x -> next q x = None -> dequeues n q = repeat (Some x) n).
  { clear. induction n as [|n IH]; intros q H1 H2 H3; cbn [dequeues repeat]; auto.
    unfold task_dequeue. rewrite H1. f_equal. apply IH; unfold dequeue; rewrite H2; cbn;
      rewrite ?upd_same, ?H3; cbn; rewrite ?upd_same; auto. }
  apply H; unfold enqueue; rewrite Ht; cbn; now rewrite ?upd_same.
Qed.

(* ---- the scheduler ---- *)
Definition sumn (f : nat -> nat) (l : list nat) : nat := list_sum (map f l).

Record SInv (prog : nat -> list nat) (s : sched) (l : list nat) : Prop := {
  si_rep : Rep (queue s) l;
  si_live : forall t, In t l <-> t < fresh s /\ rem s t <> [];
  si_none : forall t, fresh s <= t -> ~ In t (ran s);
  si_runs : forall t, t < fresh s -> count_occ Nat.eq_dec (ran s) t + length (rem s t) = length (prog t);
  si_count : count s = Z.of_nat (length l) }.

Definition progs_nonempty (prog : nat -> list nat) : Prop := forall t, prog t <> [].

Lemma push_inv prog s l : progs_nonempty prog -> SInv prog s l -> SInv prog (task_push prog s) (l ++ [fresh s]).
Proof.
  intros HP [R L N C Co].
  assert (F : ~ In (fresh s) l) by (intros H; apply L in H; lia).
  constructor; cbn [task_push queue fresh rem count ran].
  - now apply enqueue_rep.
  - intros t. rewrite in_app_iff. cbn [In]. destruct (Nat.eq_dec t (fresh s)) as [->|Ne].
    + rewrite upd_same. specialize (HP (fresh s)). split; auto.
    + rewrite upd_other by auto. rewrite L. split; [intros [H|[H|[]]]; [intuition lia|congruence]|].
      intros [H1 H2]. left. split; auto. lia.
  - intros t Ht. apply N. lia.
  - intros t Ht. destruct (Nat.eq_dec t (fresh s)) as [->|Ne].
    + rewrite upd_same. assert (count_occ Nat.eq_dec (ran s) (fresh s) = 0) as ->; auto.
      apply count_occ_not_In, N. lia.
    + rewrite upd_other by auto. apply C. lia.
  - rewrite app_length. cbn [length]. lia.
Qed.

Lemma pushes_inv prog k : forall s l, progs_nonempty prog -> SInv prog s l ->
  SInv prog (task_pushes prog k s) (l ++ seq (fresh s) k).
Proof.
  induction k as [|k IH]; intros s l HP H; cbn [task_pushes seq].
  - now rewrite app_nil_r.
  - specialize (IH (task_push prog s) (l ++ [fresh s]) HP (push_inv prog s l HP H)).
    rewrite <- app_assoc in IH. exact IH.
Qed.

Lemma pushes_keep prog k : forall s t, t < fresh s ->
  rem (task_pushes prog k s) t = rem s t /\ ran (task_pushes prog k s) = ran s /\
  fresh (task_pushes prog k s) = fresh s + k.
Proof.
  induction k as [|k IH]; intros s t Ht; cbn [task_pushes].
  - repeat split; auto; lia.
  - destruct (IH (task_push prog s) t) as (A & B & C); [cbn; lia|]. cbn [task_push rem fresh ran] in *.
    rewrite upd_other in A by lia. repeat split; auto. lia.
Qed.

(* one scheduler step: the head is run; spawned tasks and then, if it yielded, the head go to the tail *)
Lemma step_inv prog s x l : progs_nonempty prog -> SInv prog s (x :: l) ->
  exists s', tasks_schedulering prog s = Some s' /\ ran s' = ran s ++ [x] /\
    SInv prog s' (l ++ seq (fresh s) (hd 0 (rem s x)) ++ match tl (rem s x) with [] => [] | _ => [x] end).
Proof.
  intros HP [R L N C Co]. unfold tasks_schedulering.
  destruct (task_dequeue_rep _ _ R) as [E R1]. destruct (task_dequeue (queue s)) as [r q].
  cbn [fst snd first tl] in *. subst r.
  set (s0 := {| queue := q; fresh := fresh s; rem := upd (rem s) x (tl (rem s x)); count := count s; ran := ran s ++ [x] |}).
  assert (Hx : x < fresh s /\ rem s x <> []) by (apply L; now left). destruct Hx as [Hx1 Hx2].
  destruct (pushes_keep prog (hd 0 (rem s x)) s0 x Hx1) as (K1 & K2 & K3).
  cbn [s0 rem ran fresh] in K1, K2, K3. rewrite upd_same in K1.
  pose proof (rep_nodup _ _ R) as ND. inversion ND as [|? ? Nx Nl]; subst.
  assert (MID : forall k s1 m,
     Rep (queue s1) m -> ~ In x m -> x < fresh s1 ->
     (forall t, t <> x -> (In t m <-> t < fresh s1 /\ rem s1 t <> [])) ->
     (forall t, fresh s1 <= t -> ~ In t (ran s1)) ->
     (forall t, t < fresh s1 -> count_occ Nat.eq_dec (ran s1) t + length (rem s1 t) = length (prog t)) ->
     count s1 = Z.of_nat (S (length m)) ->
     let s2 := task_pushes prog k s1 in let m2 := m ++ seq (fresh s1) k in
     Rep (queue s2) m2 /\ ~ In x m2 /\ x < fresh s2 /\
     (forall t, t <> x -> (In t m2 <-> t < fresh s2 /\ rem s2 t <> [])) /\
     (forall t, fresh s2 <= t -> ~ In t (ran s2)) /\
     (forall t, t < fresh s2 -> count_occ Nat.eq_dec (ran s2) t + length (rem s2 t) = length (prog t)) /\
     count s2 = Z.of_nat (S (length m2))).
  { induction k as [|k IH]; intros s1 m A1 A2 A3 A4 A5 A6 A7; cbn [task_pushes seq].
    - cbv zeta. rewrite app_nil_r. repeat (split; [assumption|]). assumption.
    - specialize (IH (task_push prog s1) (m ++ [fresh s1])). rewrite <- app_assoc in IH. cbv zeta in *.
      apply IH; cbn [task_push queue fresh rem count ran].
      + apply enqueue_rep; auto. intros H. destruct (Nat.eq_dec (fresh s1) x); [lia|]. apply A4 in H; auto. lia.
      + rewrite in_app_iff. cbn [In]. intros [H|[H|[]]]; [contradiction|lia].
      + lia.
      + intros t Tx. rewrite in_app_iff. cbn [In]. destruct (Nat.eq_dec t (fresh s1)) as [->|Ne].
        * rewrite upd_same. specialize (HP (fresh s1)). split; auto.
        * rewrite upd_other by auto. rewrite A4 by auto. split; [intros [H|[H|[]]]; [intuition lia|congruence]|].
          intros [H1 H2]. left. split; auto. lia.
      + intros t Ht. apply A5. lia.
      + intros t Ht. destruct (Nat.eq_dec t (fresh s1)) as [->|Ne].
        * rewrite upd_same. assert (count_occ Nat.eq_dec (ran s1) (fresh s1) = 0) as ->; auto.
          apply count_occ_not_In, A5. lia.
        * rewrite upd_other by auto. apply A6. lia.
      + rewrite app_length. cbn [length]. lia. }
  specialize (MID (hd 0 (rem s x)) s0 l). cbv zeta in MID. cbn [s0 queue fresh rem count ran] in MID.
  destruct MID as (M1 & M2 & M3 & M4 & M5 & M6 & M7); auto.
  - intros t Tx. rewrite upd_other by auto. rewrite <- L. cbn [In]. intuition congruence.
  - intros t Ht. rewrite in_app_iff. cbn [In]. intros [H|[H|[]]]; [now apply (N t)|lia].
  - intros t Ht. rewrite count_occ_app. cbn [count_occ]. destruct (Nat.eq_dec t x) as [->|Ne].
    + rewrite upd_same. destruct (Nat.eq_dec x x); [|congruence]. rewrite <- (C x Hx1).
      destruct (rem s x); [congruence|]. cbn [tl length]. lia.
    + rewrite upd_other by auto. destruct (Nat.eq_dec x t); [congruence|]. rewrite <- (C t Ht). lia.
  - destruct (tl (rem s x)) as [|y r] eqn:ET.
    + eexists. split; [reflexivity|]. split; [exact K2|].
      rewrite app_nil_r. constructor; cbn [queue fresh rem count ran]; auto; [|lia].
      intros t. destruct (Nat.eq_dec t x) as [->|Ne]; [|now apply M4].
      rewrite K1. split; [contradiction|]. now intros [_ H].
    + eexists. split; [reflexivity|]. split; [exact K2|].
      rewrite app_assoc. constructor; cbn [queue fresh rem count ran]; auto.
      * now apply enqueue_rep.
      * intros t. rewrite in_app_iff. cbn [In]. destruct (Nat.eq_dec t x) as [->|Ne].
        -- rewrite K1. split; auto. intros _. split; auto. discriminate.
        -- rewrite <- M4 by auto. intuition congruence.
      * rewrite M7, (app_length _ [x]). cbn [length]. lia.
Qed.

(* fairness: the next |l| steps run exactly the queued tasks, in order *)
Lemma fair prog l : forall s m, progs_nonempty prog -> SInv prog s (l ++ m) ->
  exists s', steps (length l) prog s = Some s' /\ ran s' = ran s ++ l /\
    exists m', SInv prog s' (m ++ m').
Proof.
  induction l as [|x l IH]; intros s m HP H; cbn [length steps app].
  - exists s. rewrite app_nil_r. repeat split; auto. exists []. now rewrite app_nil_r.
  - destruct (step_inv prog s x (l ++ m) HP H) as (s1 & -> & Er & H1).
    rewrite <- app_assoc in H1.
    destruct (IH s1 (m ++ seq (fresh s) (hd 0 (rem s x)) ++ match tl (rem s x) with [] => [] | _ => [x] end) HP) as (s2 & -> & E2 & m' & H2); auto.
    exists s2. split; auto. split; [rewrite E2, Er, <- app_assoc; reflexivity|].
    eexists. rewrite <- app_assoc in H2. exact H2.
Qed.

Lemma init_inv prog nx pv n0 : progs_nonempty prog -> SInv prog (sched_init nx pv n0 prog) (seq 0 n0).
Proof.
  intros HP. unfold sched_init. refine (pushes_inv prog n0 {| queue := dll_empty nx pv; fresh := 0; rem := fun _ => []; count := 0%Z; ran := [] |} [] HP _). constructor; cbn; auto; try lia; apply empty_rep.
Qed.

Inductive reaches (prog : nat -> list nat) (s : sched) : sched -> Prop :=
| reach_refl : reaches prog s s
| reach_step s1 s2 : reaches prog s s1 -> tasks_schedulering prog s1 = Some s2 -> reaches prog s s2.

Lemma reaches_inv prog s l : progs_nonempty prog -> SInv prog s l ->
  forall s', reaches prog s s' -> exists l', SInv prog s' l'.
Proof.
  intros HP H s' HR. induction HR as [|s1 s2 HR IH E]; eauto.
  destruct IH as (l1 & H1). destruct l1 as [|x l1].
  - unfold tasks_schedulering in E. destruct (task_dequeue_rep _ _ (si_rep _ _ _ H1)) as [E1 _].
    destruct (task_dequeue (queue s1)) as [r q]. cbn [fst first] in E1. subst r. discriminate.
  - destruct (step_inv prog s1 x l1 HP H1) as (s3 & E3 & _ & H3). rewrite E in E3. injection E3 as <-. eauto.
Qed.

(* what the claims need *)
Lemma fair_reachable prog nx pv n0 s : progs_nonempty prog ->
  reaches prog (sched_init nx pv n0 prog) s ->
  exists l, walk (length l) (next (queue s)) (head (queue s)) = Ok l /\
    exists s', steps (length l) prog s = Some s' /\ ran s' = ran s ++ l.
Proof.
  intros HP HR. destruct (reaches_inv prog _ _ HP (init_inv prog nx pv n0 HP) s HR) as (l & H).
  exists l. split; [apply walk_rep; auto; apply H|].
  destruct (fair prog l s [] HP) as (s' & E & Er & _); [now rewrite app_nil_r|]. eauto.
Qed.

Lemma runs_exactly prog nx pv n0 s : progs_nonempty prog ->
  reaches prog (sched_init nx pv n0 prog) s ->
  (forall t, count_occ Nat.eq_dec (ran s) t <= length (prog t)) /\
  (forall t, t < fresh s -> count_occ Nat.eq_dec (ran s) t = length (prog t) ->
     forall s', reaches prog s s' -> count_occ Nat.eq_dec (ran s') t = length (prog t)) /\
  (tasks_schedulering prog s = None -> count s = 0%Z /\
     forall t, t < fresh s -> count_occ Nat.eq_dec (ran s) t = length (prog t)) /\
  (count s = 0%Z -> tasks_schedulering prog s = None).
Proof.
  intros HP HR. pose proof (init_inv prog nx pv n0 HP) as HI.
  destruct (reaches_inv prog _ _ HP HI s HR) as (l & H).
  pose proof H as [R L N C Co].
  assert (LE : forall t s0 l0, SInv prog s0 l0 -> count_occ Nat.eq_dec (ran s0) t <= length (prog t)).
  { intros t s0 l0 [R0 L0 N0 C0 _]. destruct (Nat.lt_ge_cases t (fresh s0)) as [Lt|Ge].
    - specialize (C0 t Lt). lia.
    - assert (count_occ Nat.eq_dec (ran s0) t = 0) as ->; [|lia]. apply count_occ_not_In. auto. }
  split; [intros t; eapply LE; eauto|]. split; [|split].
  - intros t Ht E s' HR'. destruct (reaches_inv prog _ _ HP H s' HR') as (l' & H').
    pose proof (LE t s' l' H').
    assert (M : count_occ Nat.eq_dec (ran s) t <= count_occ Nat.eq_dec (ran s') t).
    { assert (P : exists m, ran s' = ran s ++ m).
      { clear - HR' HP H. induction HR' as [|s1 s2 HR' IH E].
        - exists []. now rewrite app_nil_r.
        - destruct IH as (m & IH). destruct (reaches_inv prog _ _ HP H s1 HR') as (l1 & H1).
          destruct l1 as [|x l1].
          + unfold tasks_schedulering in E. destruct (task_dequeue_rep _ _ (si_rep _ _ _ H1)) as [E1 _].
            destruct (task_dequeue (queue s1)) as [r q]. cbn [fst first] in E1. subst r. discriminate.
          + destruct (step_inv prog s1 x l1 HP H1) as (s3 & E3 & Er & _). rewrite E in E3. injection E3 as <-.
            exists (m ++ [x]). rewrite Er, IH, app_assoc. reflexivity. }
      destruct P as (m & ->). rewrite count_occ_app. lia. }
    lia.
  - intros E. destruct l as [|x l].
    + split; [cbn in Co; exact Co|]. intros t Ht. rewrite <- (C t Ht).
      destruct (rem s t) eqn:Er; [cbn; lia|]. exfalso. apply (L t). split; auto. congruence.
    + destruct (step_inv prog s x l HP H) as (s' & E' & _). congruence.
  - intros E. assert (l = []) by (destruct l; [auto|cbn in Co; lia]). subst l.
    unfold tasks_schedulering. destruct (task_dequeue_rep _ _ R) as [E1 _].
    destruct (task_dequeue (queue s)) as [r q]. cbn [fst first] in E1. now subst r.
Qed.

(* the scheduler's own loop: it ends with everything done, and it ends as soon as the tasks ever
   created are bounded *)
Lemma reaches_trans prog s s1 s2 : reaches prog s s1 -> reaches prog s1 s2 -> reaches prog s s2.
Proof. intros H1 H2. induction H2; auto. econstructor; eauto. Qed.

Lemma loop_reaches prog fuel : forall s s', scheduler_loop fuel prog s = Ok s' ->
  reaches prog s s' /\ (count s' = 0%Z \/ tasks_schedulering prog s' = None).
Proof.
  induction fuel as [|k IH]; intros s s'; cbn [scheduler_loop]; destruct (Z.eqb_spec (count s) 0) as [E|E]; intros H.
  - injection H as <-. split; [constructor|auto].
  - discriminate.
  - injection H as <-. split; [constructor|auto].
  - destruct (tasks_schedulering prog s) as [s1|] eqn:Es.
    + destruct (IH _ _ H) as [R D]. split; auto. eapply reaches_trans; eauto. econstructor; eauto. constructor.
    + injection H as <-. split; [constructor|auto].
Qed.

Lemma loop_completes prog nx pv n0 fuel s : progs_nonempty prog ->
  scheduler_loop fuel prog (sched_init nx pv n0 prog) = Ok s ->
  count s = 0%Z /\ head (queue s) = None /\ n0 <= fresh s /\
  forall t, count_occ Nat.eq_dec (ran s) t = if t <? fresh s then length (prog t) else 0.
Proof.
  intros HP H. destruct (loop_reaches _ _ _ _ H) as [R D].
  destruct (runs_exactly prog nx pv n0 s HP R) as (_ & _ & F1 & F2).
  assert (E : tasks_schedulering prog s = None) by (destruct D; auto).
  destruct (F1 E) as [C A].
  destruct (reaches_inv prog _ _ HP (init_inv prog nx pv n0 HP) s R) as (l & I).
  split; [exact C|]. split; [|split].
  - pose proof (si_count _ _ _ I) as Co. destruct l; [|cbn in Co; lia].
    destruct (si_rep _ _ _ I) as [_ Hh _ _]. exact Hh.
  - assert (M : forall s', reaches prog (sched_init nx pv n0 prog) s' -> n0 <= fresh s').
    { intros s' R'. induction R' as [|s1 s2 R1 IH1 E1].
      - unfold sched_init. clear. set (z := {| queue := _; fresh := 0; rem := _; count := _; ran := _ |}).
        assert (G : forall k q, fresh (task_pushes prog k q) = fresh q + k).
        { induction k as [|k IH]; intros q; cbn [task_pushes]; [lia|]. rewrite IH. cbn. lia. }
        rewrite G. lia.
      - assert (G : forall k q, fresh (task_pushes prog k q) = fresh q + k).
        { induction k as [|k IH]; intros q; cbn [task_pushes]; [lia|]. rewrite IH. cbn. lia. }
        unfold tasks_schedulering in E1. destruct (task_dequeue (queue s1)) as [[t|] q]; [|discriminate].
        destruct (tl (rem s1 t)); injection E1 as <-; cbn [fresh]; rewrite G; cbn [fresh]; lia. }
    auto.
  - intros t. destruct (Nat.ltb_spec t (fresh s)); auto.
    apply count_occ_not_In. apply (si_none _ _ _ I). auto.
Qed.

Lemma sum_count l n : (forall t, In t l -> t < n) ->
  length l = list_sum (map (count_occ Nat.eq_dec l) (seq 0 n)).
Proof.
  induction l as [|x l IH]; intros H.
  - cbn. induction (seq 0 n); cbn; auto.
  - cbn [length]. rewrite (IH (fun t Ht => H t (or_intror Ht))).
    assert (Hx : x < n) by (apply H; left; auto).
    assert (G : forall m a, list_sum (map (count_occ Nat.eq_dec (x :: l)) (seq a m)) =
      list_sum (map (count_occ Nat.eq_dec l) (seq a m)) + if (a <=? x) && (x <? a + m) then 1 else 0).
    { induction m as [|m IHm]; intros a; cbn [seq map list_sum fold_right].
      - replace ((a <=? x) && (x <? a + 0)) with false; [lia|]. symmetry. apply andb_false_iff.
        destruct (Nat.leb_spec a x); auto. right. apply Nat.ltb_ge. lia.
      - unfold list_sum in IHm. rewrite IHm. cbn [count_occ].
        destruct (Nat.eq_dec x a) as [->|Ne].
        + destruct (Nat.leb_spec a a); [|lia]. destruct (Nat.ltb_spec a (a + S m)); [|lia].
          destruct (Nat.leb_spec (S a) a); [lia|]. cbn. lia.
        + destruct (Nat.leb_spec a x), (Nat.ltb_spec x (a + S m)), (Nat.leb_spec (S a) x), (Nat.ltb_spec x (S a + m)); cbn; lia. }
    rewrite G. destruct (Nat.leb_spec 0 x), (Nat.ltb_spec x (0 + n)); cbn; lia.
Qed.

Lemma sum_le (f g : nat -> nat) (l : list nat) : (forall t, f t <= g t) -> list_sum (map f l) <= list_sum (map g l).
Proof. intros H. induction l as [|x l IH]; cbn; auto. specialize (H x). unfold list_sum in IH. lia. Qed.

Lemma loop_ends prog nx pv n0 N : progs_nonempty prog ->
  (forall s, reaches prog (sched_init nx pv n0 prog) s -> fresh s <= N) ->
  exists s, scheduler_loop (list_sum (map (fun t => length (prog t)) (seq 0 N))) prog (sched_init nx pv n0 prog) = Ok s.
Proof.
  intros HP HB. set (tot := list_sum _).
  assert (B : forall s, reaches prog (sched_init nx pv n0 prog) s -> length (ran s) <= tot).
  { intros s R. destruct (reaches_inv prog _ _ HP (init_inv prog nx pv n0 HP) s R) as (l & I).
    rewrite (sum_count (ran s) N).
    - apply sum_le. apply (runs_exactly prog nx pv n0 s HP R).
    - intros t Ht. destruct (Nat.lt_ge_cases t N); auto. exfalso.
      apply (si_none _ _ _ I t); auto. specialize (HB s R). lia. }
  assert (G : forall k s, reaches prog (sched_init nx pv n0 prog) s -> tot <= k + length (ran s) ->
    exists s', scheduler_loop k prog s = Ok s').
  { induction k as [|k IH]; intros s R L; cbn [scheduler_loop]; destruct (Z.eqb_spec (count s) 0) as [E|E]; eauto.
    - destruct (reaches_inv prog _ _ HP (init_inv prog nx pv n0 HP) s R) as (l & I).
      pose proof (si_count _ _ _ I) as Co. destruct l as [|x l]; [cbn in Co; lia|].
      destruct (step_inv prog s x l HP I) as (s1 & E1 & Er & _).
      pose proof (B s1 (reach_step _ _ _ _ R E1)) as B1. rewrite Er, app_length in B1. cbn in B1. lia.
    - destruct (tasks_schedulering prog s) as [s1|] eqn:Es; eauto.
      apply IH; [econstructor; eauto|].
      destruct (reaches_inv prog _ _ HP (init_inv prog nx pv n0 HP) s R) as (l & I).
      destruct l as [|x l]; [pose proof (si_count _ _ _ I) as Co; cbn in Co; lia|].
      destruct (step_inv prog s x l HP I) as (s2 & E2 & Er & _). rewrite Es in E2. injection E2 as <-.
      rewrite Er, app_length. cbn. lia. }
  apply G; [constructor|]. lia.
Qed.
