(* Specification and proofs for ThModel: where every task is, counters, no double queueing. *)
From Coq Require Import ZArith List Bool Lia Permutation Sorted.
From Verif Require Import Base ThModel.
Import ListNotations.
Open Scope Z_scope.

(* ---- specification ---- *)

(* Where tasks can be: ready, asleep, waiting for a descriptor, ended. *)
Definition places (s : th) : list nat := runq s ++ map fst (sleepq s) ++ map snd (waitq s) ++ done s.

(* Every descriptor is waited for by one task only. *)
Definition one_waiter (prog : nat -> nat -> tact) (owner : nat -> nat) : Prop :=
  forall t k f, prog t k = TWait f -> owner f = t.

Definition later (x y : nat * Z) : Prop := snd x <= snd y.

(* Due by now. *)
Definition due (now : Z) (x : nat * Z) : Prop := snd x <= now.

(* ---- invariant ---- *)

Record Inv (owner : nat -> nat) (fl : list nat) (s : th) : Prop := {
  I_perm : Permutation (fl ++ places s) (seq 0 (fresh s));
  I_fresh : (2 <= fresh s)%nat;
  I_sys : In 0%nat (fl ++ runq s);
  I_count : count s = Z.of_nat (fresh s) - (if started s then 1 else 0) - Z.of_nat (length (done s))
                      + (if asleep s =? 0 then 0 else 1);
  I_asleep : asleep s = Z.of_nat (length (sleepq s));
  I_own : forall f t, In (f, t) (waitq s) -> owner f = t;
  I_fds : NoDup (map fst (waitq s));
  I_ran : seen s <= ran s;
  I_sorted : StronglySorted later (sleepq s) }.

Lemma nodup_places : forall owner fl s, Inv owner fl s -> NoDup (fl ++ places s).
Proof.
  intros owner fl s H. eapply Permutation_NoDup; [apply Permutation_sym, (I_perm _ _ _ H)|]. apply seq_NoDup.
Qed.

Lemma existsb_in : forall t l, existsb (Nat.eqb t) l = true <-> In t l.
Proof.
  intros. rewrite existsb_exists. split.
  - intros (x & H & E). apply Nat.eqb_eq in E. subst. exact H.
  - intros H. exists t. split; [exact H|apply Nat.eqb_refl].
Qed.

Lemma enq_ok : forall owner fl s t, Inv owner (t :: fl) s ->
  enq s t = Ok (with_runq s (runq s ++ [t])) /\ Inv owner fl (with_runq s (runq s ++ [t])).
Proof.
  intros owner fl s t H.
  pose proof (nodup_places _ _ _ H) as ND. cbn [app] in ND. inversion ND as [|? ? Hni ND']; subst.
  assert (Hn : ~ In t (runq s)).
  { intros Hi. apply Hni. apply in_or_app. right. unfold places. apply in_or_app. left. exact Hi. }
  split.
  - unfold enq. destruct (existsb (Nat.eqb t) (runq s)) eqn:E; [|reflexivity].
    apply existsb_in in E. contradiction.
  - destruct H as [P F Sy C A O W R So]. constructor; cbn; auto.
    + eapply Permutation_trans; [|exact P]. unfold places, with_runq; cbn.
      cbn [app]. rewrite <- !app_assoc. cbn [app].
      rewrite app_assoc, (app_assoc fl). apply Permutation_sym, Permutation_middle.
    + cbn [app] in Sy. destruct Sy as [<-|Sy]; rewrite !in_app_iff in *; cbn; tauto.
Qed.

Lemma filter_partition : forall (f : nat) (w : list (nat * nat)) x,
  NoDup (map fst w) -> In x w -> fst x = f ->
  Permutation (map snd w) (snd x :: map snd (filter (fun y => negb (Nat.eqb (fst y) f)) w)).
Proof.
  intros f. induction w as [|y w IH]; intros x ND Hin E; [contradiction|].
  cbn in ND. inversion ND as [|? ? Hni ND']; subst. destruct Hin as [<-|Hin].
  - cbn [map filter]. rewrite Nat.eqb_refl. cbn [negb].
    replace (filter (fun y0 => negb (Nat.eqb (fst y0) (fst y))) w) with w; [apply Permutation_refl|].
    symmetry. clear - Hni. induction w as [|z w IH]; [reflexivity|]. cbn [filter]. cbn in Hni.
    destruct (Nat.eqb_spec (fst z) (fst y)) as [E|E]; [exfalso; apply Hni; left; exact E|]. cbn [negb]. f_equal.
    apply IH. tauto.
  - cbn [map filter]. destruct (Nat.eqb_spec (fst y) (fst x)) as [E|E].
    + exfalso. apply Hni. rewrite E. apply in_map. exact Hin.
    + cbn [negb map]. eapply Permutation_trans; [apply perm_skip, (IH x ND' Hin eq_refl)|]. apply perm_swap.
Qed.


Lemma nodup_map_filter : forall (p : nat * nat -> bool) w, NoDup (map fst w) -> NoDup (map fst (filter p w)).
Proof.
  intros p. induction w as [|x w IH]; intros H; [constructor|]. cbn in H. inversion H as [|? ? Hni H']; subst.
  cbn. destruct (p x); cbn; [|auto]. constructor; [|auto].
  intros Hi. apply Hni. apply in_map_iff in Hi. destruct Hi as (y & E & Hy). apply filter_In in Hy.
  rewrite <- E. apply in_map, Hy.
Qed.

(* What a poll leaves alone. *)
Definition same_but_waits (s s' : th) : Prop :=
  sleepq s' = sleepq s /\ done s' = done s /\ pc s' = pc s /\ fresh s' = fresh s /\ count s' = count s /\
  asleep s' = asleep s /\ ran s' = ran s /\ seen s' = seen s /\ started s' = started s /\ inyield s' = inyield s /\
  segs s' = segs s.

Lemma poll_ok : forall owner batch fl s, Inv owner fl s ->
  exists s' ex, poll batch s = Ok s' /\ Inv owner fl s' /\ same_but_waits s s' /\ runq s' = runq s ++ ex /\
    (batch = [] -> s' = s) /\
    (forall f t, In (f, t) (waitq s) -> (In f batch /\ In t ex) \/ (~ In f batch /\ In (f, t) (waitq s'))) /\
    (forall f t, In (f, t) (waitq s') -> In (f, t) (waitq s)).
Proof.
  intros owner. induction batch as [|f r IH]; intros fl s H.
  - exists s, []. cbn [poll]. rewrite app_nil_r.
    split; [reflexivity|]. split; [exact H|]. split; [repeat split|]. split; [reflexivity|]. split; [reflexivity|].
    split; [intros f t Hi; right; split; [intros []|exact Hi]|auto].
  - cbn [poll]. destruct (find (fun x => Nat.eqb (fst x) f) (waitq s)) as [[f' t]|] eqn:E.
    + apply find_some in E. destruct E as (Hin & Ef). cbn in Ef. apply Nat.eqb_eq in Ef. subst f'.
      set (s1 := with_wait s (filter (fun x => negb (Nat.eqb (fst x) f)) (waitq s))).
      assert (H1 : Inv owner (t :: fl) s1).
      { destruct H as [P F Sy C A O W R So]. constructor; cbn; auto.
        - eapply Permutation_trans; [|exact P].
          unfold places, s1, with_wait; cbn.
          pose proof (filter_partition f (waitq s) (f, t) W Hin eq_refl) as PF. cbn [snd] in PF.
          change (t :: fl ++ ?x) with ([t] ++ fl ++ x).
          rewrite (app_assoc [t] fl), (Permutation_app_comm [t] fl), <- app_assoc. apply Permutation_app_head.
          cbn [app]. eapply Permutation_trans; [apply Permutation_middle|]. apply Permutation_app_head.
          eapply Permutation_trans; [apply Permutation_middle|]. apply Permutation_app_head.
          change (t :: ?a ++ ?b) with ((t :: a) ++ b). apply Permutation_app_tail, Permutation_sym, PF.
        - intros f0 t0 Hi. apply filter_In in Hi. apply O, Hi.
        - apply nodup_map_filter, W. }
      destruct (enq_ok owner fl s1 t H1) as (E2 & H2). rewrite E2. cbn [bind].
      destruct (IH fl _ H2) as (s' & ex & E3 & H3 & SB & EQ & E0 & HW & HV).
      exists s', (t :: ex). split; [exact E3|]. split; [exact H3|].
      split; [unfold same_but_waits in *; cbn in SB; exact SB|].
      split; [rewrite EQ; cbn; rewrite <- app_assoc; reflexivity|].
      split; [discriminate|]. split.
      * intros f0 t0 Hi. destruct (Nat.eq_dec f0 f) as [->|Hf].
        -- left. split; [left; reflexivity|].
           assert (t0 = t) by (rewrite <- (I_own _ _ _ H f t0 Hi); apply (I_own _ _ _ H f t Hin)). subst. left. reflexivity.
        -- destruct (HW f0 t0) as [(A1 & A2)|(A1 & A2)].
           { cbn. apply filter_In. split; [exact Hi|]. cbn. destruct (Nat.eqb_spec f0 f); [contradiction|reflexivity]. }
           ++ left. split; right; assumption.
           ++ right. split; [|exact A2]. intros [->|Hx]; [apply Hf; reflexivity|exact (A1 Hx)].
      * intros f0 t0 Hi. apply HV in Hi. cbn in Hi. apply filter_In in Hi. apply Hi.
    + destruct (IH fl s H) as (s' & ex & E3 & H3 & SB & EQ & E0 & HW & HV).
      exists s', ex. split; [exact E3|]. split; [exact H3|]. split; [exact SB|]. split; [exact EQ|]. split; [discriminate|].
      split; [|exact HV].
      intros f0 t0 Hi. destruct (HW f0 t0 Hi) as [(A1 & A2)|(A1 & A2)].
      * left. split; [right|]; assumption.
      * right. split; [|exact A2]. intros [->|Hx]; [|exact (A1 Hx)].
        apply (find_none _ _ E) in Hi. cbn in Hi. rewrite Nat.eqb_refl in Hi. discriminate.
Qed.

(* the fields neither waking nor queueing changes *)
Definition same_but_sleep (s s' : th) : Prop :=
  waitq s' = waitq s /\ done s' = done s /\ pc s' = pc s /\ fresh s' = fresh s /\
  ran s' = ran s /\ seen s' = seen s /\ started s' = started s /\ inyield s' = inyield s /\ segs s' = segs s.

Lemma wake_ok : forall owner l now fl s, Inv owner fl s -> l = sleepq s ->
  exists s' d rest, wake now l s = Ok s' /\ Inv owner fl s' /\ same_but_sleep s s' /\
    sleepq s = d ++ rest /\ sleepq s' = rest /\ runq s' = runq s ++ map fst d /\
    Forall (due now) d /\ Forall (fun x => ~ due now x) rest.
Proof.
  intros owner. induction l as [|[t a] r IH]; intros now fl s H El.
  - exists s, [], []. cbn [wake map]. rewrite <- El, !app_nil_r.
    split; [reflexivity|]. split; [exact H|]. split; [repeat split|]. repeat (split; [reflexivity|]). split; constructor.
  - cbn [wake]. destruct (Z.leb_spec a now) as [Ha|Ha].
    + set (s1 := mkTh (runq s) r (waitq s) (done s) (pc s) (fresh s)
                  (if asleep s - 1 =? 0 then count s - 1 else count s) (asleep s - 1) (ran s) (seen s) (started s) (inyield s) (segs s)).
      assert (H1 : Inv owner (t :: fl) s1).
      { destruct H as [P F Sy C A O W R So]. rewrite <- El in *. constructor; cbn; auto.
        - eapply Permutation_trans; [|exact P]. unfold places, s1; cbn. rewrite <- El. cbn [map fst app].
          change (t :: fl ++ ?x) with ([t] ++ fl ++ x).
          rewrite (app_assoc [t] fl), (Permutation_app_comm [t] fl), <- app_assoc. apply Permutation_app_head.
          exact (Permutation_middle (runq s) _ t).
        - rewrite C. cbn [length] in A. rewrite A.
          destruct (Z.eqb_spec (Z.of_nat (S (length r)) - 1) 0), (Z.eqb_spec (Z.of_nat (S (length r))) 0); lia.
        - rewrite A. cbn [length]. lia.
        - inversion So; assumption. }
      destruct (enq_ok owner fl s1 t H1) as (E2 & H2). rewrite E2. cbn [bind].
      destruct (IH now fl _ H2 eq_refl) as (s' & d & rest & E3 & H3 & SB & E4 & E5 & E6 & F1 & F2).
      exists s', ((t, a) :: d), rest. split; [exact E3|]. split; [exact H3|].
      split; [unfold same_but_sleep in *; cbn in SB; exact SB|].
      cbn in E4. split; [rewrite <- El; cbn; congruence|]. split; [exact E5|].
      split; [rewrite E6; cbn; rewrite <- app_assoc; reflexivity|]. split; [constructor; [exact Ha|exact F1]|exact F2].
    + exists s, [], ((t, a) :: r). cbn [map]. rewrite app_nil_r.
      split; [reflexivity|]. split; [exact H|]. split; [repeat split|]. split; [symmetry; exact El|]. split; [symmetry; exact El|].
      split; [reflexivity|]. split; [constructor|].
      assert (So := I_sorted _ _ _ H). rewrite <- El in So. inversion So as [|? ? So' Hall]; subst.
      constructor; [unfold due; cbn; lia|].
      eapply Forall_impl; [|exact Hall]. intros x Hx. unfold later, due in *. cbn in Hx. lia.
Qed.

Lemma insert_perm : forall when t l, Permutation (map fst (insert_at when t l)) (t :: map fst l).
Proof.
  induction l as [|[u a] r IH]; cbn; [apply Permutation_refl|].
  destruct (a <? when); cbn; [|apply Permutation_refl].
  eapply Permutation_trans; [apply perm_skip, IH|apply perm_swap].
Qed.

Lemma insert_in : forall when t l x, In x (insert_at when t l) <-> x = (t, when) \/ In x l.
Proof.
  induction l as [|[u a] r IH]; intros x; cbn; [intuition congruence|].
  destruct (a <? when); cbn; [rewrite IH|]; intuition congruence.
Qed.

Lemma insert_length : forall when t l, length (insert_at when t l) = S (length l).
Proof. induction l as [|[u a] r IH]; cbn; [reflexivity|]. destruct (a <? when); cbn; auto. Qed.

Lemma insert_sorted : forall when t l, StronglySorted later l -> StronglySorted later (insert_at when t l).
Proof.
  induction l as [|[u a] r IH]; intros H; cbn; [repeat constructor|].
  inversion H as [|? ? So Hall]; subst.
  destruct (Z.ltb_spec a when) as [Ha|Ha].
  - constructor; [auto|]. apply Forall_forall. intros x Hx. apply insert_in in Hx.
    destruct Hx as [->|Hx]; [unfold later; cbn; lia|]. rewrite Forall_forall in Hall. apply Hall, Hx.
  - constructor; [exact H|]. constructor; [unfold later; cbn; lia|].
    eapply Forall_impl; [|exact Hall]. intros x Hx. unfold later in *. cbn in *. lia.
Qed.

Lemma system_turn_ok : forall owner running now s, Inv owner [running] s ->
  exists s1 s', system_turn running now s = Ok s' /\ Inv owner [] s' /\
    (if 0 <? ran s - seen s - 1 then s1 = s else wake now (sleepq s) s = Ok s1) /\
    s' = with_runq (with_seen s1 (ran s1)) (runq s1 ++ [running]).
Proof.
  intros owner running now s H. unfold system_turn.
  assert (HX : exists s1, (if 0 <? ran s - seen s - 1 then Ok s else wake now (sleepq s) s) = Ok s1 /\ Inv owner [running] s1 /\
     (if 0 <? ran s - seen s - 1 then s1 = s else wake now (sleepq s) s = Ok s1)).
  { destruct (0 <? ran s - seen s - 1); [exists s; auto|].
    destruct (wake_ok owner _ now _ s H eq_refl) as (s1 & d & rest & E & H1 & _). exists s1. auto. }
  destruct HX as (s1 & E & H1 & HE). rewrite E. cbn [bind].
  assert (H2 : Inv owner [running] (with_seen s1 (ran s1))).
  { destruct H1 as [P F Sy C A O W R So]. constructor; cbn; auto. lia. }
  destruct (enq_ok owner [] _ running H2) as (E3 & H3).
  exists s1. eexists. split; [exact E3|]. split; [exact H3|]. split; [exact HE|]. reflexivity.
Qed.

Section Programs.
Variable prog : nat -> nat -> tact.
Variable owner : nat -> nat.
Hypothesis Hown : one_waiter prog owner.

Lemma perm_mid : forall (t : nat) a b, Permutation (t :: a ++ b) (a ++ t :: b).
Proof. intros. apply Permutation_middle. Qed.

Lemma segment_ok : forall t now s, Inv owner [t] s -> t <> 0%nat -> started s = true ->
  exists s', segment prog t now s = Ok s' /\ Inv owner [] s' /\ started s' = true.
Proof.
  intros t now s H Ht Hst. unfold segment.
  set (s0 := mkTh (runq s) (sleepq s) (waitq s) (done s) (fun u => if Nat.eqb u t then S (pc s t) else pc s u) (fresh s)
              (count s) (asleep s) (ran s) (seen s) (started s) (if Nat.eqb t 1 then false else inyield s) (segs s ++ [t])).
  assert (H0 : Inv owner [t] s0).
  { destruct H as [P F Sy C A O W R So]. constructor; cbn; auto. }
  assert (Hsys : In 0%nat (runq s0)).
  { destruct (I_sys _ _ _ H0) as [E|E]; [congruence|exact E]. }
  cbv zeta. fold s0.
  destruct (prog t (pc s t)) as [|ms|f| |] eqn:EP.
  - set (s1 := if Nat.eqb t 1 then with_inyield s0 true else s0).
    assert (H1 : Inv owner [t] s1).
    { unfold s1. destruct (Nat.eqb t 1); [|exact H0]. destruct H0 as [P F Sy C A O W R So]. constructor; cbn; auto. }
    destruct (enq_ok owner [] s1 t H1) as (E & H2). rewrite E.
    eexists. split; [reflexivity|]. split; [exact H2|]. unfold s1. destruct (Nat.eqb t 1); exact Hst.
  - eexists. split; [reflexivity|]. split; [|exact Hst].
    destruct H0 as [P F Sy C A O W R So]. unfold delay. constructor; cbn; auto.
    + eapply Permutation_trans; [|exact P]. unfold places; cbn.
      eapply Permutation_trans; [apply Permutation_app_head, Permutation_app_tail, insert_perm|].
      cbn [app]. apply Permutation_sym, Permutation_middle.
    + cbn in C. rewrite C, Hst. cbn in A.
      destruct (Z.eqb_spec (asleep s) 0), (Z.eqb_spec (asleep s + 1) 0); lia.
    + rewrite insert_length. cbn in A. rewrite A. lia.
    + apply insert_sorted. exact So.
  - eexists. split; [reflexivity|]. split; [|exact Hst].
    assert (Hn : ~ In t (places s0)).
    { pose proof (nodup_places _ _ _ H0) as ND. cbn [app] in ND. inversion ND; assumption. }
    destruct H0 as [P F Sy C A O W R So].
    assert (Hf : filter (fun x => negb (Nat.eqb (fst x) f)) (waitq s0) = waitq s0).
    { assert (G : forall x, In x (waitq s0) -> fst x <> f).
      { intros (f', t') Hi E. cbn in E. subst f'. apply Hn. pose proof (O f t' Hi) as E1.
        rewrite (Hown t _ f EP) in E1. subst t'. unfold places. rewrite !in_app_iff. right. right. left.
        apply in_map_iff. exists (f, t). auto. }
      revert G. generalize (waitq s0). intros w. induction w as [|x w IH]; intros G; [reflexivity|]. cbn.
      destruct (Nat.eqb_spec (fst x) f) as [E|E]; [exfalso; apply (G x); [left; reflexivity|exact E]|]. cbn. f_equal.
      apply IH. intros y Hy. apply G. right. exact Hy. }
    unfold async_wait. rewrite Hf. constructor; cbn; auto.
    + eapply Permutation_trans; [|exact P]. unfold places; cbn.
      eapply Permutation_trans; [|apply Permutation_sym, Permutation_middle].
      apply Permutation_app_head. apply Permutation_sym, Permutation_middle.
    + intros f0 t0 [E|Hi]; [inversion E; subst; apply (Hown t0 _ f0 EP)|apply O, Hi].
    + constructor; [|exact W]. intros Hi. apply in_map_iff in Hi. destruct Hi as (x & Ex & Hx).
      change (In x (waitq s0)) in Hx. rewrite <- Hf in Hx. apply filter_In in Hx. destruct Hx as (_ & Hx). rewrite Ex, Nat.eqb_refl in Hx. discriminate.
  - set (s1 := mkTh (runq s0) (sleepq s0) (waitq s0) (done s0) (pc s0) (S (fresh s0)) (count s0 + 1) (asleep s0) (ran s0)
                (seen s0) (started s0) (if Nat.eqb t 1 then true else inyield s0) (segs s0)).
    assert (H1 : Inv owner [fresh s0; t] s1).
    { destruct H0 as [P F Sy C A O W R So]. constructor; cbn [s1 fresh count asleep sleepq waitq seen ran started done runq]; auto.
      - rewrite seq_S. cbn [plus]. eapply Permutation_trans; [|apply Permutation_app_tail; exact P].
        exact (Permutation_cons_append ([t] ++ places s0) (fresh s0)).
      - cbn. auto.
      - rewrite C. cbn [s0 fresh started asleep done]. rewrite Hst. lia. }
    destruct (enq_ok owner [t] s1 _ H1) as (E & H2). rewrite E. cbn [bind].
    destruct (enq_ok owner [] _ t H2) as (E3 & H3). rewrite E3.
    eexists. split; [reflexivity|]. split; [exact H3|]. exact Hst.
  - eexists. split; [reflexivity|]. split; [|exact Hst].
    destruct H0 as [P F Sy C A O W R So]. constructor; cbn; auto.
    + eapply Permutation_trans; [|exact P]. unfold places; cbn.
      rewrite !app_assoc. apply Permutation_sym, Permutation_middle.
    + cbn in C. rewrite C, Hst. cbn [length]. lia.
Qed.

(* Between turns. *)
Definition Good (s : th) : Prop :=
  Inv owner [] s /\ (started s = false -> hd_error (runq s) = Some 0%nat).

Lemma sched_ok : forall now batch s, Good s ->
  exists s', sched prog now batch s = Ok (Some s') /\ Good s' /\ started s' = true.
Proof.
  intros now batch s (H & Hst). unfold sched.
  destruct (runq s) as [|t q] eqn:Eq.
  { exfalso. pose proof (I_sys _ _ _ H) as Sy. cbn in Sy. rewrite Eq in Sy. exact Sy. }
  set (sa := mkTh q (sleepq s) (waitq s) (done s) (pc s) (fresh s) (count s) (asleep s) (ran s + 1) (seen s)
                           (started s) (inyield s) (segs s)).
  assert (Ha : Inv owner [t] sa).
  { destruct H as [P F Sy C A O W R So]. constructor; cbn; auto.
    - eapply Permutation_trans; [|exact P]. unfold places. rewrite Eq. apply Permutation_refl.
    - cbn in Sy. rewrite Eq in Sy. exact Sy.
    - lia. }
  destruct (poll_ok owner batch [t] sa Ha) as (s1 & ex & E1 & H1 & SB & EQ & _).
  rewrite E1. cbn [bind].
  destruct SB as (_ & _ & _ & _ & _ & _ & _ & _ & B1 & B2 & _). cbn in B1, B2.
  destruct (Nat.eqb_spec t 0) as [->|Ht].
  - destruct (started s1) eqn:Es1.
    + destruct (system_turn_ok owner 0%nat now s1 H1) as (s2 & s' & E2 & H2 & HE & Es').
      rewrite E2. cbn [bind]. exists s'. split; [reflexivity|].
      assert (Es : started s' = true).
      { rewrite Es'. cbn. destruct (0 <? ran s1 - seen s1 - 1); [subst s2; exact Es1|].
        destruct (wake_ok owner _ now _ s1 H1 eq_refl) as (s3 & d & rest & E3 & _ & (_ & _ & _ & _ & _ & _ & E4 & _) & _).
        rewrite E3 in HE. inversion HE; subst. congruence. }
      split; [|exact Es]. split; [exact H2|]. congruence.
    + unfold system_start.
      set (sb := mkTh (runq s1) (sleepq s1) (waitq s1) (done s1) (pc s1) (fresh s1) (count s1 - 1) (asleep s1) (ran s1) (ran s1) true (inyield s1) (segs s1)).
      assert (Hb : Inv owner [0%nat] sb).
      { destruct H1 as [P F Sy C A O W R So]. constructor; cbn; auto; [|lia]. rewrite C, Es1. lia. }
      destruct (enq_ok owner [] sb 0%nat Hb) as (E2 & H2). rewrite E2. cbn [bind].
      eexists. split; [reflexivity|]. split; [|reflexivity]. split; [exact H2|]. discriminate.
  - assert (Es : started s1 = true).
    { rewrite B1. destruct (started s) eqn:Es; [reflexivity|]. specialize (Hst eq_refl). cbn in Hst. congruence. }
    rewrite Es.
    destruct (Nat.eqb t 1 && inyield s1 && (asleep s1 =? 1)) eqn:Em.
    + apply andb_true_iff in Em. destruct Em as (Em & _). apply andb_true_iff in Em. destruct Em as (Em & _).
      apply Nat.eqb_eq in Em. subst t.
      assert (Hb : Inv owner [1%nat] (with_inyield s1 false)).
      { destruct H1 as [P F Sy C A O W R So]. constructor; cbn; auto. }
      destruct (system_turn_ok owner 1%nat now _ Hb) as (s2 & s' & E2 & H2 & HE & Es').
      rewrite E2. cbn [bind]. exists s'. split; [reflexivity|].
      assert (Es2 : started s' = true).
      { rewrite Es'. cbn. destruct (0 <? ran (with_inyield s1 false) - seen (with_inyield s1 false) - 1); [subst s2; exact Es|].
        destruct (wake_ok owner _ now _ _ Hb eq_refl) as (s3 & d & rest & E3 & _ & (_ & _ & _ & _ & _ & _ & E4 & _) & _).
        cbn [with_inyield sleepq] in HE, E3. rewrite E3 in HE. inversion HE; subst. rewrite E4. exact Es. }
      split; [|exact Es2]. split; [exact H2|]. congruence.
    + destruct (segment_ok t now s1 H1 Ht Es) as (s' & E2 & H2 & Es2). rewrite E2. cbn [bind].
      exists s'. split; [reflexivity|]. split; [|exact Es2]. split; [exact H2|]. congruence.
Qed.

Lemma good_start : Good thread_start.
Proof.
  split; [|reflexivity]. constructor; cbn; auto; try constructor; try lia; try (intros f t []); auto.
Qed.

Lemma turns_good : forall ins s, Good s -> exists s', turns prog ins s = Ok (Some s') /\ Good s'.
Proof.
  induction ins as [|[now b] r IH]; intros s H; cbn [turns]; [exists s; auto|].
  destruct (sched_ok now b s H) as (s1 & E & H1 & _). rewrite E. cbn [bind]. apply IH, H1.
Qed.

Lemma good_places : forall s, Good s ->
  Permutation (places s) (seq 0 (fresh s)) /\ In 0%nat (runq s) /\
  asleep s = Z.of_nat (length (sleepq s)) /\ StronglySorted later (sleepq s).
Proof.
  intros s (H & _). destruct H as [P F Sy C A O W R So]. cbn in P, Sy. auto.
Qed.

(* count zero: all but the library's task have ended *)
Lemma good_count : forall s, Good s -> started s = true ->
  count s = Z.of_nat (fresh s - 1 - length (done s)) + (if asleep s =? 0 then 0 else 1) /\
  (count s = 0 <-> forall t, (1 <= t < fresh s)%nat -> In t (done s)).
Proof.
  intros s (H & _) Es. pose proof (nodup_places _ _ _ H) as ND. destruct H as [P F Sy C A O W R So].
  cbn [app] in *. rewrite Es in C.
  assert (HL : (length (done s) + 1 <= fresh s)%nat).
  { apply Permutation_length in P. rewrite seq_length in P. unfold places in P. rewrite !app_length in P.
    destruct (runq s); [destruct Sy|]. cbn in P. lia. }
  assert (E1 : count s = Z.of_nat (fresh s - 1 - length (done s)) + (if asleep s =? 0 then 0 else 1)) by lia.
  split; [exact E1|]. split.
  - intros E0 t Ht. rewrite E1 in E0.
    assert (Hd : (length (done s) = fresh s - 1)%nat) by (destruct (asleep s =? 0); lia).
    assert (Hin : In t (places s)).
    { eapply Permutation_in; [apply Permutation_sym; exact P|]. apply in_seq. lia. }
    assert (HX : length (places s) = fresh s) by (rewrite (Permutation_length P); apply seq_length).
    unfold places in HX, Hin. rewrite !app_length in HX. rewrite !in_app_iff in Hin.
    destruct (runq s) as [|x [|y q]] eqn:Eq.
    + destruct Sy.
    + destruct Sy as [->|[]]. cbn [length] in HX.
      destruct Hin as [[<-|[]]|[Hin|[Hin|Hin]]]; [lia| | |exact Hin].
      * destruct (map fst (sleepq s)); [destruct Hin|cbn in HX; lia].
      * destruct (map snd (waitq s)); [destruct Hin|cbn in HX; lia].
    + cbn [length] in HX. lia.
  - intros Hall.
    assert (Hd : (fresh s - 1 <= length (done s))%nat).
    { rewrite <- (seq_length (fresh s - 1) 1). apply NoDup_incl_length; [apply seq_NoDup|].
      intros t Ht. apply in_seq in Ht. apply Hall. lia. }
    assert (HX : length (places s) = fresh s) by (rewrite (Permutation_length P); apply seq_length).
    unfold places in HX. rewrite !app_length, !map_length in HX.
    assert (Hr : (1 <= length (runq s))%nat) by (destruct (runq s); [destruct Sy|cbn; lia]).
    assert (Hs0 : length (sleepq s) = 0%nat) by lia.
    rewrite E1, A, Hs0. cbn. lia.
Qed.
End Programs.
