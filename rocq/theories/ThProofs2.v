(* Turns of tasks, waking of sleepers, and who can keep them asleep. *)
From Coq Require Import ZArith List Bool Lia Permutation Sorted.
From Verif Require Import Base ThModel ThProofs.
Import ListNotations.
Open Scope Z_scope.

Lemma system_turn_spec : forall owner running now s s', Inv owner [running] s -> system_turn running now s = Ok s' ->
  exists d rest, sleepq s = d ++ rest /\ sleepq s' = rest /\ runq s' = runq s ++ map fst d ++ [running] /\
    seen s' = ran s /\ ran s' = ran s /\ started s' = started s /\ inyield s' = inyield s /\ segs s' = segs s /\
    pc s' = pc s /\ done s' = done s /\ fresh s' = fresh s /\ waitq s' = waitq s /\
    (if 0 <? ran s - seen s - 1 then d = [] else Forall (due now) d /\ Forall (fun x => ~ due now x) rest).
Proof.
  intros owner running now s s' H E.
  destruct (system_turn_ok owner running now s H) as (s1 & s2 & E2 & H2 & HE & Es'). rewrite E in E2. injection E2 as E2. rewrite <- E2 in Es'. clear E2.
  destruct (0 <? ran s - seen s - 1).
  - subst s1. exists [], (sleepq s). rewrite Es'. cbn. repeat split.
  - destruct (wake_ok owner _ now _ s H eq_refl) as (s3 & d & rest & E3 & _ & SB & E4 & E5 & E6 & F1 & F2).
    rewrite E3 in HE. inversion HE; subst s3. destruct SB as (B1 & B2 & B3 & B4 & B5 & B6 & B7 & B8 & B9).
    exists d, rest. rewrite Es'. cbn. rewrite E6, <- app_assoc. repeat split; auto.
Qed.

Lemma segment_spec : forall prog t now s s', segment prog t now s = Ok s' ->
  (exists ex, runq s' = runq s ++ ex) /\ incl (sleepq s) (sleepq s') /\ (asleep s <= asleep s') /\
  ran s' = ran s /\ seen s' = seen s /\ started s' = started s /\ segs s' = segs s ++ [t] /\
  pc s' = (fun u => if Nat.eqb u t then S (pc s t) else pc s u) /\ incl (done s) (done s') /\
  (t <> 1%nat -> inyield s' = inyield s) /\
  match prog t (pc s t) with
  | TYield => runq s' = runq s ++ [t] /\ sleepq s' = sleepq s /\ asleep s' = asleep s /\ inyield s' = (if Nat.eqb t 1 then true else inyield s)
              /\ waitq s' = waitq s /\ done s' = done s
  | TSleep ms => runq s' = runq s /\ sleepq s' = insert_at ((now + ms * 1000000) mod 2 ^ 64) t (sleepq s)
  | TWait f => runq s' = runq s /\ In (f, t) (waitq s') /\ sleepq s' = sleepq s
  | TSpawn => runq s' = runq s ++ [fresh s; t] /\ fresh s' = S (fresh s) /\ sleepq s' = sleepq s
  | TEnd => runq s' = runq s /\ done s' = t :: done s /\ sleepq s' = sleepq s
  end.
Proof.
  intros prog t now s s' H. unfold segment in H. cbv zeta in H.
  destruct (prog t (pc s t)) as [|ms|f| |].
  - unfold enq in H. destruct (existsb _ _) in H; [discriminate|]. inversion H; subst.
    destruct (Nat.eqb_spec t 1); cbn; repeat split; eauto using incl_refl; try lia; try congruence.
  - inversion H; subst. unfold delay; cbn -[Z.pow]. repeat split; auto using incl_refl; try lia.
    + exists []. rewrite app_nil_r. reflexivity.
    + intros x Hx. apply insert_in. right. exact Hx.
    + intros Ht. destruct (Nat.eqb_spec t 1); congruence.
  - inversion H; subst. unfold async_wait; cbn. repeat split; auto using incl_refl; try lia.
    + exists []. rewrite app_nil_r. reflexivity.
    + intros Ht. destruct (Nat.eqb_spec t 1); congruence.
  - unfold enq in H. cbn in H. destruct (existsb _ _) in H; [discriminate|]. cbn [bind] in H.
    destruct (existsb _ _) in H; [discriminate|]. inversion H; subst. cbn. rewrite <- app_assoc.
    repeat split; eauto using incl_refl; try lia. intros Ht. destruct (Nat.eqb_spec t 1); congruence.
  - inversion H; subst. cbn. repeat split; auto using incl_refl; try lia.
    + exists []. rewrite app_nil_r. reflexivity.
    + apply incl_tl, incl_refl.
    + intros Ht. destruct (Nat.eqb_spec t 1); congruence.
Qed.

Definition taken (s : th) (q : list nat) : th :=
  mkTh q (sleepq s) (waitq s) (done s) (pc s) (fresh s) (count s) (asleep s) (ran s + 1) (seen s) (started s) (inyield s) (segs s).

Section Programs.
Variable prog : nat -> nat -> tact.
Variable owner : nat -> nat.
Hypothesis Hown : one_waiter prog owner.

Lemma sched_cases : forall now batch s t q, Good owner s -> runq s = t :: q ->
  exists s1 ex s', Inv owner [t] s1 /\ same_but_waits (taken s q) s1 /\ runq s1 = q ++ ex /\ (batch = [] -> ex = [] /\ s1 = taken s q) /\
   (forall f u, In (f, u) (waitq s) -> (In f batch /\ In u ex) \/ (~ In f batch /\ In (f, u) (waitq s1))) /\
   (forall f u, In (f, u) (waitq s1) -> In (f, u) (waitq s)) /\
   sched prog now batch s = Ok (Some s') /\ Good owner s' /\ started s' = true /\
   ((t = 0%nat /\ started s1 = true /\ system_turn 0 now s1 = Ok s') \/
    (t = 0%nat /\ started s1 = false /\ system_start s1 = Ok s') \/
    (t = 1%nat /\ inyield s1 = true /\ asleep s1 = 1 /\ Inv owner [1%nat] (with_inyield s1 false) /\ system_turn 1 now (with_inyield s1 false) = Ok s') \/
    (t <> 0%nat /\ (t = 1%nat -> inyield s1 = true -> asleep s1 <> 1) /\ segment prog t now s1 = Ok s')).
Proof.
  intros now batch s t q HG Eq. pose proof HG as (H & Hst).
  assert (Ha : Inv owner [t] (taken s q)).
  { destruct H as [P F Sy C A O W R So]. constructor; cbn; auto.
    - eapply Permutation_trans; [|exact P]. unfold places. rewrite Eq. apply Permutation_refl.
    - cbn in Sy. rewrite Eq in Sy. exact Sy.
    - lia. }
  destruct (poll_ok owner batch [t] _ Ha) as (s1 & ex & E1 & H1 & SB & EQ & E0 & HW & HV).
  destruct (sched_ok prog owner Hown now batch s HG) as (s' & Es & HG' & Hst').
  exists s1, ex, s'. split; [exact H1|]. split; [exact SB|]. split; [exact EQ|].
  split.
  { intros Hb. specialize (E0 Hb). split; [|exact E0]. subst s1. cbn in EQ.
    rewrite <- (app_nil_r q) in EQ at 1. apply app_inv_head in EQ. auto. }
  split; [exact HW|]. split; [exact HV|].
  split; [exact Es|]. split; [exact HG'|]. split; [exact Hst'|].
  unfold sched in Es. rewrite Eq in Es. fold (taken s q) in Es. rewrite E1 in Es. cbn [bind] in Es.
  destruct (Nat.eqb_spec t 0) as [->|Ht].
  - destruct (started s1) eqn:Es1.
    + destruct (system_turn 0 now s1) as [x| | |]; cbn [bind] in Es; inversion Es; subst. left. auto.
    + destruct (system_start s1) as [x| | |]; cbn [bind] in Es; inversion Es; subst. right. left. auto.
  - destruct (Nat.eqb t 1 && inyield s1 && (asleep s1 =? 1)) eqn:Em.
    + apply andb_true_iff in Em. destruct Em as (Em & E3). apply andb_true_iff in Em. destruct Em as (Em & E2).
      apply Nat.eqb_eq in Em. apply Z.eqb_eq in E3. subst t.
      destruct (started s1); [|discriminate].
      destruct (system_turn 1 now (with_inyield s1 false)) as [x| | |]; cbn [bind] in Es; inversion Es; subst.
      right. right. left. repeat split; auto; destruct H1; cbn; auto.
    + destruct (segment prog t now s1) as [x| | |]; cbn [bind] in Es; inversion Es; subst.
      right. right. right. split; [exact Ht|]. split; [|reflexivity].
      intros -> E2 E3. rewrite E2, E3 in Em. discriminate.
Qed.

(* ---- whole histories ---- *)

Lemma c153_places : forall ins, exists s, turns prog ins thread_start = Ok (Some s) /\
  Permutation (places s) (seq 0 (fresh s)) /\ In 0%nat (runq s) /\
  asleep s = Z.of_nat (length (sleepq s)) /\ StronglySorted later (sleepq s).
Proof.
  intros ins. destruct (turns_good prog owner Hown ins thread_start (good_start owner)) as (s & E & HG).
  exists s. split; [exact E|]. apply (good_places owner s HG).
Qed.

Lemma run_end : forall ins s, Good owner s -> (started s = false -> count s <> 0) ->
  (started s = false -> ~ (forall t, (1 <= t < fresh s)%nat -> In t (done s))) ->
  exists b s', async_run prog ins s = Ok (b, s') /\ Good owner s' /\
    (b = true <-> forall t, (1 <= t < fresh s')%nat -> In t (done s')).
Proof.
  assert (Base : forall s, Good owner s -> (started s = false -> count s <> 0) ->
    (started s = false -> ~ (forall t, (1 <= t < fresh s)%nat -> In t (done s))) ->
    ((count s =? 0) = true <-> forall t, (1 <= t < fresh s)%nat -> In t (done s))).
  { intros s HG H1 H2. rewrite Z.eqb_eq. destruct (started s) eqn:Es.
    - apply (good_count owner s HG Es).
    - split; [intros E; exfalso; exact (H1 eq_refl E)|intros E; exfalso; exact (H2 eq_refl E)]. }
  induction ins as [|[now b] r IH]; intros s HG H1 H2; cbn [async_run].
  - exists (count s =? 0), s. split; [reflexivity|]. split; [exact HG|]. apply Base; assumption.
  - destruct (count s =? 0) eqn:E0.
    + exists true, s. split; [reflexivity|]. split; [exact HG|]. rewrite <- (Base s HG H1 H2), E0. tauto.
    + destruct (sched_ok prog owner Hown now b s HG) as (s1 & E & HG1 & Hst). rewrite E. cbn [bind].
      apply IH; [exact HG1|congruence|congruence].
Qed.

Lemma c153_ends : forall ins, exists b s, async_run prog ins thread_start = Ok (b, s) /\
  (b = true <-> forall t, (1 <= t < fresh s)%nat -> In t (done s)).
Proof.
  intros ins. destruct (run_end ins thread_start (good_start owner)) as (b & s & E & _ & H).
  - cbn. lia.
  - cbn. intros _ Hx. apply (Hx 1%nat). lia.
  - exists b, s. auto.
Qed.

(* ---- turns ---- *)

Lemma sched_rotates : forall now batch s t q, Good owner s -> runq s = t :: q ->
  exists s' ex, sched prog now batch s = Ok (Some s') /\ Good owner s' /\ runq s' = q ++ ex.
Proof.
  intros now batch s t q HG Eq.
  destruct (sched_cases now batch s t q HG Eq) as (s1 & ex & s' & H1 & SB & EQ & _ & _ & _ & Es & HG' & _ & HC).
  exists s'.
  assert (HX : exists ex2, runq s' = runq s1 ++ ex2).
  { destruct HC as [(-> & _ & E)|[(-> & _ & E)|[(-> & _ & _ & Hi & E)|(_ & _ & E)]]].
    - apply (system_turn_spec owner) in E; [|exact H1]. destruct E as (d & rest & _ & _ & E & _). eexists. exact E.
    - unfold system_start, enq in E. destruct (existsb _ _) in E; inversion E; subst. cbn. eexists. reflexivity.
    - apply (system_turn_spec owner) in E; [|exact Hi]. destruct E as (d & rest & _ & _ & E & _). eexists. exact E.
    - apply segment_spec in E. destruct E as (E & _). exact E. }
  destruct HX as (ex2 & E2). exists (ex ++ ex2). split; [exact Es|]. split; [exact HG'|].
  rewrite E2, EQ, app_assoc. reflexivity.
Qed.

Lemma c154_turn : forall i ins s t, Good owner s -> length ins = i -> nth_error (runq s) i = Some t ->
  exists s', turns prog ins s = Ok (Some s') /\ Good owner s' /\ hd_error (runq s') = Some t.
Proof.
  induction i as [|i IH]; intros ins s t HG HL Hn.
  - destruct ins; [|discriminate]. exists s. split; [reflexivity|]. split; [exact HG|].
    destruct (runq s); [discriminate|exact Hn].
  - destruct ins as [|[now b] r]; [discriminate|]. cbn in HL. injection HL as HL.
    destruct (runq s) as [|u q] eqn:Eq; [discriminate|]. cbn in Hn.
    destruct (sched_rotates now b s u q HG Eq) as (s1 & ex & E & HG1 & E1). cbn [turns]. rewrite E. cbn [bind].
    apply IH; [exact HG1|exact HL|]. rewrite E1. rewrite nth_error_app1; [exact Hn|].
    apply nth_error_Some. congruence.
Qed.

(* What the task at the head does in its turn. *)
Lemma c154_head : forall now batch s t, Good owner s -> hd_error (runq s) = Some t -> t <> 0%nat ->
  exists s', sched prog now batch s = Ok (Some s') /\ Good owner s' /\
   ((segs s' = segs s ++ [t] /\ pc s' t = S (pc s t)) \/
    (t = 1%nat /\ inyield s = true /\ inyield s' = false /\ asleep s = 1 /\ segs s' = segs s /\ In t (runq s'))).
Proof.
  intros now batch s t HG Hh Ht. destruct (runq s) as [|u q] eqn:Eq; [discriminate|]. cbn in Hh. inversion Hh; subst u.
  destruct (sched_cases now batch s t q HG Eq) as (s1 & ex & s' & H1 & SB & EQ & _ & _ & _ & Es & HG' & _ & HC).
  exists s'. split; [exact Es|]. split; [exact HG'|].
  destruct SB as (B1 & B2 & B3 & B4 & B5 & B6 & B7 & B8 & B9 & B10 & B11). cbn in *.
  destruct HC as [(-> & _)|[(-> & _)|[(-> & E1 & E2 & Hi & E)|(_ & _ & E)]]]; try congruence.
  - right. apply (system_turn_spec owner) in E; [|exact Hi].
    destruct E as (d & rest & _ & _ & E3 & _ & _ & _ & E4 & E5 & _). cbn in E4, E5.
    repeat split; try congruence. rewrite E3, !in_app_iff. cbn. tauto.
  - left. apply segment_spec in E. destruct E as (_ & _ & _ & _ & _ & _ & E1 & E2 & _).
    rewrite E1, E2, B11, B3, Nat.eqb_refl. auto.
Qed.

(* ---- sleepers ---- *)

Lemma c155_keep : forall now batch s x, Good owner s -> In x (sleepq s) ->
  exists s', sched prog now batch s = Ok (Some s') /\ Good owner s' /\
    (In x (sleepq s') \/ (due now x /\ In (fst x) (runq s'))).
Proof.
  intros now batch s x HG Hx. destruct (runq s) as [|t q] eqn:Eq.
  { destruct HG as (H & _). pose proof (I_sys _ _ _ H) as Sy. cbn in Sy. rewrite Eq in Sy. destruct Sy. }
  destruct (sched_cases now batch s t q HG Eq) as (s1 & ex & s' & H1 & SB & EQ & _ & _ & _ & Es & HG' & _ & HC).
  exists s'. split; [exact Es|]. split; [exact HG'|].
  assert (Hx1 : In x (sleepq s1)) by (destruct SB as (-> & _); exact Hx).
  assert (G : forall running sa, Inv owner [running] sa -> In x (sleepq sa) -> system_turn running now sa = Ok s' ->
     In x (sleepq s') \/ (due now x /\ In (fst x) (runq s'))).
  { intros running sa Hi Hxa E. apply (system_turn_spec owner) in E; [|exact Hi].
    destruct E as (d & rest & E1 & E2 & E3 & _ & _ & _ & _ & _ & _ & _ & _ & _ & E4).
    rewrite E1 in Hxa. apply in_app_or in Hxa. destruct Hxa as [Hd|Hr]; [right|left; rewrite E2; exact Hr].
    destruct (0 <? ran sa - seen sa - 1); [subst d; destruct Hd|]. destruct E4 as (F1 & _).
    rewrite Forall_forall in F1. split; [apply F1, Hd|]. rewrite E3, !in_app_iff. right. left. apply in_map, Hd. }
  destruct HC as [(-> & _ & E)|[(-> & _ & E)|[(-> & _ & _ & Hi & E)|(_ & _ & E)]]].
  - apply (G 0%nat s1 H1 Hx1 E).
  - unfold system_start, enq in E. destruct (existsb _ _) in E; inversion E; subst. left. exact Hx1.
  - apply (G 1%nat _ Hi Hx1 E).
  - left. apply segment_spec in E. destruct E as (_ & E & _). apply E, Hx1.
Qed.

Lemma c155_sleeps : forall now batch s t ms, Good owner s -> hd_error (runq s) = Some t -> t <> 0%nat ->
  prog t (pc s t) = TSleep ms -> 0 <= now + ms * 1000000 < 2 ^ 64 ->
  exists s', sched prog now batch s = Ok (Some s') /\
    (In (t, now + ms * 1000000) (sleepq s') \/ (t = 1%nat /\ pc s' t = pc s t /\ inyield s = true)).
Proof.
  intros now batch s t ms HG Hh Ht Hp Hr. destruct (runq s) as [|u q] eqn:Eq; [discriminate|]. cbn in Hh. inversion Hh; subst u.
  destruct (sched_cases now batch s t q HG Eq) as (s1 & ex & s' & H1 & SB & EQ & _ & _ & _ & Es & HG' & _ & HC).
  exists s'. split; [exact Es|].
  destruct SB as (B1 & B2 & B3 & B4 & B5 & B6 & B7 & B8 & B9 & B10 & B11). cbn in *.
  destruct HC as [(-> & _)|[(-> & _)|[(-> & E1 & E2 & Hi & E)|(_ & _ & E)]]]; try congruence.
  - right. apply (system_turn_spec owner) in E; [|exact Hi].
    destruct E as (d & rest & _ & _ & _ & _ & _ & _ & _ & _ & E5 & _). cbn in E5. rewrite E5, B3. split; [reflexivity|].
    split; [reflexivity|congruence].
  - left. apply segment_spec in E. rewrite B3, Hp in E. destruct E as (_ & _ & _ & _ & _ & _ & _ & _ & _ & _ & _ & E).
    rewrite E. apply insert_in. left. rewrite Z.mod_small by exact Hr. reflexivity.
Qed.

(* The library's task looks at the sleepers if it ran last. *)
Lemma c155_pass : forall now batch s q, Good owner s -> runq s = 0%nat :: q -> started s = true -> ran s = seen s ->
  exists s' d rest, sched prog now batch s = Ok (Some s') /\ Good owner s' /\
    sleepq s = d ++ rest /\ sleepq s' = rest /\ Forall (due now) d /\ Forall (fun x => ~ due now x) rest /\
    (exists ex, runq s' = q ++ ex ++ map fst d ++ [0%nat] /\ (batch = [] -> ex = [])) /\ ran s' = seen s'.
Proof.
  intros now batch s q HG Eq Hst Hr.
  destruct (sched_cases now batch s 0%nat q HG Eq) as (s1 & ex & s' & H1 & SB & EQ & Hb & _ & _ & Es & HG' & _ & HC).
  destruct SB as (B1 & B2 & B3 & B4 & B5 & B6 & B7 & B8 & B9 & B10 & B11). cbn in *.
  destruct HC as [(_ & _ & E)|[(_ & E & _)|[(E & _)|(E & _)]]]; try congruence.
  apply (system_turn_spec owner) in E; [|exact H1].
  destruct E as (d & rest & E1 & E2 & E3 & E4 & E5 & _ & _ & _ & _ & _ & _ & _ & E6).
  replace (0 <? ran s1 - seen s1 - 1) with false in E6 by (symmetry; apply Z.ltb_ge; lia). destruct E6 as (F1 & F2).
  exists s', d, rest. split; [exact Es|]. split; [exact HG'|]. split; [congruence|]. split; [exact E2|].
  split; [exact F1|]. split; [exact F2|]. split; [|lia].
  exists ex. split; [rewrite E3, EQ, <- app_assoc; reflexivity|]. intros Hbb. apply Hb in Hbb. apply Hbb.
Qed.

(* Nobody else is ready: within two turns. *)
Lemma sys_turn_cases : forall now s q, Good owner s -> started s = true -> runq s = 0%nat :: q ->
  exists s', sched prog now [] s = Ok (Some s') /\ Good owner s' /\ started s' = true /\
   ((ran s <= seen s /\ Forall (fun x => ~ due now x) (sleepq s') /\ (forall x, In x (sleepq s) -> due now x -> In (fst x) (runq s'))) \/
    (sleepq s' = sleepq s /\ runq s' = q ++ [0%nat] /\ seen s' = ran s' /\ inyield s' = inyield s /\ pc s' = pc s)).
Proof.
  intros now s q HG Hst Eq.
  destruct (sched_cases now [] s 0%nat q HG Eq) as (s1 & ex & s' & H1 & SB & EQ & Hb & _ & _ & Es & HG' & Hst' & HC).
  destruct (Hb eq_refl) as (Hex & Hs1). subst ex. clear SB Hb EQ.
  exists s'. split; [exact Es|]. split; [exact HG'|]. split; [exact Hst'|]. subst s1.
  destruct HC as [(_ & _ & E)|[(_ & E & _)|[(E & _)|(E & _)]]]; try (cbn in E; congruence).
  apply (system_turn_spec owner) in E; [|exact H1]. cbn in E.
  destruct E as (d & rest & E1 & E2 & E3 & E4 & E5 & _ & E7 & _ & E8 & _ & _ & _ & E6).
  destruct (0 <? ran s + 1 - seen s - 1) eqn:Er.
  - right. subst d. cbn in *. rewrite E2, E3, E5, E4. repeat split; auto.
  - left. apply Z.ltb_ge in Er. split; [lia|]. destruct E6 as (F1 & F2). rewrite E2. split; [exact F2|].
    intros x Hx Hd. rewrite E1 in Hx. apply in_app_or in Hx. rewrite E3, !in_app_iff. destruct Hx as [Hx|Hx].
    + right. left. apply in_map, Hx.
    + rewrite Forall_forall in F2. exfalso. exact (F2 x Hx Hd).
Qed.

Lemma c155_alone : forall now1 now2 s, Good owner s -> started s = true -> runq s = [0%nat] ->
  exists i now s', ((i = 1%nat /\ now = now1) \/ (i = 2%nat /\ now = now2)) /\
    turns prog (firstn i [(now1, []); (now2, [])]) s = Ok (Some s') /\
    Forall (fun x => ~ due now x) (sleepq s') /\ (forall x, In x (sleepq s) -> due now x -> In (fst x) (runq s')).
Proof.
  intros now1 now2 s HG Hst Eq.
  destruct (sys_turn_cases now1 s [] HG Hst Eq) as (s1 & E1 & HG1 & Hst1 & [(_ & A & B)|(Q & R & C & _)]).
  - exists 1%nat, now1, s1. split; [auto|]. cbn [firstn turns]. rewrite E1. cbn [bind]. auto.
  - destruct (sys_turn_cases now2 s1 [] HG1 Hst1 R) as (s2 & E2 & HG2 & Hst2 & HC).
    exists 2%nat, now2, s2. split; [auto|]. cbn [firstn turns]. rewrite E1. cbn [bind]. rewrite E2. cbn [bind].
    split; [reflexivity|].
    destruct (c155_pass now2 [] s1 [] HG1 R Hst1 (eq_sym C)) as (s3 & d & rest & E3 & _ & D1 & D2 & D3 & D4 & (ex & D5 & D6) & _).
    rewrite E2 in E3. injection E3 as E3. subst s3. rewrite D2. split; [exact D4|].
    intros x Hx Hd. rewrite <- Q, D1 in Hx. apply in_app_or in Hx. rewrite D5, (D6 eq_refl). cbn.
    rewrite in_app_iff. destruct Hx as [Hx|Hx]; [left; apply in_map, Hx|].
    rewrite Forall_forall in D4. exfalso. exact (D4 x Hx Hd).
Qed.

(* The main task yields for ever and one task sleeps. *)
Definition mainly (s : th) (q : list nat) (iy : bool) (x : nat * Z) : Prop :=
  Good owner s /\ started s = true /\ runq s = q /\ inyield s = iy /\ sleepq s = [x].

Definition awake (x : nat * Z) (s : th) : Prop := In (fst x) (runq s) /\ sleepq s = [].

Lemma main_sys : forall now s q iy x, mainly s (0%nat :: q) iy x -> due now x ->
  exists s', sched prog now [] s = Ok (Some s') /\
    (awake x s' \/ (mainly s' (q ++ [0%nat]) iy x /\ seen s < ran s /\ seen s' = ran s' /\ pc s' = pc s)).
Proof.
  intros now s q iy x (HG & Hst & Eq & Hi & Hs) Hd.
  destruct (sys_turn_cases now s q HG Hst Eq) as (s1 & E1 & HG1 & Hst1 & HC).
  exists s1. split; [exact E1|].
  destruct (Z.le_gt_cases (ran s) (seen s)) as [Hr|Hr].
  - left. pose proof (I_ran _ _ _ (proj1 HG)) as Hr'.
    destruct (c155_pass now [] s q HG Eq Hst ltac:(lia)) as (s3 & d & rest & E3 & _ & D1 & D2 & D3 & D4 & (ex & D5 & D6) & _).
    rewrite E1 in E3. injection E3 as E3. subst s3. rewrite Hs in D1.
    destruct d as [|y d]; cbn in D1.
    + subst rest. inversion D4 as [|? ? D7 _]; subst. contradiction.
    + injection D1 as D1 D8. symmetry in D8. apply app_eq_nil in D8. destruct D8 as (-> & ->). subst y.
      unfold awake. rewrite D5, D2. split; [|reflexivity]. rewrite (D6 eq_refl). cbn. rewrite in_app_iff. cbn. tauto.
  - right. destruct HC as [(Hr' & _)|(Q & R & C & D & E)]; [lia|].
    split; [|auto]. unfold mainly. rewrite Hst1, R, D, Q. auto.
Qed.

Lemma main_special : forall now s q x, mainly s (1%nat :: q) true x -> due now x ->
  exists s', sched prog now [] s = Ok (Some s') /\
    (awake x s' \/ (mainly s' (q ++ [1%nat]) false x /\ seen s' = ran s' /\ seen s < ran s)).
Proof.
  intros now s q x (HG & Hst & Eq & Hi & Hs) Hd.
  destruct (sched_cases now [] s 1%nat q HG Eq) as (s1 & ex & s' & H1 & SB & EQ & Hb & _ & _ & Es & HG' & Hst' & HC).
  destruct (Hb eq_refl) as (Hex & Hs1). subst ex. clear SB Hb EQ.
  exists s'. split; [exact Es|]. subst s1.
  assert (Has : asleep s = 1).
  { destruct HG as (HI & _). rewrite (I_asleep _ _ _ HI), Hs. reflexivity. }
  destruct HC as [(E & _)|[(E & _)|[(_ & _ & _ & Hi1 & E)|(_ & E & _)]]]; try congruence.
  2:{ exfalso. apply (E eq_refl); cbn; assumption. }
  apply (system_turn_spec owner) in E; [|exact Hi1]. cbn in E. rewrite Hs in E.
  destruct E as (d & rest & E1 & E2 & E3 & E4 & E5 & E9 & E7 & _ & E8 & _ & _ & _ & E6).
  destruct (0 <? ran s + 1 - seen s - 1) eqn:Er.
  - right. apply Z.ltb_lt in Er. subst d. cbn in *. split; [|lia]. unfold mainly. rewrite E2, E3, E7, <- E1. auto.
  - left. destruct E6 as (F1 & F2). destruct d as [|y d]; cbn in E1.
    + subst rest. inversion F2 as [|? ? D7 _]; subst. contradiction.
    + injection E1 as D1 D8. symmetry in D8. apply app_eq_nil in D8. destruct D8 as (-> & ->). subst y.
      unfold awake. rewrite E3, E2. split; [|reflexivity]. rewrite in_app_iff. cbn. tauto.
Qed.

Lemma main_yields : forall now s q x, mainly s (1%nat :: q) false x -> prog 1%nat (pc s 1%nat) = TYield ->
  exists s', sched prog now [] s = Ok (Some s') /\ mainly s' (q ++ [1%nat]) true x.
Proof.
  intros now s q x (HG & Hst & Eq & Hi & Hs) Hp.
  destruct (sched_cases now [] s 1%nat q HG Eq) as (s1 & ex & s' & H1 & SB & EQ & Hb & _ & _ & Es & HG' & Hst' & HC).
  destruct (Hb eq_refl) as (Hex & Hs1). subst ex. clear SB Hb EQ.
  exists s'. split; [exact Es|]. subst s1.
  destruct HC as [(E & _)|[(E & _)|[(_ & E & _)|(_ & _ & E)]]]; try (cbn in E; congruence).
  apply segment_spec in E. change (pc (taken s q)) with (pc s) in E. rewrite Hp in E. cbn in E.
  destruct E as (_ & _ & _ & _ & _ & _ & _ & _ & _ & _ & A & B & _ & C & _).
  unfold mainly. rewrite A, B, C, Hs. auto.
Qed.

Lemma c155_main : forall n1 n2 n3 n4 s x, Good owner s -> started s = true -> prog 1%nat (pc s 1%nat) = TYield ->
  (runq s = [0; 1]%nat \/ runq s = [1; 0]%nat) -> sleepq s = [x] ->
  due n1 x -> due n2 x -> due n3 x -> due n4 x ->
  exists i s', (i <= 4)%nat /\ turns prog (firstn i [(n1, []); (n2, []); (n3, []); (n4, [])]) s = Ok (Some s') /\
    In (fst x) (runq s') /\ sleepq s' = [].
Proof.
  assert (Run : forall ins s s1 b now x, sched prog now b s = Ok (Some s1) ->
     (exists i s', (i <= length ins)%nat /\ turns prog (firstn i ins) s1 = Ok (Some s') /\ awake x s') ->
     exists i s', (i <= S (length ins))%nat /\ turns prog (firstn i ((now, b) :: ins)) s = Ok (Some s') /\ awake x s').
  { intros ins s s1 b now x E (i & s' & Hi & Et & Ha). exists (S i), s'. split; [lia|]. cbn [firstn turns].
    rewrite E. cbn [bind]. auto. }
  assert (Now : forall ins s x, awake x s -> exists i s', (i <= length ins)%nat /\ turns prog (firstn i ins) s = Ok (Some s') /\ awake x s').
  { intros ins s x Ha. exists 0%nat, s. cbn. split; [lia|auto]. }
  (* the library's task has just counted: the special turn passes *)
  assert (A : forall now ins s x, mainly s [1; 0]%nat true x -> due now x -> ran s <= seen s ->
    exists i s', (i <= length ((now, @nil nat) :: ins))%nat /\ turns prog (firstn i ((now, []) :: ins)) s = Ok (Some s') /\ awake x s').
  { intros now ins s x Hm Hd Hr. destruct (main_special now s _ x Hm Hd) as (s1 & E & [H|(_ & _ & H)]); [|lia].
    apply (Run ins s s1 [] now x E), Now, H. }
  (* the main task is suspended in yield *)
  assert (B : forall na nb ins s x, mainly s [1; 0]%nat true x -> due na x -> due nb x ->
    exists i s', (i <= length ((na, @nil nat) :: (nb, []) :: ins))%nat /\
      turns prog (firstn i ((na, []) :: (nb, []) :: ins)) s = Ok (Some s') /\ awake x s').
  { intros na nb ins s x Hm Ha Hb. destruct (main_special na s _ x Hm Ha) as (s1 & E & [H|(H & Hr & _)]);
      apply (Run ((nb, []) :: ins) s s1 [] na x E); [apply Now, H|].
    destruct (main_sys nb s1 _ _ x H Hb) as (s2 & E2 & [H2|(_ & H2 & _)]); [|lia].
    apply (Run ins s1 s2 [] nb x E2), Now, H2. }
  (* the main task is about to yield *)
  assert (C : forall na nb nc ins s x, prog 1%nat (pc s 1%nat) = TYield -> mainly s [1; 0]%nat false x -> due nb x -> due nc x ->
    exists i s', (i <= length ((na, @nil nat) :: (nb, []) :: (nc, []) :: ins))%nat /\
      turns prog (firstn i ((na, []) :: (nb, []) :: (nc, []) :: ins)) s = Ok (Some s') /\ awake x s').
  { intros na nb nc ins s x Hp Hm Hb Hc. destruct (main_yields na s _ x Hm Hp) as (s1 & E & H1).
    apply (Run _ s s1 [] na x E).
    destruct (main_sys nb s1 _ _ x H1 Hb) as (s2 & E2 & [H2|(H2 & _ & Hr & _)]); apply (Run _ s1 s2 [] nb x E2); [apply Now, H2|].
    apply (A nc ins s2 x H2 Hc). lia. }
  intros n1 n2 n3 n4 s x HG Hst Hp Hq Hs D1 D2 D3 D4.
  assert (G : exists i s', (i <= length [(n1, @nil nat); (n2, []); (n3, []); (n4, [])])%nat /\
     turns prog (firstn i [(n1, []); (n2, []); (n3, []); (n4, [])]) s = Ok (Some s') /\ awake x s').
  { destruct Hq as [Hq|Hq].
    - assert (Hm : mainly s [0; 1]%nat (inyield s) x) by (unfold mainly; auto).
      destruct (main_sys n1 s _ _ x Hm D1) as (s1 & E & [H|(H & _ & Hr & Hpc)]); apply (Run _ s s1 [] n1 x E); [apply Now, H|].
      cbn [app] in H. destruct (inyield s).
      + apply A; auto. lia.
      + apply C; auto. rewrite Hpc. exact Hp.
    - assert (Hm : mainly s [1; 0]%nat (inyield s) x) by (unfold mainly; auto).
      destruct (inyield s); [apply B|apply C]; auto. }
  destruct G as (i & s' & Hi & Et & Ha & Hb). exists i, s'. split; [exact Hi|]. auto.
Qed.

(* ---- a task that yields for ever keeps the others asleep ---- *)

Definition hogged (x : nat) (s : th) : Prop :=
  Good owner s /\ started s = true /\ (In 1%nat (done s) \/ 2 <= asleep s) /\ (forall k, (pc s x <= k)%nat -> prog x k = TYield) /\
  exists a b, runq s = a ++ x :: b /\ (In 0%nat a -> seen s < ran s).

Lemma hog_step : forall now batch x s, x <> 0%nat -> hogged x s ->
  exists s', sched prog now batch s = Ok (Some s') /\ hogged x s' /\ incl (sleepq s) (sleepq s').
Proof.
  intros now batch x s Hx (HG & Hst & Hm & Hp & a & b & Eq & Hab).
  assert (HI : Inv owner [] s) by apply HG.
  pose proof (nodup_places _ _ _ HI) as ND. cbn [app] in ND.
  assert (Ht : exists t q, runq s = t :: q) by (rewrite Eq; destruct a; cbn; eauto). destruct Ht as (t & q & Et).
  destruct (sched_cases now batch s t q HG Et) as (s1 & ex & s' & H1 & SB & EQ & _ & _ & _ & Es & HG' & Hst' & HC).
  destruct SB as (B1 & B2 & B3 & B4 & B5 & B6 & B7 & B8 & B9 & B10 & B11). cbn in *.
  exists s'. split; [exact Es|].
  assert (Hnot1 : In 1%nat (done s) -> t <> 1%nat).
  { intros Hd ->. unfold places in ND. rewrite Et in ND. cbn in ND. inversion ND as [|? ? Hn _]; subst.
    apply Hn. rewrite !in_app_iff. tauto. }
  destruct HC as [(-> & _ & E)|[(-> & E & _)|[(-> & _ & E0 & _)|(Ht & _ & E)]]].
  - (* the library's task *)
    apply (system_turn_spec owner) in E; [|exact H1].
    destruct E as (d & rest & E1 & E2 & E3 & E4 & E5 & _ & E7 & _ & E8 & E9 & _ & _ & E6).
    assert (Ha : exists a', a = 0%nat :: a' /\ q = a' ++ x :: b).
    { rewrite Et in Eq. destruct a as [|y a]; cbn in Eq; [congruence|]. injection Eq as <- Eq. exists a. auto. }
    destruct Ha as (a' & -> & Eq'). assert (Hr : seen s < ran s) by (apply Hab; left; reflexivity).
    replace (0 <? ran s1 - seen s1 - 1) with true in E6 by (symmetry; apply Z.ltb_lt; lia). subst d.
    cbn in E1, E3. rewrite E2, <- E1, B1. split; [|apply incl_refl].
    split; [exact HG'|]. split; [exact Hst'|]. split.
    { destruct Hm as [Hm|Hm]; [left; rewrite E9, B2; exact Hm|right].
      rewrite (I_asleep _ _ _ (proj1 HG')), E2, <- E1, B1, <- (I_asleep _ _ _ HI). exact Hm. }
    split; [rewrite E8, B3; exact Hp|].
    exists a', (b ++ ex ++ [0%nat]). split.
    + rewrite E3, EQ, Eq', <- !app_assoc. cbn [app]. reflexivity.
    + intros H0. exfalso. unfold places in ND. rewrite Et, Eq' in ND. cbn in ND. inversion ND as [|? ? Hn _]; subst.
      apply Hn. rewrite !in_app_iff. tauto.
  - congruence.
  - exfalso. destruct Hm as [Hm|Hm]; [exact (Hnot1 Hm eq_refl)|]. lia.
  - apply segment_spec in E. destruct E as ((ex2 & E1) & E2 & E3 & E4 & E5 & _ & _ & EP & E6 & _ & EM).
    split.
    2:{ rewrite <- B1. exact E2. }
    split; [exact HG'|]. split; [exact Hst'|]. split.
    { destruct Hm as [Hm|Hm]; [left; apply E6; rewrite B2; exact Hm|right; lia]. }
    split.
    { intros k Hk. apply Hp. rewrite EP, B3 in Hk. destruct (Nat.eqb_spec x t); [subst; lia|exact Hk]. }
    pose proof (I_ran _ _ _ HI) as Hr.
    rewrite Et in Eq. destruct a as [|y a]; cbn in Eq.
    + (* the task itself *) injection Eq as -> ->. rewrite Hp in EM by (rewrite B3; lia). destruct EM as (EM & _).
      exists (b ++ ex), []. split; [rewrite EM, EQ; reflexivity|]. intros _. lia.
    + injection Eq as -> ->. exists a, (b ++ ex ++ ex2). split.
      * rewrite E1, EQ, <- !app_assoc. cbn [app]. reflexivity.
      * intros _. lia.
Qed.

Lemma hog_forever : forall ins x s, x <> 0%nat -> hogged x s ->
  exists s', turns prog ins s = Ok (Some s') /\ hogged x s' /\ incl (sleepq s) (sleepq s').
Proof.
  induction ins as [|[now b] r IH]; intros x s Hx H; cbn [turns].
  - exists s. auto using incl_refl.
  - destruct (hog_step now b x s Hx H) as (s1 & E & H1 & I1). rewrite E. cbn [bind].
    destruct (IH x s1 Hx H1) as (s2 & E2 & H2 & I2). exists s2. split; [exact E2|]. split; [exact H2|].
    eapply incl_tran; eassumption.
Qed.

(* From any state with one task that yields for ever ready: after its next turn. *)
Lemma c155_hog : forall ins now b x s, Good owner s -> started s = true -> x <> 0%nat -> (forall k, (pc s x <= k)%nat -> prog x k = TYield) ->
  (In 1%nat (done s) \/ 2 <= asleep s) -> hd_error (runq s) = Some x ->
  exists s', turns prog ((now, b) :: ins) s = Ok (Some s') /\ incl (sleepq s) (sleepq s').
Proof.
  intros ins now b x s HG Hst Hx Hp Hm Hh.
  destruct (hog_forever ((now, b) :: ins) x s Hx) as (s' & E & _ & I').
  - split; [exact HG|]. split; [exact Hst|]. split; [exact Hm|]. split; [exact Hp|].
    destruct (runq s) as [|y q]; [discriminate|]. cbn in Hh. injection Hh as ->. exists [], q. split; [reflexivity|].
    intros [].
  - exists s'. auto.
Qed.
End Programs.

(* A state of a thread that has begun. *)
Definition reached (prog : nat -> nat -> tact) (s : th) : Prop :=
  exists i ins, turns prog (i :: ins) thread_start = Ok (Some s).

Lemma turns_started : forall prog owner, one_waiter prog owner -> forall ins s s', Good owner s -> started s = true ->
  turns prog ins s = Ok (Some s') -> Good owner s' /\ started s' = true.
Proof.
  intros prog owner Hown. induction ins as [|[now b] r IH]; intros s s' HG Hst E; cbn [turns] in E.
  - inversion E; subst. auto.
  - destruct (sched_ok prog owner Hown now b s HG) as (s1 & E1 & HG1 & Hst1). rewrite E1 in E. cbn [bind] in E.
    exact (IH s1 s' HG1 Hst1 E).
Qed.

Lemma reached_good : forall prog owner s, one_waiter prog owner -> reached prog s -> Good owner s /\ started s = true.
Proof.
  intros prog owner s Hown ([now b] & ins & E). cbn [turns] in E.
  destruct (sched_ok prog owner Hown now b thread_start (good_start owner)) as (s1 & E1 & HG1 & Hst1).
  rewrite E1 in E. cbn [bind] in E. exact (turns_started prog owner Hown ins s1 s HG1 Hst1 E).
Qed.

Section Reached.
Variable prog : nat -> nat -> tact.
Variable owner : nat -> nat.
Hypothesis Hown : one_waiter prog owner.

Lemma r154_turn : forall ins s t, reached prog s -> nth_error (runq s) (length ins) = Some t ->
  exists s', turns prog ins s = Ok (Some s') /\ hd_error (runq s') = Some t.
Proof.
  intros ins s t Hr Hn. destruct (reached_good prog owner s Hown Hr) as (HG & _).
  destruct (c154_turn prog owner Hown (length ins) ins s t HG eq_refl Hn) as (s' & E & _ & H). eauto.
Qed.

Lemma r154_head : forall now batch s t, reached prog s -> hd_error (runq s) = Some t -> t <> 0%nat ->
  exists s', sched prog now batch s = Ok (Some s') /\
   ((segs s' = segs s ++ [t] /\ pc s' t = S (pc s t)) \/
    (t = 1%nat /\ inyield s = true /\ inyield s' = false /\ length (sleepq s) = 1%nat /\ segs s' = segs s /\ In t (runq s'))).
Proof.
  intros now batch s t Hr Hh Ht. destruct (reached_good prog owner s Hown Hr) as (HG & _).
  destruct (c154_head prog owner Hown now batch s t HG Hh Ht) as (s' & E & _ & H). exists s'. split; [exact E|].
  destruct H as [H|(A & B & C & D & F)]; [auto|right]. rewrite (I_asleep _ _ _ (proj1 HG)) in D.
  repeat split; auto; [lia| |]; apply F.
Qed.

(* A waiter is queued in the turn in which its descriptor is reported and stays otherwise. *)
Lemma r154_wait : forall now batch s f u, reached prog s -> In (f, u) (waitq s) ->
  exists s', sched prog now batch s = Ok (Some s') /\
    (In f batch -> In u (runq s')) /\ (~ In f batch -> In (f, u) (waitq s')).
Proof.
  intros now batch s f u Hr Hin. destruct (reached_good prog owner s Hown Hr) as (HG & Hst).
  destruct (runq s) as [|t q] eqn:Eq.
  { destruct HG as (H & _). pose proof (I_sys _ _ _ H) as Sy. cbn in Sy. rewrite Eq in Sy. destruct Sy. }
  destruct (sched_cases prog owner Hown now batch s t q HG Eq) as (s1 & ex & s' & H1 & SB & EQ & _ & HW & _ & Es & HG' & Hst' & HC).
  exists s'. split; [exact Es|].
  assert (HX : (exists ex2, runq s' = runq s1 ++ ex2) /\ (In (f, u) (waitq s1) -> In (f, u) (waitq s'))).
  { destruct HC as [(-> & _ & E)|[(-> & E & _)|[(-> & _ & _ & Hi & E)|(Ht & _ & E)]]].
    - apply (system_turn_spec owner) in E; [|exact H1].
      destruct E as (d & rest & _ & _ & E & _ & _ & _ & _ & _ & _ & _ & _ & Ew & _). rewrite Ew. eauto.
    - exfalso. destruct SB as (_ & _ & _ & _ & _ & _ & _ & _ & B & _). cbn in B. congruence.
    - apply (system_turn_spec owner) in E; [|exact Hi].
      destruct E as (d & rest & _ & _ & E & _ & _ & _ & _ & _ & _ & _ & _ & Ew & _). cbn in E, Ew. rewrite Ew. eauto.
    - pose proof E as E'. apply segment_spec in E'. split; [apply E'|]. intros Hw. clear E'.
      unfold segment in E. cbv zeta in E. destruct (prog t (pc s1 t)) as [|ms|g| |] eqn:EP.
      + unfold enq in E. destruct (existsb _ _) in E; [discriminate|]. inversion E; subst. destruct (Nat.eqb t 1); exact Hw.
      + inversion E; subst. exact Hw.
      + inversion E; subst. unfold async_wait. cbn. right. apply filter_In. split; [exact Hw|]. cbn.
        destruct (Nat.eqb_spec f g) as [->|]; [|reflexivity]. exfalso.
        (* then u is t, which is running *)
        pose proof (I_own _ _ _ H1 _ _ Hw) as Ho. pose proof (Hown _ _ _ EP) as Ho'. assert (Ht' : u = t) by congruence. subst u.
        pose proof (nodup_places _ _ _ H1) as ND. cbn [app] in ND. inversion ND as [|? ? Hn _]; subst. apply Hn.
        unfold places. rewrite !in_app_iff. right. right. left. apply in_map_iff. exists (g, owner g). auto.
      + unfold enq in E. cbn in E. destruct (existsb _ _) in E; [discriminate|]. cbn [bind] in E.
        destruct (existsb _ _) in E; [discriminate|]. inversion E; subst. exact Hw.
      + inversion E; subst. exact Hw. }
  destruct HX as ((ex2 & E2) & Hk). destruct (HW f u Hin) as [(A & B)|(A & B)].
  - split; [|contradiction]. intros _. rewrite E2, EQ, !in_app_iff. tauto.
  - split; [contradiction|]. intros _. apply Hk, B.
Qed.

Lemma r155_keep : forall now batch s t a, reached prog s -> In (t, a) (sleepq s) ->
  exists s', sched prog now batch s = Ok (Some s') /\ (In (t, a) (sleepq s') \/ (a <= now /\ In t (runq s'))).
Proof.
  intros now batch s t a Hr Hx. destruct (reached_good prog owner s Hown Hr) as (HG & _).
  destruct (c155_keep prog owner Hown now batch s _ HG Hx) as (s' & E & _ & H). exists s'. auto.
Qed.

Lemma r155_sleeps : forall now batch s t ms, reached prog s -> hd_error (runq s) = Some t -> t <> 0%nat ->
  prog t (pc s t) = TSleep ms -> 0 <= now + ms * 1000000 < 2 ^ 64 ->
  exists s', sched prog now batch s = Ok (Some s') /\
    (In (t, now + ms * 1000000) (sleepq s') \/ (t = 1%nat /\ pc s' t = pc s t /\ inyield s = true)).
Proof.
  intros now batch s t ms Hr. destruct (reached_good prog owner s Hown Hr) as (HG & _).
  apply (c155_sleeps prog owner Hown now batch s t ms HG).
Qed.

Lemma r155_alone : forall now1 now2 s, reached prog s -> runq s = [0%nat] ->
  exists i now s', ((i = 1%nat /\ now = now1) \/ (i = 2%nat /\ now = now2)) /\
    turns prog (firstn i [(now1, []); (now2, [])]) s = Ok (Some s') /\
    (forall t a, In (t, a) (sleepq s') -> now < a) /\
    (forall t a, In (t, a) (sleepq s) -> a <= now -> In t (runq s')).
Proof.
  intros now1 now2 s Hr Eq. destruct (reached_good prog owner s Hown Hr) as (HG & Hst).
  destruct (c155_alone prog owner Hown now1 now2 s HG Hst Eq) as (i & now & s' & Hi & E & A & B).
  exists i, now, s'. split; [exact Hi|]. split; [exact E|]. split.
  - intros t a Hx. rewrite Forall_forall in A. specialize (A _ Hx). unfold due in A. cbn in A. lia.
  - intros t a Hx Ha. exact (B (t, a) Hx Ha).
Qed.

Lemma r155_main : forall n1 n2 n3 n4 s t a, reached prog s -> prog 1%nat (pc s 1%nat) = TYield ->
  (runq s = [0; 1]%nat \/ runq s = [1; 0]%nat) -> sleepq s = [(t, a)] ->
  a <= n1 -> a <= n2 -> a <= n3 -> a <= n4 ->
  exists i s', (i <= 4)%nat /\ turns prog (firstn i [(n1, []); (n2, []); (n3, []); (n4, [])]) s = Ok (Some s') /\
    In t (runq s') /\ sleepq s' = [].
Proof.
  intros n1 n2 n3 n4 s t a Hr Hp Hq Hs A B C D. destruct (reached_good prog owner s Hown Hr) as (HG & Hst).
  exact (c155_main prog owner Hown n1 n2 n3 n4 s (t, a) HG Hst Hp Hq Hs A B C D).
Qed.

Lemma r155_hog : forall ins now b x s, reached prog s -> x <> 0%nat -> (forall k, (pc s x <= k)%nat -> prog x k = TYield) ->
  (In 1%nat (done s) \/ (2 <= length (sleepq s))%nat) -> hd_error (runq s) = Some x ->
  exists s', turns prog ((now, b) :: ins) s = Ok (Some s') /\ incl (sleepq s) (sleepq s').
Proof.
  intros ins now b x s Hr Hx Hp Hm Hh. destruct (reached_good prog owner s Hown Hr) as (HG & Hst).
  apply (c155_hog prog owner Hown ins now b x s HG Hst Hx Hp); [|exact Hh].
  rewrite (I_asleep _ _ _ (proj1 HG)). destruct Hm; [auto|right; lia].
Qed.
End Reached.

(* Witness: the main task starts two tasks that sleep for a millisecond, and then only yields. *)
Definition wprog (t k : nat) : tact :=
  match t, k with
  | 1, (0 | 1) => TSpawn
  | 1, _ => TYield
  | _, 0 => TSleep 1
  | _, _ => TEnd
  end%nat.

Lemma wprog_one : one_waiter wprog (fun _ => 0%nat).
Proof. intros [|[|t]] [|[|k]] f H; cbn in H; discriminate. Qed.

Definition wstart : list (Z * list nat) := map (fun n => (Z.of_nat n, [])) (seq 0 9).

Lemma starved : exists s, turns wprog wstart thread_start = Ok (Some s) /\ sleepq s = [(2%nat, 1000003); (3%nat, 1000008)] /\
  forall ins, exists s', turns wprog ins s = Ok (Some s') /\ incl (sleepq s) (sleepq s').
Proof.
  eexists. split; [vm_compute; reflexivity|]. split; [reflexivity|].
  set (s := mkTh _ _ _ _ _ _ _ _ _ _ _ _ _).
  intros ins.
  assert (Hr : reached wprog s). { exists (0, []), (map (fun n => (Z.of_nat n, [])) (seq 1 8)). vm_compute. reflexivity. }
  destruct (reached_good wprog (fun _ => 0%nat) s wprog_one Hr) as (HG & Hst).
  destruct (hog_forever wprog (fun _ => 0%nat) wprog_one ins 1%nat s) as (s' & E & _ & H).
  - discriminate.
  - split; [exact HG|]. split; [exact Hst|]. split; [right; cbn; lia|]. split.
    + intros [|[|k]] Hk; cbn in Hk; try lia. reflexivity.
    + exists [], [0%nat]. split; [reflexivity|]. intros [].
  - exists s'. split; [exact E|exact H].
Qed.
