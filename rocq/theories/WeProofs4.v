(* The Windows poller: whole runs, poll groups, deleting a port. *)
Require Import Verif.Base Verif.WeModel Verif.WeProofs Verif.WeProofs2 Verif.WeProofs3.
Require Import List ZArith Lia Bool Arith Permutation.
Import ListNotations.
Open Scope Z_scope.

(* ---- whole runs ---- *)
Lemma port_run c ls : exists p o, run (port0 c) ls = Ok (p, o) /\ legal st0 o.
Proof. destruct (run_ok ls (port0 c) (start_inv c)) as (p & o & X & _ & R & _). exists p, o. split; [exact X|]. apply (R st0 (start_rel c)). Qed.
Lemma run_facts c ls p o : run (port0 c) ls = Ok (p, o) -> Inv p /\ legal st0 o /\ Rel (ends st0 o) p /\ (Forall cool ls -> InvU p).
Proof.
  intros E. destruct (run_ok ls (port0 c) (start_inv c)) as (p' & o' & X & I & R & U). rewrite E in X. injection X as <- <-. destruct (R st0 (start_rel c)) as [L RR]. split; [exact I|]. split; [exact L|]. split; [exact RR|]. intros F. apply U; [exact F|]. intros A. cbn in A. lia.
Qed.

(* nothing happens unless something changes outside: no completion is queued or being handled, and the kernel has no request it would answer *)
Definition quiet (p : port) : Prop :=
  cq p = [] /\ (forall t, match thr p t with TGot _ _ _ => False | _ => True end) /\
  forall i q, req p i = Some q -> kdone q = None -> kcan q = false /\ hasb (cond p i) (kmask q) = false /\ (closed p i && hasb (kmask q) AFD_LOCAL_CLOSE) = false.
Lemma close_asked u : hasb (ep2afd u) AFD_LOCAL_CLOSE = true.
Proof. unfold ep2afd. rewrite hasb_lor_l. reflexivity. Qed.
Lemma no_lost c ls p o t : run (port0 c) ls = Ok (p, o) -> Forall cool ls -> quiet p -> thr p t <> TOut ->
  forall k e, ents (ends st0 o) k = Some e -> exists i, lookup k (tree p) = Some i /\ ecl e = false /\ forall j, 0 <= j -> told (KEvents (cond p i)) j && Z.testbit (easked e) j = false.
Proof.
  intros RN CL (Q1 & Q2 & Q3) T k e EN. destruct (run_facts c ls p o RN) as ((IV & IG & IC & IT) & _ & [R RT] & U). pose proof (U CL (in_some p t IT T)) as UE.
  pose proof (registered _ p _ k IV R) as RG. destruct (lookup k (tree p)) as [i|]; [|congruence]. destruct RG as (s & E & D & KK & _). exists i. split; [reflexivity|].
  destruct R as [R1 _]. destruct (R1 i s E D) as (e' & B1 & B2 & B3 & B4 & B5). rewrite KK in B1. assert (e' = e) by congruence. subst e'.
  destruct IV as [GL OK]. pose proof (OK i) as OI. destruct OI as [OI DN]. rewrite E in OI. destruct OI as (L1 & L2 & L3 & L4 & L5 & L6 & L7).
  assert (ND : ~ done p i). { rewrite DN, Q1. intros [[]|[u I]]. unfold hold_of in I. specialize (Q2 u). destruct (thr p u); contradiction. }
  assert (KN : forall q, req p i = Some q -> kdone q = None). { intros q X. destruct (kdone q) as [a|] eqn:Y; [destruct ND; exists q, a; auto|reflexivity]. }
  unfold stat in L7. rewrite UE in L7. destruct (pst s).
  - destruct L7 as (_ & [] & _).
  - destruct L7 as (q & X1 & X2 & X3 & X4). destruct (Q3 i q X1 (KN q X1)) as (_ & Y2 & Y3). rewrite X2, close_asked, andb_true_r in Y3. split; [congruence|]. intros j J. destruct (X4 D) as [[]|CV]. rewrite X2 in Y2. rewrite B2.
    destruct L6 as [Z0|HE]; [rewrite Z0, Z.bits_0, andb_false_r; reflexivity|].
    destruct (hasb (cond p i) (ep2afd (uev s))) eqn:H1; [rewrite (covered_mask _ _ _ CV H1) in Y2; discriminate|].
    destruct (hasb (afd2ep (cond p i)) (uev s)) eqn:H2; [rewrite (asked_for _ _ HE H2) in H1; discriminate|].
    destruct (told (KEvents (cond p i)) j && Z.testbit (uev s) j) eqn:TT; [|reflexivity]. apply andb_true_iff in TT as [T1 T2].
    assert (X : hasb (afd2ep (cond p i)) (uev s) = true) by (apply hasb_bits; exists j; rewrite told_ok by exact J; auto). congruence.
  - destruct L7 as (q & X1 & _ & [X2|X2]).
    + destruct (Q3 i q X1 (KN q X1)) as (Y1 & _). congruence.
    + destruct (X2 (KN q X1)).
Qed.
Lemma time_out c ls p o t m v : run (port0 c) ls = Ok (p, o) -> Forall cool ls -> thr p t = TIn m false -> exists p', step p (LStop t true v) = Ok (p', [ORet t (Some O)]).
Proof.
  intros RN CL T. destruct (run_facts c ls p o RN) as ((IV & IG & IC & IT) & _ & _ & U). assert (UE : updq p = []) by (apply (U CL), (in_some p t IT); congruence).
  cbn [step]. rewrite T. cbn [andb]. set (p0 := w_active p (pred (active p))). destruct (polling_ok v p0 (hold_of p)) as (p1 & tch & o1 & X & _ & _ & _ & _ & _ & _ & _ & E); [apply (inv_ext p _ _ IV); reflexivity|apply (groups_ext p _ IG); reflexivity|].
  rewrite X. cbn [bind]. destruct (E UE) as (-> & -> & ->). cbn. eexists. reflexivity.
Qed.
(* a socket whose poll the device refuses stays first: waiting fails and changes nothing, whoever waits *)
Definition blocked (i : nat) (l : label) : Prop := match l with LWait _ max _ _ v => 0 < max /\ polls v i = PErr | _ => False end.
Definition failing (ls : list label) : list obs := flat_map (fun l => match l with LWait t max _ inf _ => [OWait t max inf; ORet t None] | _ => [] end) ls.
Lemma refused p i r l : Inv p -> updq p = i :: r -> (exists s, socks p i = Some s /\ pst s = Idle) -> active p = O -> (forall t, thr p t = TOut) -> blocked i l ->
  exists p', step p l = Ok (p', failing [l]) /\ updq p' = updq p /\ socks p' = socks p /\ active p' = O /\ (forall t, thr p' t = TOut) /\ tree p' = tree p /\ req p' = req p /\ cond p' = cond p.
Proof.
  intros (IV & _) UE (s & E & PS) A T B. destruct l; try contradiction. destruct B as [M PE]. cbn [step]. rewrite T. destruct (Z.leb_spec max 0); [lia|].
  unfold enter, update_all. rewrite UE. cbn [length update_events]. rewrite UE. unfold sock_update, get. rewrite E. cbn [bind].
  destruct IV as [GL OK]. pose proof (OK i) as OI. destruct OI as [OI _]. rewrite E in OI. destruct OI as (_ & _ & _ & L4 & _ & _ & L7). rewrite L4 by (rewrite UE; cbn; auto). rewrite PS. unfold stat in L7. rewrite PS in L7. destruct L7 as (RQ & _). rewrite RQ. unfold answer. rewrite PE. cbn [bind].
  unfold if_polling. rewrite A. cbn [bind fst snd app]. eexists. split; [reflexivity|]. ww. rewrite UE. repeat split; auto. intros u. unfold set. destruct (Nat.eqb u t); auto.
Qed.
Lemma refused_for_ever i r : forall ls p, Inv p -> updq p = i :: r -> (exists s, socks p i = Some s /\ pst s = Idle) -> active p = O -> (forall t, thr p t = TOut) -> Forall (blocked i) ls ->
  exists p', run p ls = Ok (p', failing ls) /\ tree p' = tree p /\ req p' = req p /\ cond p' = cond p.
Proof.
  induction ls as [|l ls IH]; intros p IV UE EX A T F; [exists p; auto|]. apply Forall_cons_iff in F as [F1 F2].
  destruct (refused p i r l IV UE EX A T F1) as (p1 & X & U1 & S1 & A1 & T1 & R1 & Q1 & C1). destruct (step_ok p l IV) as (p1' & o1' & X' & I1 & _). rewrite X in X'. injection X' as <- <-.
  destruct (IH p1 I1) as (p2 & Y & R2 & Q2 & C2); [congruence|rewrite S1; exact EX|exact A1|exact T1|exact F2|]. exists p2. cbn [run]. rewrite X. cbn [bind fst snd]. rewrite Y. cbn [bind fst snd]. split; [|split; [congruence|split; congruence]].
  f_equal. f_equal. unfold failing. cbn [flat_map]. rewrite app_nil_r. reflexivity.
Qed.

(* ---- poll groups ---- *)
Definition there (p : port) (i : nat) : bool := match socks p i with Some _ => true | None => false end.
Definition alive (p : port) : nat := length (filter (there p) (seq 0 (nxt p))).
Definition members (p : port) (x : nat) : nat := length (filter (fun i => match socks p i with Some s => Nat.eqb (grp s) x | None => false end) (seq 0 (nxt p))).
Fixpoint sum (l : list nat) : nat := match l with [] => O | a :: r => (a + sum r)%nat end.
Lemma sum_groups f n l : NoDup l -> (sum (map (gcount f n) l) <= length (filter (fun i => match f i with Some _ => true | None => false end) (seq 0 n)))%nat.
Proof.
  intros ND. induction n as [|n IH].
  - assert (X : forall l, sum (map (gcount f 0) l) = O) by (intros k; induction k; cbn in *; auto). rewrite X. cbn. lia.
  - rewrite seq_S, filter_app, app_length. cbn [filter plus]. destruct (f n) as [s|] eqn:E.
    + cbn [length]. assert (X : (sum (map (gcount f (S n)) l) <= sum (map (gcount f n) l) + 1)%nat /\ (~ In (grp s) l -> sum (map (gcount f (S n)) l) = sum (map (gcount f n) l))).
      { clear IH. induction l as [|x l IL]; cbn [map sum]; [split; [lia|reflexivity]|]. apply NoDup_cons_iff in ND as [N ND]. destruct (IL ND) as [A B]. assert (IN : ing f x n = Nat.eqb (grp s) x) by (unfold ing; rewrite E; reflexivity). rewrite gcount_S, IN. destruct (Nat.eqb_spec (grp s) x) as [Q|Q].
        - split; [rewrite B by congruence; lia|]. intros C. destruct C. cbn. auto.
        - split; [lia|]. intros C. rewrite B by (intros I; apply C; cbn; auto). lia. }
      lia.
    + cbn [length]. assert (X : forall l, sum (map (gcount f (S n)) l) = sum (map (gcount f n) l)).
      { intros k. induction k as [|x k IK]; cbn [map sum]; [reflexivity|]. assert (IN : ing f x n = false) by (unfold ing; rewrite E; reflexivity). rewrite IK, gcount_S, IN. lia. }
      rewrite X. lia.
Qed.
Lemma full_groups p : InvG p -> Forall (fun e => snd e = GMAX) (grps p) -> (GMAX * ngrp p <= alive p)%nat.
Proof.
  intros (G1 & G2 & G3 & G4 & G5) F.
  assert (LN : length (grps p) = ngrp p).
  { rewrite <- (map_length fst). assert (P : Permutation (map fst (grps p)) (seq 0 (ngrp p))).
    { apply NoDup_Permutation; [exact G1|apply seq_NoDup|]. intros x. rewrite in_seq. split; [|intros [_ H]; apply G5; lia]. intros I. apply in_map_iff in I as ([a b] & E & I). cbn in E. subst a. apply G2 in I. lia. }
    rewrite (Permutation_length P). apply seq_length. }
  assert (SM : sum (map (gcount (socks p) (nxt p)) (map fst (grps p))) = (GMAX * length (grps p))%nat).
  { assert (X : forall l, (forall g n, In (g, n) l -> n = gcount (socks p) (nxt p) g) -> Forall (fun e => snd e = GMAX) l -> sum (map (gcount (socks p) (nxt p)) (map fst l)) = (GMAX * length l)%nat).
    { induction l as [|[a b] l IH]; intros H FA; cbn [map sum fst length]; [lia|]. apply Forall_cons_iff in FA as [F1 F2]. cbn in F1. rewrite IH by (auto; intros g n I; apply H; cbn; auto). rewrite <- (H a b) by (cbn; auto). rewrite F1. lia. }
    apply X; [intros g n I; apply (G2 g n I)|exact F]. }
  pose proof (sum_groups (socks p) (nxt p) (map fst (grps p)) G1). rewrite SM, LN in H. exact H.
Qed.
Lemma run_snoc ls l : forall p, run p (ls ++ [l]) = (do x <- run p ls; do y <- step (fst x) l; Ok (fst y, snd x ++ snd y)).
Proof.
  induction ls as [|a r IH]; intros p; cbn [run app bind fst snd].
  - destruct (step p l) as [[p1 o1]| | |]; cbn [bind fst snd run app]; try reflexivity. rewrite app_nil_r. reflexivity.
  - destruct (step p a) as [[p1 o1]| | |]; cbn [bind fst snd]; try reflexivity. rewrite IH. destruct (run p1 r) as [[p2 o2]| | |]; cbn [bind fst snd]; try reflexivity. destruct (step p2 l) as [[p3 o3]| | |]; cbn [bind fst snd]; try reflexivity. rewrite app_assoc. reflexivity.
Qed.
Lemma groups_run c ls p o : run (port0 c) ls = Ok (p, o) ->
  (forall x n, In (x, n) (grps p) -> n = members p x /\ (n <= 32)%nat) /\ (forall i s, socks p i = Some s -> In (grp s) (map fst (grps p))) /\ NoDup (map fst (grps p)) /\ length (grps p) = ngrp p /\
  ((0 < ngrp p)%nat -> exists pre post p1 o1, ls = pre ++ post /\ run (port0 c) pre = Ok (p1, o1) /\ (32 * (ngrp p - 1) <= alive p1)%nat).
Proof.
  revert p o. induction ls as [|l ls IH] using rev_ind; intros p o RN.
  - injection RN as <- <-. cbn. repeat split; try contradiction; try discriminate; try constructor. lia.
  - assert (BASE : forall q, Inv q -> (forall x n, In (x, n) (grps q) -> n = members q x /\ (n <= 32)%nat) /\ (forall i s, socks q i = Some s -> In (grp s) (map fst (grps q))) /\ NoDup (map fst (grps q)) /\ length (grps q) = ngrp q).
    { intros q (_ & (G1 & G2 & G3 & (a & b & EQ & FA & FB) & G5) & _). split; [|split; [intros i s E; apply (G3 i s E)|split; [exact G1|]]].
      - intros x n I. split; [apply (G2 x n I)|]. rewrite EQ, in_app_iff in I. rewrite Forall_forall in FA, FB. destruct I as [I|I]; [apply FA in I|apply FB in I]; cbn in I; unfold GMAX in I; lia.
      - rewrite <- (map_length fst). assert (P : Permutation (map fst (grps q)) (seq 0 (ngrp q))).
        { apply NoDup_Permutation; [exact G1|apply seq_NoDup|]. intros x. rewrite in_seq. split; [|intros [_ H]; apply G5; lia]. intros I. apply in_map_iff in I as ([a0 b0] & E & I). cbn in E. subst a0. apply G2 in I. lia. }
        rewrite (Permutation_length P). apply seq_length. }
    pose proof (run_facts c _ p o RN) as (IP & _). destruct (BASE p IP) as (B1 & B2 & B3 & B4). split; [exact B1|]. split; [exact B2|]. split; [exact B3|]. split; [exact B4|]. intros NG.
    destruct (run_ok ls (port0 c) (start_inv c)) as (p1 & o1 & X & I1 & _ & _). rewrite run_snoc, X in RN. cbn [bind fst snd] in RN. destruct (step_ok p1 l I1) as (p2 & o2 & Y & I2 & _ & _ & GW). rewrite Y in RN. cbn [bind fst snd] in RN. injection RN as <- <-.
    destruct GW as [GW|[GW FU]].
    + destruct (IH p1 o1 X) as (_ & _ & _ & _ & Q). rewrite GW in *. destruct (Q NG) as (pre & post & p3 & o3 & E1 & E2 & E3). exists pre, (post ++ [l]), p3, o3. split; [rewrite E1, app_assoc; reflexivity|]. auto.
    + exists ls, [l], p1, o1. split; [reflexivity|]. split; [exact X|]. rewrite GW. destruct I1 as (_ & G1 & _). pose proof (full_groups p1 G1 FU) as FG. unfold GMAX in FG. lia.
Qed.

(* ---- deleting a port ---- *)
Definition okD (p : port) (i : nat) : Prop :=
  match socks p i with
  | Some s => ((exists k, In (k, i) (tree p)) <-> delp s = false) /\ (In i (delq p) <-> delp s = true) /\ (In i (updq p) -> delp s = false) /\ (pst s = Pending -> req p i <> None)
  | None => ~ In i (updq p) /\ ~ In i (delq p) /\ (forall k, ~ In (k, i) (tree p))
  end.
Definition InvD (p : port) : Prop := (forall i, okD p i) /\ InvG p.
Lemma inv_D p : Inv p -> InvD p.
Proof.
  intros ([GL OK] & IG & _). split; [|exact IG]. intros i. pose proof (OK i) as OI. destruct OI as [OI _]. unfold okD. destruct (socks p i) as [s|].
  - destruct OI as (L1 & L2 & L3 & L4 & L5 & L6 & L7). split; [split; [intros [k I]; apply L2 in I; tauto|intros D; exists (skey s); apply L2; auto]|]. split; [exact L3|]. split; [exact L4|]. intros P. unfold stat in L7. rewrite P in L7. destruct L7 as (q & X & _). congruence.
  - destruct OI as (_ & A & B & C). auto.
Qed.
Lemma freed_D p p1 p' i g : (forall j, okD p j) -> (forall j, j <> i -> socks p1 j = socks p j /\ req p1 j = req p j) -> tree p1 = tree p -> updq p1 = updq p -> delq p1 = delq p -> freed p1 p' i g -> forall j, okD p' j.
Proof.
  intros OK O T U D (F1 & F2 & F3 & F4 & F5 & _ & _ & F8 & _) j. unfold okD. destruct (Nat.eq_dec j i) as [->|N].
  - rewrite F1, F3, F4, F5. rewrite !in_without. split; [tauto|]. split; [tauto|]. intros k. rewrite in_untree. tauto.
  - rewrite F2, F8 by exact N. destruct (O j N) as [-> ->]. specialize (OK j). unfold okD in OK. rewrite F3, F4, F5, T, U, D. destruct (socks p j) as [s|]; rewrite !in_without.
    + destruct OK as (A & B & C & E). split; [|split; [tauto|split; [tauto|exact E]]]. rewrite <- A. split; intros [k I]; exists k; [apply in_untree in I; tauto|apply in_untree; auto].
    + destruct OK as (A & B & C). split; [tauto|]. split; [tauto|]. intros k. rewrite in_untree. intros [I _]. apply (C k I).
Qed.
Lemma force_ok v p i s : InvD p -> socks p i = Some s -> exists p', sock_delete v p i true = Ok p' /\ InvD p' /\ tree p' = filter (fun e => negb (Nat.eqb (snd e) i)) (tree p) /\ delq p' = without i (delq p) /\ (forall j, socks p' j = None \/ socks p' j = socks p j).
Proof.
  intros [OK IG] E. pose proof (OK i) as OI. unfold okD in OI. rewrite E in OI. destruct OI as (A & B & C & PR). destruct (can_release p i s IG E) as (g & RL & GN & GS & GI).
  assert (FIN : forall p1 p' s1, (forall j, j <> i -> socks p1 j = socks p j /\ req p1 j = req p j) -> tree p1 = tree p -> updq p1 = updq p -> delq p1 = delq p -> grps p1 = grps p -> ngrp p1 = ngrp p -> nxt p1 = nxt p -> socks p1 i = Some s1 -> grp s1 = grp s -> freed p1 p' i g ->
     InvD p' /\ tree p' = filter (fun e => negb (Nat.eqb (snd e) i)) (tree p) /\ delq p' = without i (delq p) /\ (forall j, socks p' j = None \/ socks p' j = socks p j)).
  { intros p1 p' s1 O T U D G NG NX E1 G1 FR. assert (IG1 : InvG p1) by (apply (groups_alike p p1 i s s1 IG (fun j N => proj1 (O j N)) E E1 G1 G NG NX)). split; [split; [apply (freed_D p p1 p' i g OK O T U D FR)|]|].
    - assert (EX : gcount (socks p1) (nxt p1) (grp s) = gcount (socks p) (nxt p) (grp s)). { rewrite NX. apply gcount_ext. intros j _. unfold ing. destruct (Nat.eq_dec j i) as [->|N]; [rewrite E, E1, G1; reflexivity|rewrite (proj1 (O j N)); reflexivity]. }
      apply (freed_groups p1 p' i g s1 IG1 E1); try assumption; [rewrite G, G1; exact RL|]. rewrite G1, EX, G. exact GI.
    - destruct FR as (F1 & F2 & F3 & F4 & F5 & _). rewrite F3, F5, T, D. split; [reflexivity|]. split; [reflexivity|]. intros j. destruct (Nat.eq_dec j i) as [->|N]; [auto|]. right. rewrite F2 by exact N. apply O, N. }
  unfold sock_delete, get. rewrite E. cbn [bind]. destruct (delp s) eqn:DP.
  - cbn [bind]. rewrite E. cbn [bind orb]. rewrite dequeue_as. cbn [unq w_qs grps]. rewrite RL. cbn [bind]. eexists. split; [reflexivity|]. apply (FIN p _ s); auto.
    unfold freed. ww. rewrite set_same. split; [reflexivity|]. split; [intros j N; apply set_other, N|]. split; [|repeat split; eauto].
    symmetry. assert (X : forall l : list (Z * nat), (forall k, ~ In (k, i) l) -> filter (fun e => negb (Nat.eqb (snd e) i)) l = l).
    { induction l as [|[a b] l IH]; cbn; [reflexivity|]. intros H. destruct (Nat.eqb_spec b i) as [->|N]; [destruct (H a); auto|]. cbn. f_equal. apply IH. intros k I. apply (H k). auto. }
    apply X. intros k I. destruct A as [A _]. specialize (A (ex_intro _ k I)). discriminate.
  - assert (TR : existsb (fun e : Z * nat => Nat.eqb (snd e) i) (tree p) = true). { destruct A as [_ A]. destruct (A eq_refl) as [k I]. apply existsb_exists. exists (k, i). split; [exact I|apply Nat.eqb_refl]. }
    assert (MID : exists p1 b s1, match pst s with Pending => cancel_poll v p i | _ => Ok (p, true) end = Ok (p1, b) /\ (forall j, j <> i -> socks p1 j = socks p j /\ req p1 j = req p j) /\ tree p1 = tree p /\ updq p1 = updq p /\ delq p1 = delq p /\ grps p1 = grps p /\ ngrp p1 = ngrp p /\ nxt p1 = nxt p /\ socks p1 i = Some s1 /\ grp s1 = grp s).
    { destruct (pst s) eqn:PS; [exists p, true, s; repeat split; auto| |exists p, true, s; repeat split; auto].
      destruct (req p i) as [q|] eqn:RQ; [|destruct (PR eq_refl); reflexivity]. destruct (cancel_ok v p i s q E PS RQ) as (p1 & b & X & XF & XT). destruct b.
      - destruct (XT eq_refl) as ((O & O2 & O3 & O4 & O5) & U & D & s1 & q1 & S1 & _ & (_ & _ & _ & _ & S2) & _). exists p1, true, s1. split; [exact X|]. repeat split; auto; try apply O; auto. apply O5.
      - destruct (XF eq_refl) as [-> _]. exists p, false, s. repeat split; auto. }
    destruct MID as (p1 & b & s1 & X & O & T & U & D & G & NG & NX & S1 & S2). rewrite X. cbn [bind fst]. rewrite dequeue_as. unfold unregister. cbn [unq w_qs tree]. rewrite T, TR. cbn [bind]. ww. rewrite S1. cbn [bind]. ww. rewrite set_same. cbn [bind orb]. rewrite dequeue_as. cbn [unq w_qs grps grp s_del]. ww.
    rewrite G, S2, RL. cbn [bind]. eexists. split; [reflexivity|]. apply (FIN p1 _ s1); auto. unfold freed. ww. rewrite set_same. split; [reflexivity|]. split; [intros j N; rewrite !set_other by exact N; reflexivity|]. rewrite T. split; [reflexivity|].
    rewrite !(without_none i (without i _)) by (rewrite in_without; tauto). repeat split; eauto.
Qed.
Lemma filter_less (l : list (Z * nat)) i k : In (k, i) l -> (length (filter (fun e => negb (Nat.eqb (snd e) i)) l) < length l)%nat.
Proof.
  induction l as [|[a b] l IH]; cbn; [contradiction|]. intros [E|I].
  - injection E as -> ->. rewrite Nat.eqb_refl. cbn. pose proof (filter_len (fun e : Z * nat => negb (Nat.eqb (snd e) i)) l). lia.
  - specialize (IH I). destruct (Nat.eqb b i); cbn; lia.
Qed.
Lemma drain_ok v pick : forall n p, InvD p -> (length (tree p) <= n)%nat -> exists p', drain n pick v p = Ok p' /\ InvD p' /\ tree p' = [].
Proof.
  induction n as [|n IH]; intros p ID L.
  - destruct (tree p) eqn:T; [|cbn in L; lia]. exists p. cbn. rewrite T. auto.
  - cbn [drain]. destruct (tree p) as [|e r] eqn:T; [exists p; auto|]. set (x := nth (pick (e :: r)) (e :: r) e).
    assert (IX : In x (tree p)). { rewrite T. unfold x. destruct (Nat.lt_ge_cases (pick (e :: r)) (length (e :: r))) as [H|H]; [apply nth_In, H|rewrite nth_overflow by exact H; cbn; auto]. }
    destruct x as [k i]. cbn [snd]. destruct (socks p i) as [s|] eqn:E; [|pose proof (proj1 ID i) as OI; unfold okD in OI; rewrite E in OI; destruct OI as (_ & _ & X); destruct (X k IX)].
    destruct (force_ok v p i s ID E) as (p1 & X & I1 & T1 & _). rewrite X. cbn [bind]. apply IH; [exact I1|]. rewrite T1. pose proof (filter_less (tree p) i k IX) as FL. rewrite T in FL at 2. cbn [length] in *. rewrite T in *. cbn [length] in *. lia.
Qed.
Lemma without_less i l : In i l -> (length (without i l) < length l)%nat.
Proof.
  induction l as [|a l IH]; cbn; [contradiction|]. intros [->|I].
  - rewrite Nat.eqb_refl. cbn. pose proof (filter_len (fun j => negb (Nat.eqb j i)) l). lia.
  - specialize (IH I). unfold without in IH. destruct (Nat.eqb a i); cbn; lia.
Qed.
Lemma drain_del_ok v : forall n p, InvD p -> tree p = [] -> (length (delq p) <= n)%nat -> exists p', drain_del n v p = Ok p' /\ InvD p' /\ tree p' = [] /\ delq p' = [].
Proof.
  induction n as [|n IH]; intros p ID T L.
  - destruct (delq p) eqn:D; [|cbn in L; lia]. exists p. cbn. rewrite D. auto.
  - cbn [drain_del]. destruct (delq p) as [|i r] eqn:D; [exists p; auto|].
    destruct (socks p i) as [s|] eqn:E; [|pose proof (proj1 ID i) as OI; unfold okD in OI; rewrite E, D in OI; destruct OI as (_ & X & _); destruct X; cbn; auto].
    destruct (force_ok v p i s ID E) as (p1 & X & I1 & T1 & D1 & _). rewrite X. cbn [bind]. apply IH; [exact I1|rewrite T1, T; reflexivity|]. rewrite D1, D. pose proof (without_less i (i :: r) (or_introl eq_refl)). cbn [length] in *. lia.
Qed.
Lemma delete_port pick v p : Inv p -> exists p', port_delete pick v p = Ok p' /\ (forall i, socks p' i = None) /\ tree p' = [] /\ updq p' = [] /\ delq p' = [] /\ grps p' = [].
Proof.
  intros IV. unfold port_delete. destruct (drain_ok v pick (length (tree p)) p (inv_D p IV) (le_n _)) as (p1 & X & I1 & T1). rewrite X. cbn [bind].
  destruct (drain_del_ok v (length (delq p1)) p1 I1 T1 (le_n _)) as (p2 & Y & [OK IG] & T2 & D2). rewrite Y. cbn [bind].
  assert (NS : forall i, socks p2 i = None). { intros i. destruct (socks p2 i) as [s|] eqn:E; [|reflexivity]. pose proof (OK i) as OI. unfold okD in OI. rewrite E, T2, D2 in OI. destruct OI as (A & B & _). destruct (delp s); [destruct (proj2 B eq_refl)|destruct (proj2 A eq_refl) as [k []]]. }
  assert (GZ : forallb (fun e : nat * nat => Nat.eqb (snd e) 0) (grps p2) = true).
  { apply forallb_forall. intros [x n] I. destruct IG as (_ & G2 & _). destruct (G2 x n I) as [-> _]. cbn. apply Nat.eqb_eq. unfold gcount. apply length_zero_iff_nil. destruct (filter _ _) as [|a r] eqn:F; [reflexivity|].
    assert (IA : In a (filter (ing (socks p2) x) (seq 0 (nxt p2)))) by (rewrite F; cbn; auto). apply filter_In in IA as [_ IA]. unfold ing in IA. rewrite NS in IA. discriminate. }
  rewrite GZ. destruct (updq p2) as [|i r] eqn:U.
  - eexists. split; [reflexivity|]. ww. auto.
  - pose proof (OK i) as OI. unfold okD in OI. rewrite NS, U in OI. destruct OI as (A & _). destruct A. cbn. auto.
Qed.

(* ---- runs that go wrong ---- *)
Definition good : env := mkv (fun _ => PPend) (fun _ => true).
Definition refusing : env := mkv (fun i => if Nat.eqb i 0 then PErr else PPend) (fun _ => true).
Definition port_of (ls : list label) : port := match run (port0 (fun _ => 0)) ls with Ok (p, _) => p | _ => port0 (fun _ => 0) end.
Definition obs_of (ls : list label) : list obs := match run (port0 (fun _ => 0)) ls with Ok (_, o) => o | _ => [] end.
Lemma run_of ls : run (port0 (fun _ => 0)) ls = Ok (port_of ls, obs_of ls).
Proof. unfold port_of, obs_of. destruct (port_run (fun _ => 0) ls) as (p & o & X & _). rewrite X. reflexivity. Qed.
Lemma inv_of ls : Inv (port_of ls). Proof. apply (run_facts _ _ _ _ (run_of ls)). Qed.
(* a thread waits, a socket is added whose poll the device refuses, it gets data *)
Definition lost_run : list label := [LWait 0 1 true true good; LCtl 4 (CAdd EPOLLIN 7 0) true refusing; KCond 0 AFD_RECEIVE].
Lemma lost : exists ls p o t k e i, run (port0 (fun _ => 0)) ls = Ok (p, o) /\ quiet p /\ thr p t <> TOut /\ In (OCtl k (CAdd EPOLLIN 7 0) true None) o /\
  ents (ends st0 o) k = Some e /\ lookup k (tree p) = Some i /\ told (KEvents (cond p i)) 0 && Z.testbit (easked e) 0 = true.
Proof.
  exists lost_run, (port_of lost_run), (obs_of lost_run), O, 4. eexists. exists O. split; [apply run_of|]. split.
  - split; [reflexivity|]. split; [|intros i q X; vm_compute in X; discriminate]. intros t. destruct t as [|t]; exact I.
  - split; [vm_compute; discriminate|]. split; [vm_compute; auto|]. split; [vm_compute; reflexivity|]. split; vm_compute; reflexivity.
Qed.
Definition stuck_run : list label := [LCtl 4 (CAdd EPOLLIN 7 0) true good; LCtl 5 (CAdd EPOLLIN 8 0) true good; KCond 1 AFD_RECEIVE].
Lemma stuck : exists ls p o e, run (port0 (fun _ => 0)) ls = Ok (p, o) /\ lookup 4 (tree p) = Some O /\ lookup 5 (tree p) = Some 1%nat /\ ents (ends st0 o) 5 = Some e /\ told (KEvents (cond p 1)) 0 && Z.testbit (easked e) 0 = true /\
  forall ls', Forall (blocked 0) ls' -> exists p', run p ls' = Ok (p', failing ls') /\ lookup 5 (tree p') = Some 1%nat /\ cond p' 1%nat = cond p 1%nat.
Proof.
  exists stuck_run, (port_of stuck_run), (obs_of stuck_run). eexists. split; [apply run_of|]. do 2 (split; [vm_compute; reflexivity|]). split; [vm_compute; reflexivity|]. split; [vm_compute; reflexivity|].
  intros ls' F. destruct (refused_for_ever 0 [1%nat] ls' (port_of stuck_run) (inv_of _)) as (p' & X & TR & _ & CO); [reflexivity|eexists; split; vm_compute; reflexivity|reflexivity|intros t; reflexivity|exact F|].
  exists p'. split; [exact X|]. rewrite TR, CO. split; [vm_compute; reflexivity|reflexivity].
Qed.
Definition late_run : list label := [LWait 0 1 true false good; LWait 1 1 true false good; LCtl 4 (CAdd EPOLLIN 7 0) true refusing].
Lemma late : exists ls p o p', run (port0 (fun _ => 0)) ls = Ok (p, o) /\ thr p 0%nat = TIn 1 false /\ step p (LStop 0 true refusing) = Ok (p', [ORet 0 None]).
Proof. exists late_run, (port_of late_run), (obs_of late_run). eexists. split; [apply run_of|]. split; [reflexivity|]. vm_compute. reflexivity. Qed.
Definition left_run : list label := [LCtl 4 (CAdd EPOLLIN 7 0) true good; LWait 0 1 true false good; LStop 0 false good].
Lemma left_over : exists ls p o p' q, run (port0 (fun _ => 0)) ls = Ok (p, o) /\ (forall t, thr p t = TOut) /\ port_delete (fun _ => O) good p = Ok p' /\ socks p' 0%nat = None /\ req p' 0%nat = Some q /\ kdone q = None.
Proof.
  exists left_run, (port_of left_run), (obs_of left_run). do 2 eexists. split; [apply run_of|]. split; [intros [|t]; reflexivity|]. split; [vm_compute; reflexivity|]. vm_compute. auto.
Qed.
Lemma deleted c ls p o pick v : run (port0 c) ls = Ok (p, o) -> exists p', port_delete pick v p = Ok p' /\ (forall i, socks p' i = None) /\ tree p' = [] /\ updq p' = [] /\ delq p' = [] /\ grps p' = [].
Proof. intros R. apply delete_port. apply (run_facts c ls p o R). Qed.
