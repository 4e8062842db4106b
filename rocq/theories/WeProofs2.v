(* The Windows poller: completions, calls and runs. *)
Require Import Verif.Base Verif.WeModel Verif.WeProofs.
Require Import List ZArith Lia Bool Arith Permutation.
Import ListNotations.
Open Scope Z_scope.

(* ---- completions ---- *)
Lemma bits31 u : hasb u EPOLLONESHOT = Z.testbit u 31.
Proof. change EPOLLONESHOT with (2 ^ 31). apply hasb_pow. lia. Qed.
Definition evs (a : kans) : Z := match a with KCancelled => 0 | KFailed => EPOLLERR | KNothing => 0 | KEvents e => afd2ep e end.
Lemma evs_told a j : 0 <= j -> Z.testbit (evs a) j = told a j.
Proof.
  intros J. destruct a; cbn [evs]; try apply Z.bits_0; [|apply told_ok, J]. change EPOLLERR with (2 ^ 3). rewrite Z.pow2_bits_eqb by lia. cbn [told]. apply Z.eqb_sym.
Qed.
(* a request is answered with the closing of a socket only when it was closed *)
Definition InvC (p : port) : Prop := forall i q e, req p i = Some q -> kdone q = Some (KEvents e) -> hasb e AFD_LOCAL_CLOSE = true -> closed p i = true.
Lemma kept_C p p' : InvC p -> kept p p' -> InvC p'.
Proof. intros C (_ & _ & _ & _ & K5 & _ & K7) i q e Q D L. rewrite K5. destruct (K7 i q _ Q D) as (q0 & X & Y). apply (C i q0 e X Y L). Qed.
Definition fed (p p' : port) (t : nat) (n : nat) (o : list obs) : Prop :=
  forall st m inf, RelE st p -> lim st t = Some (m, inf) -> Z.of_nat (cnt st t + n) <= m ->
  legal st o /\ RelE (ends st o) p' /\ lim (ends st o) = lim st /\ forall u, cnt (ends st o) u = (cnt st u + if Nat.eqb u t then reports o else 0)%nat.

Lemma feed_ok v t p i r hold : InvS p hold -> InvG p -> InvC p -> hold t = i :: r ->
  exists p' o, feed v t p i = Ok (p', o) /\ InvS p' (set hold t r) /\ InvG p' /\ ngrp p' = ngrp p /\ kept p p' /\ (reports o <= 1)%nat /\ fed p p' t 1 o.
Proof.
  intros IV IG IC HT. pose proof IV as [GL OK]. pose proof (OK i) as [OI LD]. assert (DN : done p i) by (apply LD; right; exists t; rewrite HT; cbn; auto).
  destruct DN as (q & a & RQ & KD). destruct (socks p i) as [s|] eqn:E; [|destruct OI as [X _]; congruence]. destruct OI as (L1 & L2 & L3 & L4 & L5 & L6 & L7).
  pose proof GL as (T1 & T2 & U & DQ & C & H & HC & HH & CL).
  assert (HN : ~ In i r) by (specialize (H t); rewrite HT in H; apply NoDup_cons_iff in H; tauto).
  assert (NC : ~ In i (cq p)) by (apply (HC t); rewrite HT; cbn; auto).
  assert (NH : forall u, ~ In i (set hold t r u)).
  { intros u I. unfold set in I. destruct (Nat.eqb_spec u t) as [EQ|N]; [contradiction|]. apply N. apply (HH u t i I). rewrite HT. cbn. auto. }
  assert (SUB : forall u j, In j (set hold t r u) -> In j (hold u)). { intros u j I. unfold set in I. destruct (Nat.eqb_spec u t) as [EQ|N]; [rewrite EQ, HT; cbn; auto|exact I]. }
  assert (CMP : forall j, j <> i -> (In j (cq p) \/ (exists u, In j (set hold t r u)) <-> In j (cq p) \/ exists u, In j (hold u))).
  { intros j N. split; [intros [I|[u I]]; [auto|right; exists u; apply SUB, I]|]. intros [I|[u I]]; [auto|right]. exists u. unfold set. destruct (Nat.eqb_spec u t) as [EQ|NU]; [|exact I]. rewrite EQ, HT in I. cbn in I. destruct I; [congruence|assumption]. }
  assert (GL1 : forall p1, tree p1 = tree p -> updq p1 = updq p -> delq p1 = delq p -> cq p1 = cq p -> nxt p1 = nxt p -> closed p1 = closed p -> glob p1 (set hold t r)).
  { intros p1 E1 E2 E3 E4 E5 E6. unfold glob. rewrite E1, E2, E3, E4, E5, E6. repeat split; auto.
    - intros u. unfold set. destruct (Nat.eqb u t); [|apply H]. specialize (H t). rewrite HT in H. apply NoDup_cons_iff in H. tauto.
    - intros u j I. apply (HC u), SUB, I.
    - intros u w j I J. apply (HH u w j); apply SUB; assumption. }
  unfold feed, get. rewrite E. cbn [bind]. rewrite RQ. destruct q as [km kc kd]. cbn [kdone] in KD. subst kd. cbv zeta.
  set (s0 := s_st s Idle 0). set (p1 := w_req (w_sock p i (Some s0)) i None).
  assert (S1 : socks p1 i = Some s0) by apply set_same. assert (S2 : forall j, j <> i -> socks p1 j = socks p j /\ req p1 j = req p j) by (intros j N; split; apply set_other, N).
  assert (R1 : req p1 i = None) by apply set_same.
  assert (OK1 : forall j, j <> i -> okS p1 (set hold t r) j). { intros j N. apply (okS_ext p p1 hold (set hold t r) j (OK j)); try apply S2, N; try reflexivity; try (intros; reflexivity). apply CMP, N. }
  assert (IG1 : InvG p1) by (apply (groups_alike p p1 i s s0 IG (fun j N => proj1 (S2 j N)) E S1); reflexivity).
  assert (KP1 : kept p p1). { unfold kept. repeat split. intros j q' b Y1 Y2. destruct (Nat.eq_dec j i) as [EQ|NE]; [rewrite EQ in Y1; congruence|]. rewrite (proj2 (S2 j NE)) in Y1. eauto. }
  assert (KP : forall p2, nxt p2 = nxt p -> active p2 = active p -> cq p2 = cq p -> cond p2 = cond p -> closed p2 = closed p -> thr p2 = thr p -> req p2 = req p1 -> kept p p2).
  { intros p2 E1 E2 E3 E4 E5 E6 E7. unfold kept. rewrite E1, E2, E3, E4, E5, E6, E7. repeat split. apply KP1. }
  assert (FREE : forall o, (delp s = false -> o = [ODrop (skey s)] /\ hasb (match a with KEvents e => e | _ => 0 end) AFD_LOCAL_CLOSE = true) -> (delp s = true -> o = []) ->
     (delp s = false -> closed p i = true) ->
     exists p' o', (do p2 <- sock_delete v p1 i false; Ok (p2, o)) = Ok (p', o') /\ InvS p' (set hold t r) /\ InvG p' /\ ngrp p' = ngrp p /\ kept p p' /\ (reports o' <= 1)%nat /\ fed p p' t 1 o').
  { intros o OF OT CLS. destruct (can_release p1 i s0 IG1 S1) as (g & RL & GN & GS & GI).
    destruct (delete_idle v p1 i s0 g false S1 eq_refl) as (p' & X & FR); [intros D; exists (skey s); apply L2; auto|intros D k I; apply L2 in I; cbn in D; destruct I; congruence|exact RL|].
    rewrite X. cbn [bind]. exists p', o. split; [reflexivity|]. split; [apply (freed_inv p1 p' i g (set hold t r)); auto; apply GL1; reflexivity|]. split; [apply (freed_groups p1 p' i g s0 IG1 S1 RL GI GN GS FR)|].
    destruct FR as (F1 & F2 & F3 & F4 & F5 & F6 & F7 & F8 & F9). split; [exact F7|]. split; [apply (kept_trans p p1 p' KP1 F9)|].
    assert (OTH : forall j, j <> i -> socks p' j = socks p j /\ req p' j = req p j) by (intros j N; rewrite F2, F8 by exact N; apply S2, N).
    assert (CC : forall j, closed p' j = closed p j) by (intros j; apply F9).
    destruct (delp s) eqn:D.
    - rewrite (OT eq_refl). split; [cbn; lia|]. intros st m inf R LM CN. cbn. split; [exact I|]. split; [|split; [reflexivity|intros u; destruct (Nat.eqb u t); cbn; lia]].
      apply (rel_same st p p' i R OTH CC); [intros s1 E1; congruence|congruence].
    - destruct (OF eq_refl) as [-> _]. split; [cbn; lia|]. intros st m inf R LM CN. cbn. pose proof R as [R0 _]. destruct (R0 i s E D) as (e & B1 & B2 & B3 & B4 & B5).
      split; [split; [|exact I]; exists e; split; [exact B1|rewrite B4; auto]|]. split; [|split; [reflexivity|intros u; destruct (Nat.eqb u t); cbn; lia]].
      apply (rel_gone st p p' hold i s IV E D R OTH CC). congruence. }
  destruct (delp s) eqn:D; [change (delp s0) with (delp s); rewrite D; apply FREE; congruence|]. change (delp s0) with (delp s). rewrite D.
  destruct (match a with KEvents e => hasb e AFD_LOCAL_CLOSE | _ => false end) eqn:LC.
  { apply FREE; [intros _; split; [reflexivity|]|discriminate|intros _]; destruct a as [| | |e]; try discriminate; [exact LC|apply (IC i _ e RQ eq_refl LC)]. }
  change (uev s0) with (uev s). change (udat s0) with (udat s). change (skey s0) with (skey s). fold (evs a).
  assert (NDQ : ~ In i (delq p)) by (rewrite L3; congruence).
  assert (FIN : forall s', uev s' = uev s \/ uev s' = 0 -> udat s' = udat s -> pst s' = Idle -> pend s' = 0 -> delp s' = false -> skey s' = skey s -> grp s' = grp s ->
     forall p2, (forall j, j <> i -> socks p2 j = socks p j) -> socks p2 i = Some s' -> nxt p2 = nxt p -> active p2 = active p -> cq p2 = cq p -> cond p2 = cond p -> closed p2 = closed p -> thr p2 = thr p -> req p2 = req p1 ->
       tree p2 = tree p -> grps p2 = grps p -> ngrp p2 = ngrp p -> updq p2 = updq (request_update p1 i) -> delq p2 = delq p -> InvS p2 (set hold t r) /\ InvG p2 /\ kept p p2).
  { intros s' U' D' PS' PE' DE' SK' GR' p2 O E' E1 E2 E3 E4 E5 E6 E7 E8 E9 E10 E11 E12. split; [|split; [|apply KP; auto]].
    - assert (UQ : updq p2 = updq p /\ In i (updq p) \/ updq p2 = updq p ++ [i] /\ ~ In i (updq p)).
      { rewrite E11. unfold request_update. change (enq p1 i) with (enq p i). destruct (enq p i) eqn:EN.
        - left. apply enq_or in EN. tauto.
        - right. split; [reflexivity|]. intros I. assert (X : enq p i = true) by (apply enq_or; auto). congruence. }
      apply (change_inv p1 p2 (set hold t r) i OK1); auto.
      + unfold glob. rewrite E8, E12, E3, E1, E5. destruct (GL1 p eq_refl eq_refl eq_refl eq_refl eq_refl eq_refl) as (Y1 & Y2 & Y3 & Y4 & Y5 & Y6 & Y7 & Y8 & Y9). repeat split; auto.
        destruct UQ as [[-> _]|[-> N]]; [exact Y3|apply nd_snoc; assumption].
      + intros j N. rewrite O, E7 by exact N. split; [symmetry; apply S2, N|reflexivity].
      + intros j N. change (updq p1) with (updq p). destruct UQ as [[-> _]|[-> _]]; [tauto|]. rewrite in_app_iff. cbn. intuition congruence.
      + intros j N. rewrite E12. reflexivity.
      + unfold okS. rewrite E'. split.
        * unfold live. rewrite E1, E8, E12, SK', DE'. split; [exact L1|]. split; [exact L2|]. split; [rewrite L3; tauto|]. split; [auto|]. split; [discriminate|]. split; [destruct U' as [->| ->]; [exact L6|auto]|].
          unfold stat. rewrite PS', E7. split; [exact R1|]. split; [|exact PE']. destruct UQ as [[-> I]|[-> _]]; [exact I|apply in_app_iff; cbn; auto].
        * unfold done. rewrite E7, R1, E3. split; [intros (q & b & X & _); discriminate|]. intros [I|[u I]]; [contradiction|destruct (NH u I)].
    - apply (groups_alike p p2 i s s' IG O E E' GR' E9 E10 E1). }
  assert (RQ2 : request_update p1 i = w_qs p1 (updq (request_update p1 i)) (delq p)).
  { unfold request_update. change (enq p1 i) with (enq p i). destruct (enq p i); reflexivity. }
  destruct (Z.eqb_spec (Z.land (evs a) (uev s)) 0) as [Z0|Z0].
  - exists (request_update p1 i), []. split; [reflexivity|].
    destruct (FIN s0 (or_introl eq_refl) eq_refl eq_refl eq_refl D eq_refl eq_refl (request_update p1 i)) as (F1 & F2 & F3); try (rewrite RQ2; reflexivity).
    { intros j N. rewrite RQ2. apply (proj1 (S2 j N)). } { rewrite RQ2. exact S1. }
    split; [exact F1|]. split; [exact F2|]. split; [rewrite RQ2; reflexivity|]. split; [exact F3|]. split; [cbn; lia|]. intros st m inf R LM CN. cbn. split; [exact I|]. split; [|split; [reflexivity|intros u; destruct (Nat.eqb u t); cbn; lia]].
    apply (rel_alike st p _ i s s0 R); [intros j N; rewrite RQ2; apply S2, N|intros j; apply F3|exact E|rewrite RQ2; exact S1|repeat split|]. rewrite RQ2. intros q' b X. cbn in X. rewrite set_same in X. discriminate.
  - set (s' := if hasb (uev s) EPOLLONESHOT then s_ev s0 0 (udat s) else s0). set (p2 := w_sock (request_update p1 i) i (Some s')). exists p2, [OReport t (skey s) (Z.land (evs a) (uev s)) (udat s)]. split; [reflexivity|].
    assert (SS : socks p2 i = Some s') by (unfold p2; cbn; apply set_same). assert (SO : forall j, j <> i -> socks p2 j = socks p j) by (intros j N; unfold p2; rewrite RQ2; cbn; rewrite !set_other by exact N; reflexivity).
    destruct (FIN s') with (p2 := p2) as (F1 & F2 & F3); try (unfold p2; rewrite RQ2; reflexivity); try exact SO; try exact SS; [unfold s'; destruct (hasb (uev s) EPOLLONESHOT); cbn; auto ..|].
    split; [exact F1|]. split; [exact F2|]. split; [unfold p2; rewrite RQ2; reflexivity|]. split; [exact F3|]. split; [cbn; lia|]. intros st m inf R LM CN. cbn [legal ends fold_left].
    pose proof R as [R0 R2]. destruct (R0 i s E D) as (e & B1 & B2 & B3 & B4 & B5). split.
    + split; [|exact I]. cbn. split; [exists m, inf; split; [exact LM|lia]|]. exists e, a. split; [exact B1|]. split; [apply (B5 _ a RQ eq_refl)|]. split; [exact B3|]. split; [exact Z0|].
      intros j J. rewrite Z.land_spec, evs_told, B2 by exact J. reflexivity.
    + cbn [after]. rewrite B1. split; [|split; [reflexivity|]].
      2:{ intros u. cbn. unfold set. destruct (Nat.eqb_spec u t) as [EQ|]; [rewrite EQ|]; lia. }
      split.
      * intros j s1 E1 D1. destruct (Nat.eq_dec j i) as [->|N].
        -- assert (s1 = s') by congruence. subst s1. assert (SK : skey s' = skey s) by (unfold s'; destruct (hasb (uev s) EPOLLONESHOT); reflexivity). rewrite SK. cbn [ents]. unfold zset. rewrite Z.eqb_refl. eexists. split; [reflexivity|]. cbn [easked edat ecl eans].
           rewrite B2, <- bits31. unfold s'. destruct (hasb (uev s) EPOLLONESHOT); cbn; (split; [reflexivity|]); (split; [exact B3|]); (split; [rewrite B4; unfold p2; rewrite RQ2; reflexivity|]);
             intros q b X; unfold p2 in X; rewrite RQ2 in X; cbn in X; rewrite set_same in X; discriminate.
        -- rewrite SO in E1 by exact N. cbn [ents]. unfold zset. destruct (Z.eqb_spec (skey s1) (skey s)) as [K|K]; [destruct N; apply (key_inj p hold j i s1 s IV E1 E D1 D K)|].
           destruct (R0 j s1 E1 D1) as (e1 & C1 & C2 & C3 & C4 & C5). exists e1. split; [exact C1|]. split; [exact C2|]. split; [exact C3|]. assert (CC : closed p2 j = closed p j) by apply F3. rewrite CC. split; [exact C4|].
           intros q b X Y. apply (C5 q b); [|exact Y]. unfold p2 in X. rewrite RQ2 in X. cbn in X. rewrite set_other in X by exact N. exact X.
      * intros k e1. cbn [ents]. unfold zset. destruct (Z.eqb_spec k (skey s)) as [->|K].
        -- intros _. exists i, s'. split; [exact SS|]. unfold s'. destruct (hasb (uev s) EPOLLONESHOT); cbn; auto.
        -- intros X. destruct (R2 k e1 X) as (j & s1 & Y1 & Y2 & Y3). exists j, s1. destruct (Nat.eq_dec j i) as [->|N]; [congruence|]. rewrite SO by exact N. auto.
Qed.

Lemma inv_hold p hold hold' : (forall t, hold' t = hold t) -> InvS p hold -> InvS p hold'.
Proof.
  intros E [(T1 & T2 & U & DQ & C & H & HC & HH & CL) OK]. split.
  - unfold glob. do 5 (split; [assumption|]). split; [intros t; rewrite E; apply H|]. split; [intros t i; rewrite E; apply HC|]. split; [|exact CL]. intros t u i. rewrite !E. apply HH.
  - intros i. apply (okS_ext p p hold hold' i (OK i)); try reflexivity; try (intros; reflexivity). setoid_rewrite E. reflexivity.
Qed.
(* the part of a port the invariant is about *)
Lemma inv_ext p p' hold : InvS p hold -> (forall i, socks p' i = socks p i) -> (forall i, req p' i = req p i) -> nxt p' = nxt p -> tree p' = tree p -> updq p' = updq p -> delq p' = delq p -> cq p' = cq p -> (forall i, closed p' i = closed p i) -> InvS p' hold.
Proof.
  intros [(T1 & T2 & U & DQ & C & H & HC & HH & CL) OK] E1 E2 E3 E4 E5 E6 E7 E8. split.
  - unfold glob. rewrite E3, E4, E5, E6, E7. do 8 (split; [assumption|]). intros i. rewrite E8. apply CL.
  - intros i. apply (okS_ext p p' hold hold i (OK i)); rewrite ?E4, ?E5, ?E6, ?E7; try tauto; auto; try lia.
Qed.
Lemma groups_ext p p' : InvG p -> (forall i, socks p' i = socks p i) -> nxt p' = nxt p -> grps p' = grps p -> ngrp p' = ngrp p -> InvG p'.
Proof.
  intros (G1 & G2 & G3 & G4) E1 E2 E3 E4. unfold InvG. rewrite E2, E3, E4. split; [exact G1|]. split; [|split; [|exact G4]].
  - intros g n I. destruct (G2 g n I) as [X Y]. split; [|exact Y]. rewrite X. symmetry. apply gcount_ext. intros j _. unfold ing. rewrite E1. reflexivity.
  - intros i s. rewrite E1. apply G3.
Qed.
Lemma rel_ext st st' p p' : RelE st p -> (forall i, socks p' i = socks p i) -> (forall i, req p' i = req p i) -> (forall i, closed p' i = closed p i) -> (forall k, ents st' k = ents st k) -> RelE st' p'.
Proof.
  intros [R1 R2] E1 E2 E3 E4. split.
  - intros i s. rewrite E1. intros E D. destruct (R1 i s E D) as (e & A). exists e. rewrite E4, E3, E2. exact A.
  - intros k e. rewrite E4. intros X. destruct (R2 k e X) as (i & s & A). exists i, s. rewrite E1. exact A.
Qed.
Lemma fed_trans p q r t n o o' : fed p q t 1 o -> (reports o <= 1)%nat -> fed q r t n o' -> fed p r t (S n) (o ++ o').
Proof.
  intros A L B st m inf R LM CN. destruct (A st m inf R LM) as (A1 & A2 & A3 & A4); [lia|]. destruct (B _ m inf A2) as (B1 & B2 & B3 & B4).
  - rewrite A3. exact LM.
  - rewrite A4, Nat.eqb_refl. lia.
  - rewrite legal_app, ends_app. split; [auto|]. split; [exact B2|]. split; [congruence|]. intros u. rewrite B4, A4, reports_app. destruct (Nat.eqb u t); lia.
Qed.
Lemma feed_all_ok v t : forall l p hold, InvS p hold -> InvG p -> InvC p -> hold t = l ->
  exists p' o, feed_all v t p l = Ok (p', o) /\ InvS p' (set hold t []) /\ InvG p' /\ InvC p' /\ ngrp p' = ngrp p /\ kept p p' /\ (reports o <= length l)%nat /\ fed p p' t (length l) o.
Proof.
  induction l as [|i r IH]; intros p hold IV IG IC HT.
  - exists p, []. split; [reflexivity|]. split; [apply (inv_hold p hold); [|exact IV]; intros u; unfold set; destruct (Nat.eqb_spec u t) as [Q|]; [rewrite Q; auto|reflexivity]|].
    split; [exact IG|]. split; [exact IC|]. split; [reflexivity|]. split; [apply kept_refl|]. split; [cbn; lia|]. intros st m inf R LM CN. cbn. split; [exact I|]. split; [exact R|]. split; [reflexivity|]. intros u. destruct (Nat.eqb u t); lia.
  - destruct (feed_ok v t p i r hold IV IG IC HT) as (p1 & o1 & X & I1 & G1 & N1 & K1 & L1 & F1).
    destruct (IH p1 (set hold t r) I1 G1 (kept_C p p1 IC K1) (set_same _ _ _)) as (p2 & o2 & Y & I2 & G2 & C2 & N2 & K2 & L2 & F2).
    exists p2, (o1 ++ o2). cbn [feed_all]. rewrite X. cbn [bind fst snd]. rewrite Y. cbn [bind fst snd]. split; [reflexivity|]. split; [apply (inv_hold p2 (set (set hold t r) t [])); [|exact I2]; intros u; unfold set; destruct (Nat.eqb u t); reflexivity|].
    split; [exact G2|]. split; [exact C2|]. split; [congruence|]. split; [apply (kept_trans p p1 p2 K1 K2)|]. split; [rewrite reports_app; cbn; lia|]. apply (fed_trans p p1 p2 t (length r) o1 o2 F1 L1 F2).
Qed.

(* ---- setting events ---- *)
Definition full (ev : Z) : Z := Z.lor ev (Z.lor EPOLLERR EPOLLHUP).
Lemma full_err ev : hasb (full ev) EPOLLERR = true.
Proof. unfold full. rewrite !hasb_lor_l. rewrite orb_true_iff. right. reflexivity. Qed.
Lemma full_new ev : hasb (Z.land (full ev) KNOWN) (Z.lnot 0) = true.
Proof.
  apply hasb_bits. exists 3. split; [lia|]. split; [|reflexivity]. rewrite Z.land_spec. unfold full. rewrite !Z.lor_spec. change (Z.testbit EPOLLERR 3) with true. cbn. rewrite orb_true_r. reflexivity.
Qed.
Lemma set_event_ok p i s ev dat hold : (forall j, j <> i -> okS p hold j) -> glob p hold -> InvG p -> socks p i = Some s -> delp s = false -> (i < nxt p)%nat -> (forall k, In (k, i) (tree p) <-> k = skey s) -> ~ In i (delq p) ->
  match pst s with Idle => req p i = None /\ pend s = 0 | _ => stat p i s end -> (done p i <-> In i (cq p) \/ exists t, In i (hold t)) ->
  exists p', set_event p i ev dat = Ok p' /\ InvS p' hold /\ InvG p' /\ ngrp p' = ngrp p /\ kept p p' /\ socks p' i = Some (s_ev s (full ev) dat) /\ (forall j, j <> i -> socks p' j = socks p j) /\ req p' = req p.
Proof.
  intros OK GL IG E D LT TR ND ST DN. unfold set_event, get. rewrite E. cbn [bind]. cbv zeta. fold (full ev). set (s' := s_ev s (full ev) dat). set (p1 := w_sock p i (Some s')).
  set (b := hasb (Z.land (full ev) KNOWN) (Z.lnot (pend s))). set (p2 := if b then request_update p1 i else p1).
  assert (P2 : p2 = w_qs p1 (updq p2) (delq p)). { unfold p2, request_update. destruct b; [destruct (enq p1 i)|]; destruct p; reflexivity. }
  assert (UQ : updq p2 = updq p /\ (b = true -> In i (updq p)) \/ updq p2 = updq p ++ [i] /\ ~ In i (updq p)).
  { unfold p2. destruct b; [|left; split; [reflexivity|discriminate]]. unfold request_update. change (enq p1 i) with (enq p i). destruct (enq p i) eqn:EN.
    - left. split; [reflexivity|]. intros _. apply enq_or in EN. tauto.
    - right. split; [reflexivity|]. intros I. assert (X : enq p i = true) by (apply enq_or; auto). congruence. }
  exists p2. split; [reflexivity|].
  assert (SS : socks p2 i = Some s') by (rewrite P2; apply set_same). assert (SO : forall j, j <> i -> socks p2 j = socks p j) by (intros j N; rewrite P2; apply set_other, N). assert (RR : req p2 = req p) by (rewrite P2; reflexivity).
  split; [|split; [|split; [rewrite P2; reflexivity|split; [|auto]]]].
  - apply (change_inv p p2 hold i OK); try (rewrite P2; reflexivity).
    + destruct GL as (T1 & T2 & U & DQ & C & H & HC & HH & CL). rewrite P2. unfold glob. ww. do 2 (split; [assumption|]). split; [|repeat (split; [assumption|]); assumption]. destruct UQ as [[-> _]|[-> N]]; [exact U|apply nd_snoc; assumption].
    + intros j N. rewrite RR. auto.
    + intros j N. destruct UQ as [[-> _]|[-> _]]; [tauto|]. rewrite in_app_iff. cbn. intuition congruence.
    + unfold okS. rewrite SS. split.
      * unfold live. unfold stat. rewrite RR. assert (T : tree p2 = tree p) by (rewrite P2; reflexivity). assert (N : nxt p2 = nxt p) by (rewrite P2; reflexivity). assert (Q : delq p2 = delq p) by (rewrite P2; reflexivity). rewrite T, N, Q. unfold s'. ww. rewrite D.
        split; [exact LT|]. split; [intros k; rewrite TR; tauto|]. split; [split; [contradiction|discriminate]|]. split; [auto|]. split; [discriminate|]. split; [right; apply full_err|].
        destruct (pst s) eqn:PS.
        -- destruct ST as [S1 S2]. split; [exact S1|]. split; [|exact S2]. assert (B : b = true) by (unfold b; rewrite S2; apply full_new). destruct UQ as [[-> I]|[-> _]]; [auto|apply in_app_iff; cbn; auto].
        -- unfold stat in ST. rewrite PS in ST. destruct ST as (q & S1 & S2 & S3 & _). exists q. split; [exact S1|]. split; [exact S2|]. split; [exact S3|]. intros _. unfold covered. ww. fold b. destruct b; [left|right; reflexivity]. destruct UQ as [[-> I]|[-> _]]; [auto|apply in_app_iff; cbn; auto].
        -- unfold stat in ST. rewrite PS in ST. exact ST.
      * unfold done. rewrite RR. assert (C : cq p2 = cq p) by (rewrite P2; reflexivity). rewrite C. exact DN.
  - apply (groups_alike p p2 i s s' IG SO E SS); try (rewrite P2; reflexivity). reflexivity.
  - rewrite P2. unfold kept. ww. repeat split; eauto.
Qed.
Lemma mod_ok p i s ev dat hold : InvS p hold -> InvG p -> socks p i = Some s -> delp s = false ->
  exists p', set_event p i ev dat = Ok p' /\ InvS p' hold /\ InvG p' /\ ngrp p' = ngrp p /\ kept p p' /\ forall st hok, RelE st p -> RelE (after st (OCtl (skey s) (CMod ev dat) hok None)) p'.
Proof.
  intros IV IG E D. pose proof IV as [GL OK]. pose proof (OK i) as OI. unfold okS in OI. rewrite E in OI. destruct OI as ((L1 & L2 & L3 & L4 & L5 & L6 & L7) & LD).
  destruct (set_event_ok p i s ev dat hold (fun j _ => OK j) GL IG E D L1) as (p' & X & I1 & G1 & N1 & K1 & SS & SO & RR).
  - intros k. rewrite L2. tauto.
  - rewrite L3. congruence.
  - unfold stat in *. destruct (pst s); tauto.
  - exact LD.
  - exists p'. do 5 (split; [assumption|]). intros st hok R. pose proof R as [R1 R2]. destruct (R1 i s E D) as (e & B1 & B2 & B3 & B4 & B5). cbn [after]. rewrite B1. fold (full ev).
    assert (CC : forall j, closed p' j = closed p j) by apply K1. split.
    + intros j t ET DT. destruct (Nat.eq_dec j i) as [EQ|N].
      * subst j. assert (t = s_ev s (full ev) dat) by congruence. subst t. cbn [ents]. ww. unfold zset. rewrite Z.eqb_refl. eexists. split; [reflexivity|]. cbn [easked edat ecl eans]. rewrite CC, RR. auto.
      * rewrite SO in ET by exact N. cbn [ents]. unfold zset. destruct (Z.eqb_spec (skey t) (skey s)) as [K|K]; [destruct N; apply (key_inj p hold j i t s IV ET E DT D K)|]. rewrite CC, RR. apply (R1 j t ET DT).
    + intros k e1. cbn [ents]. unfold zset. destruct (Z.eqb_spec k (skey s)) as [->|K].
      * intros _. exists i, (s_ev s (full ev) dat). auto.
      * intros Y. destruct (R2 k e1 Y) as (j & t & Y1 & Y2 & Y3). exists j, t. destruct (Nat.eq_dec j i) as [EQ|N]; [subst j; congruence|]. rewrite SO by exact N. auto.
Qed.

(* ---- registering ---- *)
Lemma lookup_some k m i : lookup k m = Some i -> In (k, i) m.
Proof.
  unfold lookup. destruct (find _ m) as [[a b]|] eqn:F; [|discriminate]. intros E. injection E as <-. apply find_some in F as [I K]. cbn in K. apply Z.eqb_eq in K. subst a. exact I.
Qed.
Lemma lookup_none k m : lookup k m = None -> ~ In k (map fst m).
Proof.
  unfold lookup. destruct (find _ m) as [e|] eqn:F; [discriminate|]. intros _ I. apply in_map_iff in I as (x & E & I). apply (find_none _ _ F) in I. cbn in I. rewrite E, Z.eqb_refl in I. discriminate.
Qed.
Lemma registered st p hold k : InvS p hold -> RelE st p ->
  match lookup k (tree p) with Some i => exists s, socks p i = Some s /\ delp s = false /\ skey s = k /\ ents st k <> None | None => ents st k = None end.
Proof.
  intros [GL OK] [R1 R2]. destruct (lookup k (tree p)) as [i|] eqn:L.
  - apply lookup_some in L. pose proof (OK i) as OI. destruct OI as [OI _]. destruct (socks p i) as [s|] eqn:E; [|destruct OI as (_ & _ & _ & X); destruct (X k L)]. destruct OI as (_ & L2 & _). pose proof (proj1 (L2 k) L) as [KK D].
    exists s. repeat split; auto. rewrite KK. destruct (R1 i s E D) as (e & B1 & _). congruence.
  - destruct (ents st k) as [e|] eqn:E; [|reflexivity]. destruct (R2 k e E) as (i & s & A & B & C). exfalso. apply (lookup_none _ _ L). pose proof (OK i) as [OI _]. rewrite A in OI. destruct OI as (_ & L2 & _).
    assert (I : In (k, i) (tree p)) by (apply L2; auto). apply (in_map fst) in I. exact I.
Qed.
(* registered or taken back, the counts of the groups are right *)
Lemma acquired p fresh g x n : InvG p -> acquire (grps p) (ngrp p) fresh = Some (g, x, n) ->
  exists g', release g x = Ok g' /\ InvG (w_grps p g' n) /\ (n = ngrp p \/ n = S (ngrp p) /\ Forall (fun e => snd e = GMAX) (grps p)) /\
    forall s t, grp s = x -> socks p (nxt p) = None -> InvG (w_tree (w_nxt (w_sock (w_grps p g n) (nxt p) (Some s)) (S (nxt p))) t).
Proof.
  intros (G1 & G2 & G3 & G4 & G5) A. pose proof (acquire_ok (grps p) (ngrp p) fresh G1 G4 (fun a b I => proj2 (G2 a b I))) as Q. rewrite A in Q. destruct Q as (k & KM & ND & GS & IN & WH).
  assert (IX : In (x, S k) g) by (apply IN; auto). destruct (release_ok g x k ND IX KM GS) as (g' & RL & ND' & GS' & IN'). exists g'. split; [exact RL|].
  assert (NN : (ngrp p <= n)%nat) by (destruct WH as [[_ ->]|(_ & _ & -> & _)]; lia).
  assert (XN : (x < n)%nat) by (destruct WH as [[I ->]|(-> & _ & -> & _)]; [eapply G2, I|lia]).
  assert (KX : k = gcount (socks p) (nxt p) x).
  { destruct WH as [[I _]|(-> & -> & _)]; [eapply G2, I|]. unfold gcount. symmetry. apply length_zero_iff_nil. destruct (filter _ _) as [|a r] eqn:F; [reflexivity|]. exfalso.
    assert (IA : In a (filter (ing (socks p) (ngrp p)) (seq 0 (nxt p)))) by (rewrite F; cbn; auto). apply filter_In in IA as [_ IA]. unfold ing in IA. destruct (socks p a) as [s|] eqn:E; [|discriminate]. apply Nat.eqb_eq in IA.
    destruct (G3 a s E) as [Y _]. apply in_map_iff in Y as ([c d] & Y1 & Y2). cbn in Y1. apply G2 in Y2. lia. }
  assert (MEM : forall c, In c (map fst (grps p)) -> In c (map fst g)).
  { intros c I. apply in_map_iff in I as ([c' d] & Y1 & Y2). cbn in Y1. subst c'. destruct (Nat.eq_dec c x) as [->|N]; [apply (in_map fst) in IX; exact IX|]. assert (I : In (c, d) g) by (apply IN; auto). apply (in_map fst) in I. exact I. }
  assert (ALL : forall c, (c < n)%nat -> In c (map fst g)). { intros c C. destruct WH as [[_ ->]|(-> & _ & -> & _)]; [apply MEM, G5, C|]. destruct (Nat.eq_dec c (ngrp p)) as [->|N]; [apply (in_map fst) in IX; exact IX|apply MEM, G5; lia]. }
  split; [|split; [destruct WH as [[_ ->]|(_ & _ & -> & F)]; auto|]].
  - unfold InvG. ww. split; [exact ND'|]. split; [|split; [|split; [exact GS'|]]].
    + intros c d I. apply IN' in I. destruct I as [I|[N I]]; [injection I as -> ->; auto|]. apply IN in I. destruct I as [I|[_ I]]; [congruence|]. destruct (G2 c d I). split; [assumption|lia].
    + intros i s E. destruct (G3 i s E) as [Y L]. split; [|exact L]. destruct (Nat.eq_dec (grp s) x) as [->|N].
      * assert (I : In (x, k) g') by (apply IN'; auto). apply (in_map fst) in I. exact I.
      * apply MEM in Y. apply in_map_iff in Y as ([c d] & Y1 & Y2). cbn in Y1. subst c. assert (I : In (grp s, d) g') by (apply IN'; auto). apply (in_map fst) in I. exact I.
    + intros c C. apply ALL in C. destruct (Nat.eq_dec c x) as [->|N].
      * assert (I : In (x, k) g') by (apply IN'; auto). apply (in_map fst) in I. exact I.
      * apply in_map_iff in C as ([c' d] & Y1 & Y2). cbn in Y1. subst c'. assert (I : In (c, d) g') by (apply IN'; auto). apply (in_map fst) in I. exact I.
  - intros s t GX NO. unfold InvG. ww. split; [exact ND|]. split; [|split; [|split; [exact GS|]]].
    + intros c d I. rewrite gcount_S. assert (X1 : gcount (set (socks p) (nxt p) (Some s)) (nxt p) c = gcount (socks p) (nxt p) c). { apply gcount_ext. intros j J. unfold ing. rewrite set_other by lia. reflexivity. }
      rewrite X1. unfold ing. rewrite set_same, GX. apply IN in I. destruct I as [I|[N I]].
      * injection I as -> ->. rewrite Nat.eqb_refl. split; [lia|exact XN].
      * destruct (G2 c d I). destruct (Nat.eqb_spec x c); [congruence|]. split; lia.
    + intros i s0 E. unfold set in E. destruct (Nat.eqb_spec i (nxt p)) as [->|N].
      * injection E as <-. rewrite GX. split; [apply (in_map fst) in IX; exact IX|lia].
      * destruct (G3 i s0 E) as [Y L]. split; [apply MEM, Y|lia].
    + exact ALL.
Qed.
