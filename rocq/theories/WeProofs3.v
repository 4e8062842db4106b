(* The Windows poller: completions, calls and runs. *)
Require Import Verif.Base Verif.WeModel Verif.WeProofs Verif.WeProofs2.
Require Import List ZArith Lia Bool Arith Permutation.
Import ListNotations.
Open Scope Z_scope.

(* ---- epoll_ctl ---- *)
Definition held (p p' : port) : Prop := (nxt p <= nxt p')%nat /\ active p' = active p /\ cq p' = cq p /\ (forall i, cond p' i = cond p i) /\ (forall i, closed p' i = closed p i) /\ (forall t, thr p' t = thr p t) /\
  (forall j q' a, req p' j = Some q' -> kdone q' = Some a -> exists q, req p j = Some q /\ kdone q = Some a).
Lemma kept_held p p' : kept p p' -> held p p'. Proof. intros (A & B). split; [lia|exact B]. Qed.
Lemma held_trans p q r : held p q -> held q r -> held p r.
Proof. intros (A1 & A2 & A3 & A4 & A5 & A6 & A7) (B1 & B2 & B3 & B4 & B5 & B6 & B7). split; [lia|]. repeat split; intros; try congruence. destruct (B7 _ _ _ H H0) as (q0 & X & Y). eauto. Qed.
Lemma held_C p p' : InvC p -> held p p' -> InvC p'.
Proof. intros C (_ & _ & _ & _ & K5 & _ & K7) i q e Q D L. rewrite K5. destruct (K7 i q _ Q D) as (q0 & X & Y). apply (C i q0 e X Y L). Qed.
Definition InvU (p : port) : Prop := (0 < active p)%nat -> updq p = [].
(* a new device handle only when every group is full *)
Definition grown (p p' : port) : Prop := ngrp p' = ngrp p \/ ngrp p' = S (ngrp p) /\ Forall (fun e => snd e = GMAX) (grps p).
Definition ret (hok : bool) (r : option err) : option err := match r with None => None | Some e => fin hok e end.
Definition goes (p p' : port) (os : list obs) : Prop :=
  forall st, RelE st p -> legal st os /\ RelE (ends st os) p' /\ lim (ends st os) = lim st /\ cnt (ends st os) = cnt st.
Lemma after_ctl st k o hok r : lim (after st (OCtl k o hok r)) = lim st /\ cnt (after st (OCtl k o hok r)) = cnt st.
Proof. destruct o, r; cbn; auto. destruct (ents st k); cbn; auto. Qed.
Lemma goes_ctl p p1 p' k o hok r os : (forall st, RelE st p -> fair st (OCtl k o hok r) /\ RelE (after st (OCtl k o hok r)) p1) -> along p1 p' os -> goes p p' (OCtl k o hok r :: os).
Proof.
  intros A B st R. destruct (A st R) as [F R1]. destruct (B _ R1) as (B1 & B2 & B3 & B4). destruct (after_ctl st k o hok r) as [C1 C2].
  cbn [legal ends fold_left]. split; [auto|]. split; [exact B2|]. unfold ends in B3, B4. split; congruence.
Qed.
Lemma bad_or k : (k =? 0) || (k =? invalid_socket) = true <-> badkey k.
Proof. unfold badkey. rewrite orb_true_iff, !Z.eqb_eq. tauto. Qed.
Lemma ctl_ok v p k o hold : InvS p hold -> InvG p -> InvC p ->
  exists p' r os, port_ctl v p k o = Ok (p', r, os) /\ InvS p' hold /\ InvG p' /\ held p p' /\ (forall hok, goes p p' (OCtl k o hok (ret hok r) :: os)) /\ (calm v -> InvU p -> InvU p') /\ grown p p'.
Proof.
  intros IV IG IC.
  assert (NO : forall e, (forall st hok, RelE st p -> fair st (OCtl k o hok (ret hok (Some e)))) -> forall hok, goes p p [OCtl k o hok (ret hok (Some e))]).
  { intros e F hok. apply (goes_ctl p p p); [|apply along_nil; auto]. intros st R. split; [apply F, R|]. destruct o; exact R. }
  destruct o as [ev dat ae|ev dat| |]; cbn [port_ctl].
  - (* registering *)
    assert (BACK : forall e g n, InvG (w_grps p g n) -> (n = ngrp p \/ n = S (ngrp p) /\ Forall (fun e => snd e = GMAX) (grps p)) -> (forall st hok, RelE st p -> fair st (OCtl k (CAdd ev dat ae) hok (ret hok (Some e)))) ->
      exists p' r os, Ok (w_grps p g n, Some e, @nil obs) = Ok (p', r, os) /\ InvS p' hold /\ InvG p' /\ held p p' /\ (forall hok, goes p p' (OCtl k (CAdd ev dat ae) hok (ret hok r) :: os)) /\ (calm v -> InvU p -> InvU p') /\ grown p p').
    { intros e g n IG' GW F. do 3 eexists. split; [reflexivity|]. split; [apply (inv_ext p _ hold IV); reflexivity|]. split; [exact IG'|]. split; [apply kept_held; repeat split; eauto|]. split; [|split; [auto|exact GW]].
      intros hok. apply (goes_ctl p (w_grps p g n)); [|apply along_nil; auto]. intros st R. split; [apply F, R|]. apply (rel_ext st _ p); auto. }
    assert (SAME : w_grps p (grps p) (ngrp p) = p) by (destruct p; reflexivity).
    unfold sock_new. destruct ((k =? 0) || (k =? invalid_socket)) eqn:BK.
    { apply bad_or in BK. cbn [bind fst snd]. pose proof (BACK EBADF (grps p) (ngrp p)) as B. rewrite SAME in B. apply B; [exact IG|auto|]. intros st hok R. exists EBADF. split; [reflexivity|]. left. auto. }
    assert (NB : ~ badkey k) by (rewrite <- bad_or; congruence). destruct (Nat.eqb_spec ae 1) as [A1|A1].
    { cbn [bind fst snd]. pose proof (BACK ESOCK (grps p) (ngrp p)) as B. rewrite SAME in B. apply B; [exact IG|auto|]. intros st hok R. exists ESOCK. split; [reflexivity|]. right. auto. }
    destruct (acquire (grps p) (ngrp p) (negb (Nat.eqb ae 2))) as [[[g x] n]|] eqn:AQ.
    2:{ cbn [bind fst snd]. pose proof (BACK EDEV (grps p) (ngrp p)) as B. rewrite SAME in B. apply B; [exact IG|auto|]. intros st hok R. exists EDEV. split; [reflexivity|]. right. split; [exact NB|]. right. left. split; [reflexivity|].
        pose proof IG as (G1 & G2 & G3 & G4 & _). pose proof (acquire_ok (grps p) (ngrp p) (negb (Nat.eqb ae 2)) G1 G4 (fun a b I => proj2 (G2 a b I))) as Q. rewrite AQ in Q. destruct Q as [Q _]. destruct (Nat.eqb_spec ae 2); [assumption|discriminate]. }
    destruct (acquired p _ g x n IG AQ) as (g' & RL & IG' & NN & NEW). cbv zeta. change (grps (w_grps p g n)) with g. change (ngrp (w_grps p g n)) with n. change (tree (w_grps p g n)) with (tree p). change (nxt (w_grps p g n)) with (nxt p).
    destruct (Nat.leb_spec 3 ae) as [A3|A3].
    { rewrite RL. cbn [bind fst snd]. change (w_grps (w_grps p g n) g' n) with (w_grps p g' n). apply BACK; [exact IG'|exact NN|]. intros st hok R. exists ENOMEM. split; [reflexivity|]. right. auto 6. }
    assert (AE : (ae = 0 \/ ae = 2)%nat) by lia.
    destruct (lookup k (tree p)) as [i|] eqn:LK.
    { rewrite RL. cbn [bind fst snd]. change (w_grps (w_grps p g n) g' n) with (w_grps p g' n). apply BACK; [exact IG'|exact NN|]. intros st hok R. exists EEXIST. split; [reflexivity|]. right. split; [exact NB|]. do 3 right. split; [reflexivity|]. split; [|exact AE].
      pose proof (registered st p hold k IV R) as Q. rewrite LK in Q. destruct Q as (s & _ & _ & _ & Q). exact Q. }
    cbn [bind fst snd]. set (i := nxt p). set (s0 := mks 0 0 0 Idle false k x). set (p0 := w_tree (w_nxt (w_sock (w_grps p g n) i (Some s0)) (S i)) ((k, i) :: tree p)).
    pose proof IV as [GL OK]. pose proof (OK i) as [OI DN].
    assert (NS : socks p i = None). { destruct (socks p i) as [s|]; [destruct OI as [X _]; unfold i in X; lia|reflexivity]. }
    rewrite NS in OI. destruct OI as (D1 & D2 & D3 & D4).
    assert (NC : closed p i = false). { destruct (closed p i) eqn:C; [|reflexivity]. destruct GL as (_ & _ & _ & _ & _ & _ & _ & _ & CL). apply CL in C. unfold i in C. lia. }
    assert (ND : ~ done p i) by (intros (q & a & X & _); congruence).
    destruct (set_event_ok p0 i s0 ev dat hold) as (p1 & X & I1 & G1 & N1 & K1 & SS & SO & RR).
    + intros j N. apply (okS_ext p p0 hold hold j (OK j)); try reflexivity; [apply set_other, N|cbn; unfold i; lia|]. intros k'. cbn. intuition congruence.
    + destruct GL as (T1 & T2 & U & DQ & C & H & HC & HH & CL). unfold glob, p0. ww. cbn [map fst snd]. split; [constructor; [apply lookup_none, LK|exact T1]|]. split.
      { constructor; [|exact T2]. intros I. apply in_map_iff in I as ([a b] & E & I). cbn in E. subst b. apply (D4 a I). }
      do 6 (split; [assumption|]). intros j Y. apply CL in Y. unfold i. lia.
    + apply (NEW s0 ((k, i) :: tree p) eq_refl NS).
    + apply set_same.
    + reflexivity.
    + cbn. unfold i. lia.
    + intros k'. cbn. split; [intros [E|I]; [congruence|destruct (D4 _ I)]|left; congruence].
    + exact D3.
    + split; [exact D1|reflexivity].
    + exact DN.
    + rewrite X. cbn [bind]. destruct (polling_ok v p1 hold I1 G1) as (p2 & t & os & Y & I2 & G2 & N2 & K2 & U2 & A2 & _ & _). rewrite Y. cbn [bind]. do 3 eexists. split; [reflexivity|]. split; [exact I2|]. split; [exact G2|].
      assert (H0 : held p p0). { unfold held, p0. ww. split; [unfold i; lia|]. repeat split; eauto. } assert (H1 : held p p1) by (apply (held_trans p p0 p1 H0), kept_held, K1).
      split; [apply (held_trans p p1 p2 H1), kept_held, K2|]. split; [|split].
      * intros hok. apply (goes_ctl p p1 p2); [|exact A2]. intros st R. pose proof (registered st p hold k IV R) as Q. rewrite LK in Q. split; [cbn; auto|].
        destruct R as [R1 R2]. cbn [ret after]. fold (full ev). assert (CC : forall j, closed p1 j = closed p j) by apply H1. assert (SP : forall j, j <> i -> socks p1 j = socks p j) by (intros j N; rewrite SO by exact N; apply set_other, N). split.
        -- intros j s E D. destruct (Nat.eq_dec j i) as [EQ|N].
           ++ subst j. assert (s = s_ev s0 (full ev) dat) by congruence. subst s. cbn [ents]. ww. unfold s0. ww. unfold zset. rewrite Z.eqb_refl. eexists. split; [reflexivity|]. cbn [easked edat ecl eans]. rewrite CC, NC, RR. split; [reflexivity|]. split; [reflexivity|]. split; [reflexivity|].
              intros q a Y1 _. change (req p0) with (req p) in Y1. congruence.
           ++ rewrite SP in E by exact N. cbn [ents]. unfold zset. destruct (R1 j s E D) as (e & B). destruct (Z.eqb_spec (skey s) k) as [K|K]; [destruct B as [B _]; congruence|]. rewrite CC, RR. exists e. exact B.
        -- intros k' e. cbn [ents]. unfold zset. destruct (Z.eqb_spec k' k) as [->|K].
           ++ intros _. exists i, (s_ev s0 (full ev) dat). auto.
           ++ intros Y1. destruct (R2 k' e Y1) as (j & s & B1 & B2 & B3). exists j, s. destruct (Nat.eq_dec j i) as [EQ|N]; [subst j; congruence|]. rewrite SP by exact N. auto.
      * intros C _ A. apply U2; [exact C|]. destruct K2 as (_ & K2 & _). lia.
      * unfold grown. rewrite N2, N1. exact NN.
  - destruct (lookup k (tree p)) as [i|] eqn:LK.
    + pose proof IV as [GL OK]. pose proof (lookup_some _ _ _ LK) as IT. pose proof (OK i) as OI. destruct OI as [OI _]. destruct (socks p i) as [s|] eqn:E; [|destruct OI as (_ & _ & _ & X); destruct (X k IT)].
      destruct OI as (_ & L2 & _). pose proof (proj1 (L2 k) IT) as [KK D]. subst k.
      destruct (mod_ok p i s ev dat hold IV IG E D) as (p1 & X & I1 & G1 & N1 & K1 & R1). rewrite X. cbn [bind].
      destruct (polling_ok v p1 hold I1 G1) as (p2 & t & os & Y & I2 & G2 & N2 & K2 & U2 & A2 & _ & _). rewrite Y. cbn [bind]. do 3 eexists. split; [reflexivity|]. split; [exact I2|]. split; [exact G2|].
      split; [apply kept_held, (kept_trans p p1 p2 K1 K2)|]. split; [|split].
      * intros hok. apply (goes_ctl p p1 p2); [|exact A2]. intros st R. split; [|apply R1, R]. cbn. pose proof (registered st p hold (skey s) IV R) as Q. rewrite LK in Q. destruct Q as (_ & _ & _ & _ & Q). exact Q.
      * intros C _ A. apply U2; [exact C|]. destruct K2 as (_ & K2 & _). lia.
      * left. congruence.
    + do 3 eexists. split; [reflexivity|]. split; [exact IV|]. split; [exact IG|]. split; [apply kept_held, kept_refl|]. split; [|split; [auto|left; reflexivity]]. apply NO. intros st hok R. cbn. pose proof (registered st p hold k IV R) as Q. rewrite LK in Q. auto.
  - destruct (lookup k (tree p)) as [i|] eqn:LK.
    + pose proof IV as [GL OK]. pose proof (lookup_some _ _ _ LK) as IT. pose proof (OK i) as OI. destruct OI as [OI _]. destruct (socks p i) as [s|] eqn:E; [|destruct OI as (_ & _ & _ & X); destruct (X k IT)].
      destruct OI as (_ & L2 & _). pose proof (proj1 (L2 k) IT) as [KK D]. subst k.
      destruct (delete_ok v p i s hold IV IG E D) as (p1 & X & I1 & G1 & U1 & N1 & K1 & R1). rewrite X. cbn [bind]. do 3 eexists. split; [reflexivity|]. split; [exact I1|]. split; [exact G1|]. split; [apply kept_held, K1|]. split; [|split].
      * intros hok. apply (goes_ctl p p1 p1); [|apply along_nil; auto]. intros st R. split; [|apply R1, R]. cbn. pose proof (registered st p hold (skey s) IV R) as Q. rewrite LK in Q. destruct Q as (_ & _ & _ & _ & Q). exact Q.
      * intros _ U A. rewrite U1. rewrite U; [reflexivity|]. destruct K1 as (_ & K1 & _). lia.
      * left. exact N1.
    + do 3 eexists. split; [reflexivity|]. split; [exact IV|]. split; [exact IG|]. split; [apply kept_held, kept_refl|]. split; [|split; [auto|left; reflexivity]]. apply NO. intros st hok R. cbn. pose proof (registered st p hold k IV R) as Q. rewrite LK in Q. auto.
  - do 3 eexists. split; [reflexivity|]. split; [exact IV|]. split; [exact IG|]. split; [apply kept_held, kept_refl|]. split; [|split; [auto|left; reflexivity]]. apply NO. intros st hok R. cbn. reflexivity.
Qed.

(* ---- waiting threads ---- *)
Definition hold_of (p : port) (t : nat) : list nat := match thr p t with TGot l _ _ => l | _ => [] end.
Definition InvT (p : port) : Prop := exists ins, NoDup ins /\ (forall t, In t ins <-> thr p t <> TOut) /\ active p = length ins.
Definition waits (st : sst) (t max : nat) (inf : bool) : Prop := exists m, lim st t = Some (m, inf) /\ cnt st t = O /\ Z.of_nat max <= m.
Definition relT (st : sst) (p : port) (t : nat) : Prop :=
  match thr p t with
  | TOut => lim st t = None
  | TIn max inf => waits st t max inf
  | TGot l max inf => waits st t max inf /\ (length l <= max)%nat
  end.
Definition RelT (st : sst) (p : port) : Prop := forall t, relT st p t.
Definition Inv (p : port) : Prop := InvS p (hold_of p) /\ InvG p /\ InvC p /\ InvT p.
Definition Rel (st : sst) (p : port) : Prop := RelE st p /\ RelT st p.

Lemma len_without (t : nat) l : NoDup l -> In t l -> length l = S (length (without t l)).
Proof.
  induction l as [|a l IH]; cbn [In]; [contradiction|]. intros ND I. apply NoDup_cons_iff in ND as [N ND]. cbn. destruct (Nat.eqb_spec a t) as [->|NE]; cbn.
  - f_equal. fold (without t l). rewrite without_none by exact N. reflexivity.
  - f_equal. apply IH; [exact ND|]. destruct I; [congruence|assumption].
Qed.
Lemma in_more p p' t x : InvT p -> thr p t = TOut -> x <> TOut -> active p' = S (active p) -> (forall u, thr p' u = set (thr p) t x u) -> InvT p'.
Proof.
  intros (ins & N & I & A) T X A' T'. exists (t :: ins). split; [constructor; [rewrite I; congruence|exact N]|]. split; [|cbn; lia]. intros u. rewrite T'. unfold set. cbn. rewrite I. destruct (Nat.eqb_spec u t) as [->|NE]; intuition congruence.
Qed.
Lemma in_less p p' t : InvT p -> thr p t <> TOut -> active p' = pred (active p) -> (forall u, thr p' u = set (thr p) t TOut u) -> InvT p'.
Proof.
  intros (ins & N & I & A) T A' T'. exists (without t ins). split; [apply nd_without, N|]. split; [|rewrite A', A, (len_without t ins N); [reflexivity|apply I, T]].
  intros u. rewrite T', in_without, I. unfold set. destruct (Nat.eqb_spec u t) as [->|NE]; intuition congruence.
Qed.
Lemma in_some p t : InvT p -> thr p t <> TOut -> (0 < active p)%nat.
Proof. intros (ins & N & I & A) T. apply I in T. destruct ins; [contradiction|cbn in A; lia]. Qed.
Lemma in_same p p' : InvT p -> active p' = active p -> (forall u, thr p' u = TOut <-> thr p u = TOut) -> InvT p'.
Proof. intros (ins & N & I & A) A' T'. exists ins. split; [exact N|]. split; [|lia]. intros u. rewrite I, T'. reflexivity. Qed.

Lemma enter_ok v p t max inf hold : InvS p hold -> InvG p ->
  exists p1 o (ok : bool), enter v p t max inf = Ok (if ok then w_thr (w_active p1 (S (active p1))) t (TIn max inf) else w_thr p1 t TOut, if ok then o else o ++ [ORet t None]) /\
    InvS p1 hold /\ InvG p1 /\ ngrp p1 = ngrp p /\ kept p p1 /\ along p p1 o /\ (ok = true -> updq p1 = []) /\ (ok = false -> ~ calm v).
Proof.
  intros IV IG. unfold enter, update_all. destruct (events_ok v hold (length (updq p)) p false IV IG (le_n _)) as (p1 & ok & tt & o & X & I1 & G1 & NG1 & K1 & U1 & F1 & A1 & _ & _). rewrite X. cbn [bind]. destruct ok.
  - exists p1, o, true. split; [reflexivity|]. split; [exact I1|]. split; [exact G1|]. split; [exact NG1|]. split; [exact K1|]. split; [exact A1|]. split; [exact U1|discriminate].
  - destruct (polling_ok v p1 hold I1 G1) as (p2 & t2 & o2 & Y & I2 & G2 & NG2 & K2 & _ & A2 & _ & _). rewrite Y. cbn [bind]. exists p2, (o ++ o2), false. split; [rewrite <- app_assoc; reflexivity|]. split; [exact I2|]. split; [exact G2|]. split; [congruence|].
    split; [apply (kept_trans p p1 p2 K1 K2)|]. split; [apply (along_trans p p1 p2 o o2 A1 A2)|]. split; [discriminate|exact F1].
Qed.

Definition cool (l : label) : Prop := match l with LCtl _ _ _ v | LWait _ _ _ _ v | LFeed _ _ v | LStop _ _ v => calm v | _ => True end.
Definition moves (p : port) (l : label) : Prop :=
  exists p' o, step p l = Ok (p', o) /\ Inv p' /\ (forall st, Rel st p -> legal st o /\ Rel (ends st o) p') /\ (cool l -> InvU p -> InvU p') /\ grown p p'.

Lemma hold_set p p' t x : (forall u, thr p' u = set (thr p) t x u) -> forall u, hold_of p' u = set (hold_of p) t (match x with TGot l _ _ => l | _ => [] end) u.
Proof. intros E u. unfold hold_of. rewrite E. unfold set. destruct (Nat.eqb u t); reflexivity. Qed.
Lemma hold_out p p' t x : (forall u, thr p' u = set (thr p) t x u) -> hold_of p t = [] -> match x with TGot _ _ _ => False | _ => True end -> forall u, hold_of p' u = hold_of p u.
Proof. intros E H X u. rewrite (hold_set p p' t x E). unfold set. destruct (Nat.eqb_spec u t) as [->|]; [|reflexivity]. rewrite H. destruct x; [reflexivity|reflexivity|contradiction]. Qed.
Lemma stays p l : Inv p -> step p l = Ok (p, []) -> moves p l.
Proof. intros IV E. exists p, []. split; [exact E|]. split; [exact IV|]. split; [intros st R; cbn; auto|]. split; [auto|left; reflexivity]. Qed.

Lemma step_ctl p k o hok v : Inv p -> moves p (LCtl k o hok v).
Proof.
  intros (IV & IG & IC & IT). unfold moves. cbn [step]. destruct (ctl_ok v p k o (hold_of p) IV IG IC) as (p' & r & os & X & I1 & G1 & H1 & GO & U1 & GW). rewrite X. cbn [bind]. exists p', (OCtl k o hok (ret hok r) :: os).
  assert (TH : forall t, thr p' t = thr p t) by apply H1. split; [reflexivity|]. split; [|split; [|split; [exact U1|exact GW]]].
  - split; [apply (inv_hold p' (hold_of p)); [intros t; unfold hold_of; rewrite TH; reflexivity|exact I1]|]. split; [exact G1|]. split; [apply (held_C p p' IC H1)|]. apply (in_same p p' IT); [apply H1|]. intros u. rewrite TH. reflexivity.
  - intros st [R RT]. destruct (GO hok st R) as (L & R' & EL & EC). split; [exact L|]. split; [exact R'|]. intros t. unfold relT, waits. rewrite TH, EL, EC. apply RT.
Qed.
Lemma legal_snoc st os o : legal st os -> fair (ends st os) o -> legal st (os ++ [o]).
Proof. intros A B. apply legal_app. cbn. auto. Qed.
Lemma ends_snoc st os o : ends st (os ++ [o]) = after (ends st os) o. Proof. rewrite ends_app. reflexivity. Qed.

(* a thread goes out or waits *)
Lemma rel_out st p p' t : RelT st p -> (forall u, thr p' u = set (thr p) t TOut u) -> forall r st', (forall u, u <> t -> lim st' u = lim st u /\ cnt st' u = cnt st u) -> RelT (after st' (ORet t r)) p'.
Proof.
  intros RT TH r st' L u. unfold relT, waits. rewrite TH. unfold set. cbn. unfold set. destruct (Nat.eqb_spec u t) as [->|N]; [reflexivity|]. destruct (L u N) as [-> ->]. apply RT.
Qed.
Lemma step_wait p t max mok inf v : Inv p -> moves p (LWait t max mok inf v).
Proof.
  intros II. pose proof II as (IV & IG & IC & IT). destruct (thr p t) as [|m0 i0|l0 m0 i0] eqn:T; [|apply (stays p _ II); cbn; rewrite T; reflexivity..].
  unfold moves. cbn [step]. rewrite T. assert (HT : hold_of p t = []) by (unfold hold_of; rewrite T; reflexivity). destruct (Z.leb_spec max 0) as [M|M].
  - do 2 eexists. split; [reflexivity|]. split; [exact II|]. split; [|split; [auto|left; reflexivity]]. intros st [R RT]. pose proof (RT t) as RTt. unfold relT in RTt. rewrite T in RTt. cbn [legal ends fold_left]. split.
    + split; [exact RTt|]. split; [|exact I]. cbn. exists max, inf. unfold set. rewrite !Nat.eqb_refl. auto.
    + split; [apply (rel_ext st _ p p R); auto|]. intros u. unfold relT, waits. cbn. unfold set. destruct (Nat.eqb_spec u t) as [->|N]; [rewrite T; reflexivity|apply RT].
  - set (m := if (max <=? 256) || mok then Z.to_nat max else 256%nat). assert (ML : Z.of_nat m <= max) by (unfold m; destruct ((max <=? 256) || mok) eqn:B; [lia|]; apply orb_false_iff in B as [B _]; apply Z.leb_gt in B; lia).
    destruct (enter_ok v p t m inf (hold_of p) IV IG) as (p1 & o & ok & X & I1 & G1 & NG1 & K1 & A1 & U1 & F1). rewrite X. cbn [bind fst snd]. do 2 eexists. split; [reflexivity|].
    assert (TH : forall u, thr p1 u = thr p u) by apply K1. assert (AC : active p1 = active p) by apply K1.
    assert (ST : forall st, Rel st p -> let st1 := mkst (ents st) (set (lim st) t (Some (max, inf))) (set (cnt st) t O) in
       fair st (OWait t max inf) /\ legal st1 o /\ RelE (ends st1 o) p1 /\ lim (ends st1 o) = lim st1 /\ cnt (ends st1 o) = cnt st1).
    { intros st [R RT] st1. pose proof (RT t) as RTt. unfold relT in RTt. rewrite T in RTt. split; [exact RTt|]. apply A1. apply (rel_ext st st1 p p R); auto. }
    destruct ok.
    + assert (TH' : forall u, thr (w_thr (w_active p1 (S (active p1))) t (TIn m inf)) u = set (thr p) t (TIn m inf) u) by (intros u; ww; unfold set; destruct (Nat.eqb u t); auto).
      split; [|split; [|split; [|left; exact NG1]]].
      * split; [|split; [|split]].
        -- apply (inv_hold _ (hold_of p)); [apply (hold_out p _ t _ TH' HT I)|]. apply (inv_ext p1 _ _ I1); reflexivity.
        -- apply (groups_ext p1 _ G1); reflexivity.
        -- apply (kept_C p p1 IC K1).
        -- apply (in_more p _ t (TIn m inf) IT T); [discriminate|ww; lia|exact TH'].
      * intros st RR. destruct (ST st RR) as (F & L & R1 & EL & EC). cbn [legal ends fold_left after]. split; [auto|]. unfold ends in *. split; [apply (rel_ext _ _ p1 _ R1); auto|].
        intros u. unfold relT, waits. rewrite TH', EL, EC. cbn [lim cnt]. unfold set. destruct (Nat.eqb_spec u t) as [->|N]; [exists max; auto|apply RR].
      * intros _ _ _. apply U1. reflexivity.
    + assert (TH' : forall u, thr (w_thr p1 t TOut) u = set (thr p) t TOut u) by (intros u; ww; unfold set; destruct (Nat.eqb u t); auto).
      split; [|split; [|split; [|left; exact NG1]]].
      * split; [|split; [|split]].
        -- apply (inv_hold _ (hold_of p)); [apply (hold_out p _ t _ TH' HT I)|]. apply (inv_ext p1 _ _ I1); reflexivity.
        -- apply (groups_ext p1 _ G1); reflexivity.
        -- apply (kept_C p p1 IC K1).
        -- apply (in_same p _ IT); [exact AC|]. intros u. rewrite TH'. unfold set. destruct (Nat.eqb_spec u t) as [->|]; [tauto|reflexivity].
      * intros st RR. destruct (ST st RR) as (F & L & R1 & EL & EC). change (OWait t max inf :: o ++ [ORet t None]) with ([OWait t max inf] ++ (o ++ [ORet t None])). rewrite legal_app, ends_app. cbn [legal ends fold_left after]. rewrite ends_snoc. split.
        -- split; [auto|]. apply legal_snoc; [exact L|]. cbn. exists max, inf. rewrite EL, EC. cbn. rewrite !set_same. auto.
        -- split; [apply (rel_ext _ _ p1 _ R1); auto|]. apply (rel_out st p _ t (proj2 RR) TH').
           intros u N. rewrite EL, EC. cbn. rewrite !set_other by exact N. auto.
      * intros C _. destruct (F1 eq_refl C).
Qed.

Lemma step_take p t n : Inv p -> moves p (LTake t n).
Proof.
  intros II. pose proof II as (IV & IG & IC & IT). destruct (thr p t) as [|m inf|l0 m0 i0] eqn:T; [apply (stays p _ II); cbn; rewrite T; reflexivity| |apply (stays p _ II); cbn; rewrite T; reflexivity].
  destruct (Nat.leb 1 n && Nat.leb n (Nat.min m (length (cq p)))) eqn:B; [|apply (stays p _ II); cbn [step]; rewrite T, B; reflexivity].
  unfold moves. cbn [step]. rewrite T, B. apply andb_true_iff in B as [B1 B2]. apply Nat.leb_le in B1. apply Nat.leb_le in B2. assert (BM : (n <= m)%nat) by lia.
  set (p' := w_cq (w_thr p t (TGot (firstn n (cq p)) m inf)) (skipn n (cq p))). exists p', []. split; [reflexivity|].
  assert (TH : forall u, thr p' u = set (thr p) t (TGot (firstn n (cq p)) m inf) u) by reflexivity.
  assert (HT : hold_of p t = []) by (unfold hold_of; rewrite T; reflexivity).
  pose proof (firstn_skipn n (cq p)) as FS. split; [|split; [|split; [auto|left; reflexivity]]].
  - split; [|split; [apply (groups_ext p _ IG); reflexivity|split; [exact IC|]]].
    + apply (inv_hold p' (set (hold_of p) t (firstn n (cq p)))); [apply (hold_set p p' t _ TH)|].
      destruct IV as [(T1 & T2 & U & DQ & C & H & HC & HH & CL) OK].
      assert (NF : NoDup (firstn n (cq p)) /\ NoDup (skipn n (cq p)) /\ forall i, In i (firstn n (cq p)) -> ~ In i (skipn n (cq p))).
      { rewrite <- FS in C. split; [|split].
        - clear -C. induction (firstn n (cq p)) as [|a l IH]; [constructor|]. cbn in C. apply NoDup_cons_iff in C as [N C]. constructor; [intros I; apply N, in_app_iff; auto|apply IH, C].
        - clear -C. induction (firstn n (cq p)) as [|a l IH]; [exact C|]. cbn in C. apply NoDup_cons_iff in C as [N C]. apply IH, C.
        - clear -C. intros i I J. induction (firstn n (cq p)) as [|a l IH]; [contradiction|]. cbn in C. apply NoDup_cons_iff in C as [N C]. destruct I as [->|I]; [apply N, in_app_iff; auto|apply IH; assumption]. }
      destruct NF as (N1 & N2 & N3). assert (IF : forall i, In i (firstn n (cq p)) -> In i (cq p)) by (intros i I; rewrite <- FS; apply in_app_iff; auto). assert (IS : forall i, In i (skipn n (cq p)) -> In i (cq p)) by (intros i I; rewrite <- FS; apply in_app_iff; auto).
      split.
      * unfold glob, p'. ww. do 4 (split; [assumption|]). split; [exact N2|]. split; [intros u; unfold set; destruct (Nat.eqb u t); [exact N1|apply H]|].
        split; [|split; [|exact CL]].
        -- intros u i. unfold set. destruct (Nat.eqb u t); [apply N3|]. intros I J. apply (HC u i I), IS, J.
        -- intros u w i. unfold set. destruct (Nat.eqb_spec u t) as [E1|E1], (Nat.eqb_spec w t) as [E2|E2]; intros I J; [congruence| | |apply (HH u w i I J)].
           ++ destruct (HC w i J). apply IF, I.
           ++ destruct (HC u i I). apply IF, J.
      * intros j. apply (okS_ext p p' (hold_of p) _ j (OK j)); try reflexivity; try (intros; reflexivity). unfold p'. ww. split.
        -- intros [I|[u I]]; [left; apply IS, I|]. unfold set in I. destruct (Nat.eqb u t); [left; apply IF, I|right; eauto].
        -- intros [I|[u I]].
           ++ rewrite <- FS, in_app_iff in I. destruct I as [I|I]; [right; exists t; rewrite set_same; exact I|left; exact I].
           ++ right. exists u. unfold set. destruct (Nat.eqb_spec u t) as [->|N]; [rewrite HT in I; contradiction|exact I].
    + apply (in_same p p' IT); [reflexivity|]. intros u. rewrite TH. unfold set. destruct (Nat.eqb_spec u t) as [->|N]; [rewrite T; split; discriminate|reflexivity].
  - intros st [R RT]. cbn. split; [exact I|]. split; [apply (rel_ext st st p p' R); auto|]. intros u. unfold relT. rewrite TH. unfold set. destruct (Nat.eqb_spec u t) as [->|N]; [|apply RT].
    pose proof (RT t) as RTt. unfold relT in RTt. rewrite T in RTt. split; [exact RTt|]. rewrite firstn_length. lia.
Qed.

Lemma step_feed p t late v : Inv p -> moves p (LFeed t late v).
Proof.
  intros II. pose proof II as (IV & IG & IC & IT). destruct (thr p t) as [|m0 i0|l m inf] eqn:T; [apply (stays p _ II); cbn; rewrite T; reflexivity..|].
  unfold moves. cbn [step]. rewrite T. set (p0 := w_active p (pred (active p))). pose proof (in_some p t IT) as AP. rewrite T in AP. specialize (AP ltac:(discriminate)).
  assert (HT : hold_of p t = l) by (unfold hold_of; rewrite T; reflexivity).
  destruct (feed_all_ok v t l p0 (hold_of p)) as (p1 & o1 & X & I1 & G1 & C1 & N1 & K1 & L1 & F1); [apply (inv_ext p _ _ IV); reflexivity|apply (groups_ext p _ IG); reflexivity|exact IC|exact HT|].
  rewrite X. cbn [bind]. assert (TH1 : forall u, thr p1 u = thr p u) by apply K1. assert (AC1 : active p1 = pred (active p)) by apply K1.
  assert (ST : forall st, Rel st p -> exists mm, lim st t = Some (mm, inf) /\ Z.of_nat m <= mm /\ legal st o1 /\ RelE (ends st o1) p1 /\ lim (ends st o1) = lim st /\ cnt (ends st o1) t = reports o1 /\ forall u, u <> t -> cnt (ends st o1) u = cnt st u).
  { intros st [R RT]. pose proof (RT t) as RTt. unfold relT in RTt. rewrite T in RTt. destruct RTt as ((mm & LM & CN & LE) & LL). exists mm. split; [exact LM|]. split; [exact LE|].
    destruct (F1 st mm inf) as (B1 & B2 & B3 & B4); [apply (rel_ext st st p p0 R); auto|exact LM|rewrite CN; lia|]. split; [exact B1|]. split; [exact B2|]. split; [exact B3|]. split; [rewrite B4, CN, Nat.eqb_refl; reflexivity|].
    intros u N. rewrite B4. rewrite (proj2 (Nat.eqb_neq u t) N). lia. }
  (* out with a result *)
  assert (OUT : forall p2 o2 r, InvS p2 (set (hold_of p) t []) -> InvG p2 -> ngrp p2 = ngrp p1 -> kept p1 p2 -> along p1 p2 o2 -> (forall st mm, lim st t = Some (mm, inf) -> cnt st t = reports o1 -> fair st (ORet t r)) -> (calm v -> (0 < active p2)%nat -> updq p2 = []) ->
     exists p' o, Ok (w_thr p2 t TOut, o1 ++ o2 ++ [ORet t r]) = Ok (p', o) /\ Inv p' /\ (forall st, Rel st p -> legal st o /\ Rel (ends st o) p') /\ (calm v -> InvU p -> InvU p') /\ grown p p').
  { intros p2 o2 r I2 G2 NG2 K2 A2 FR U2. do 2 eexists. split; [reflexivity|]. assert (TH : forall u, thr (w_thr p2 t TOut) u = set (thr p) t TOut u).
    { intros u. ww. unfold set. destruct (Nat.eqb u t); [reflexivity|]. destruct K2 as (_ & _ & _ & _ & _ & K2 & _). rewrite K2. apply TH1. }
    split; [|split; [|split; [|left; ww; rewrite NG2; exact N1]]].
    - split; [|split; [|split]].
      + apply (inv_hold _ (set (hold_of p) t [])); [apply (hold_set p _ t TOut TH)|]. apply (inv_ext p2 _ _ I2); reflexivity.
      + apply (groups_ext p2 _ G2); reflexivity.
      + apply (kept_C p1 p2 C1 K2).
      + apply (in_less p _ t IT); [congruence|ww; destruct K2 as (_ & -> & _); exact AC1|exact TH].
    - intros st RR. destruct (ST st RR) as (mm & LM & LE & B1 & B2 & B3 & B4 & B5). destruct (A2 _ B2) as (D1 & D2 & D3 & D4). rewrite app_assoc, ends_snoc, ends_app. split.
      + apply legal_snoc; [apply legal_app; auto|]. rewrite ends_app. apply (FR _ mm); [rewrite D3, B3; exact LM|rewrite D4; exact B4].
      + split; [apply (rel_ext _ _ p2 _ D2); auto|]. apply (rel_out st p _ t (proj2 RR) TH). intros u N. rewrite D3, D4, B3, (B5 u N). auto.
    - intros C _. unfold InvU. ww. apply U2, C. }
  destruct (reports o1) as [|n] eqn:RP.
  - destruct (negb inf && late) eqn:LT.
    + destruct (polling_ok v p1 _ I1 G1) as (p2 & t2 & o2 & Y & I2 & G2 & NG2 & K2 & U2 & A2 & _ & _). rewrite Y. cbn [bind]. apply OUT; auto.
      * intros st mm LM CN. exists mm, inf. split; [exact LM|]. split; [auto|]. intros _. destruct inf; [discriminate|reflexivity].
      * intros C A. apply U2; [exact C|]. destruct K2 as (_ & K2 & _). lia.
    + destruct (enter_ok v p1 t m inf _ I1 G1) as (p2 & o & ok & Y & I2 & G2 & NG2 & K2 & A2 & U2 & F2). rewrite Y. cbn [bind fst snd]. destruct ok.
      * do 2 eexists. split; [reflexivity|]. assert (TH2 : forall u, thr p2 u = thr p u) by (intros u; destruct K2 as (_ & _ & _ & _ & _ & K2 & _); rewrite K2; apply TH1).
        assert (AC2 : active p2 = pred (active p)) by (destruct K2 as (_ & -> & _); exact AC1).
        assert (TH : forall u, thr (w_thr (w_active p2 (S (active p2))) t (TIn m inf)) u = set (thr p) t (TIn m inf) u) by (intros u; ww; unfold set; destruct (Nat.eqb u t); auto).
        split; [|split; [|split; [|left; ww; rewrite NG2; exact N1]]].
        -- split; [|split; [|split]].
           ++ apply (inv_hold _ (set (hold_of p) t [])); [apply (hold_set p _ t (TIn m inf) TH)|]. apply (inv_ext p2 _ _ I2); reflexivity.
           ++ apply (groups_ext p2 _ G2); reflexivity.
           ++ apply (kept_C p1 p2 C1 K2).
           ++ apply (in_same p _ IT); [ww; lia|]. intros u. rewrite TH. unfold set. destruct (Nat.eqb_spec u t) as [->|N]; [rewrite T; split; discriminate|reflexivity].
        -- intros st RR. destruct (ST st RR) as (mm & LM & LE & B1 & B2 & B3 & B4 & B5). destruct (A2 _ B2) as (D1 & D2 & D3 & D4). rewrite legal_app, ends_app. split; [auto|]. split; [apply (rel_ext _ _ p2 _ D2); auto|].
           intros u. unfold relT, waits. rewrite TH, D3, D4, B3. unfold set. destruct (Nat.eqb_spec u t) as [->|N]; [exists mm; auto|]. rewrite (B5 u N). apply RR.
        -- intros _ _ _. apply U2. reflexivity.
      * apply OUT; auto; [|intros C; destruct (F2 eq_refl C)]. intros st mm LM CN. exists mm, inf. auto.
  - destruct (polling_ok v p1 _ I1 G1) as (p2 & t2 & o2 & Y & I2 & G2 & NG2 & K2 & U2 & A2 & _ & _). rewrite Y. cbn [bind]. apply OUT; auto.
    * intros st mm LM CN. exists mm, inf. split; [exact LM|]. split; [auto|discriminate].
    * intros C A. apply U2; [exact C|]. destruct K2 as (_ & K2 & _). lia.
Qed.

Lemma step_stop p t timeout v : Inv p -> moves p (LStop t timeout v).
Proof.
  intros II. pose proof II as (IV & IG & IC & IT). destruct (thr p t) as [|m inf|l0 m0 i0] eqn:T; [apply (stays p _ II); cbn; rewrite T; reflexivity| |apply (stays p _ II); cbn; rewrite T; reflexivity].
  destruct (timeout && inf) eqn:TI; [apply (stays p _ II); cbn [step]; rewrite T, TI; reflexivity|].
  unfold moves. cbn [step]. rewrite T, TI. set (p0 := w_active p (pred (active p))). assert (HT : hold_of p t = []) by (unfold hold_of; rewrite T; reflexivity).
  destruct (polling_ok v p0 (hold_of p)) as (p1 & tch & o & X & I1 & G1 & NG1 & K1 & U1 & A1 & _ & _); [apply (inv_ext p _ _ IV); reflexivity|apply (groups_ext p _ IG); reflexivity|].
  rewrite X. cbn [bind]. do 2 eexists. split; [reflexivity|]. assert (TH : forall u, thr (w_thr p1 t TOut) u = set (thr p) t TOut u).
  { intros u. ww. unfold set. destruct (Nat.eqb u t); [reflexivity|]. destruct K1 as (_ & _ & _ & _ & _ & K1 & _). rewrite K1. reflexivity. }
  split; [|split; [|split; [|left; exact NG1]]].
  - split; [|split; [|split]].
    + apply (inv_hold _ (hold_of p)); [apply (hold_out p _ t _ TH HT I)|]. apply (inv_ext p1 _ _ I1); reflexivity.
    + apply (groups_ext p1 _ G1); reflexivity.
    + apply (kept_C p0 p1 IC K1).
    + apply (in_less p _ t IT); [congruence|ww; destruct K1 as (_ & -> & _); reflexivity|exact TH].
  - intros st RR. pose proof RR as [R RT]. pose proof (RT t) as RTt. unfold relT in RTt. rewrite T in RTt. destruct RTt as (mm & LM & CN & LE). destruct (A1 st) as (D1 & D2 & D3 & D4); [apply (rel_ext st st p p0 R); auto|].
    rewrite ends_snoc. split.
    + apply legal_snoc; [exact D1|]. cbn. exists mm, inf. rewrite D3, D4. split; [exact LM|]. destruct timeout; cbn [andb]; [|exact CN]. destruct (negb tch); [|exact CN]. split; [auto|]. intros _. exact TI.
    + split; [apply (rel_ext _ _ p1 _ D2); auto|]. apply (rel_out st p _ t RT TH). intros u N. rewrite D3, D4. auto.
  - intros C _. unfold InvU. ww. intros A. apply U1; [exact C|]. destruct K1 as (_ & K1 & _). lia.
Qed.

(* ---- the kernel ---- *)
Lemma in_tree p hold i : InvS p hold -> match find (fun e : Z * nat => Nat.eqb (snd e) i) (tree p) with Some (k, j) => j = i /\ exists s, socks p i = Some s /\ delp s = false /\ skey s = k | None => forall s, socks p i = Some s -> delp s = true end.
Proof.
  intros [GL OK]. pose proof (OK i) as OI. destruct OI as [OI _]. destruct (find _ (tree p)) as [[k j]|] eqn:F.
  - apply find_some in F as [I J]. cbn in J. apply Nat.eqb_eq in J. subst j. split; [reflexivity|]. destruct (socks p i) as [s|]; [|destruct OI as (_ & _ & _ & X); destruct (X k I)]. destruct OI as (_ & L2 & _). pose proof (proj1 (L2 k) I) as [KK D]. exists s. auto.
  - intros s E. rewrite E in OI. destruct OI as (_ & L2 & _). destruct (delp s) eqn:D; [reflexivity|]. assert (I : In (skey s, i) (tree p)) by (apply L2; auto). apply (find_none _ _ F) in I. cbn in I. rewrite Nat.eqb_refl in I. discriminate.
Qed.
Lemma step_cond p i c : Inv p -> moves p (KCond i c).
Proof.
  intros (IV & IG & IC & IT). unfold moves. cbn [step]. do 2 eexists. split; [reflexivity|]. split; [|split; [|split; [auto|left; reflexivity]]].
  - split; [apply (inv_ext p _ _ IV); reflexivity|]. split; [apply (groups_ext p _ IG); reflexivity|]. split; [exact IC|]. apply (in_same p _ IT); reflexivity.
  - intros st [R RT]. cbn. split; [exact I|]. split; [apply (rel_ext st st p _ R); auto|exact RT].
Qed.
Lemma step_close p i : Inv p -> moves p (KClose i).
Proof.
  intros II. pose proof II as (IV & IG & IC & IT). pose proof (in_tree p _ i IV) as TR. destruct (find (fun e : Z * nat => Nat.eqb (snd e) i) (tree p)) as [[k j]|] eqn:F; [|apply (stays p _ II); cbn [step]; rewrite F; reflexivity].
  unfold moves. cbn [step]. rewrite F. destruct TR as (_ & s & E & D & KK). do 2 eexists. split; [reflexivity|]. split; [|split; [|split; [auto|left; reflexivity]]].
  - split; [|split; [apply (groups_ext p _ IG); reflexivity|split; [|apply (in_same p _ IT); reflexivity]]].
    + destruct IV as [(T1 & T2 & U & DQ & C & H & HC & HH & CL) OK]. split.
      * unfold glob. ww. do 8 (split; [assumption|]). intros a. unfold set. destruct (Nat.eqb_spec a i) as [->|N]; [|apply CL]. intros _. pose proof (OK i) as [OI _]. rewrite E in OI. apply OI.
      * intros a. apply (okS_ext p _ (hold_of p) _ a (OK a)); try reflexivity; intros; reflexivity.
    + intros a q e Q1 Q2 Q3. ww. unfold set. destruct (Nat.eqb a i); [reflexivity|]. apply (IC a q e Q1 Q2 Q3).
  - intros st [R RT]. pose proof R as [R1 R2]. destruct (R1 i s E D) as (e & B1 & B2 & B3 & B4 & B5). rewrite KK in B1. cbn [legal ends fold_left after]. rewrite B1. split; [split; [cbn; congruence|exact I]|].
    split; [|exact RT]. split.
    + intros a s1 E1 D1. cbn [w_closed socks] in E1. cbn [ents]. unfold zset. destruct (Nat.eq_dec a i) as [EQ|N].
      * subst a. assert (s1 = s) by congruence. subst s1. rewrite KK, Z.eqb_refl. eexists. split; [reflexivity|]. cbn [easked edat ecl eans]. ww. rewrite set_same. auto.
      * destruct (Z.eqb_spec (skey s1) k) as [K|K]; [destruct N; apply (key_inj p (hold_of p) a i s1 s IV E1 E D1 D); congruence|]. ww. rewrite set_other by exact N. apply (R1 a s1 E1 D1).
    + intros k1 e1. cbn [ents]. unfold zset. destruct (Z.eqb_spec k1 k) as [->|K]; [intros _; exists i, s; auto|apply R2].
Qed.
Lemma honest_closed p i q e : honest p i q (KEvents e) = true -> hasb e AFD_LOCAL_CLOSE = true -> closed p i = true.
Proof.
  unfold honest. intros H L. apply andb_true_iff in H as [H _]. apply Z.eqb_eq in H. subst e. change AFD_LOCAL_CLOSE with (2 ^ 5) in L. rewrite hasb_pow in L by lia. rewrite Z.lor_spec, !Z.land_spec, Z.lnot_spec, (Z.pow2_bits_true 5), andb_false_r in L by lia.
  cbn [orb] in L. rewrite on_bit in L by lia. apply andb_true_iff in L. tauto.
Qed.
Lemma step_done p i a : Inv p -> moves p (KDone i a).
Proof.
  intros II. pose proof II as (IV & IG & IC & IT). destruct (req p i) as [q|] eqn:RQ; [|apply (stays p _ II); cbn [step]; rewrite RQ; reflexivity].
  destruct (kdone q) as [a0|] eqn:KD; [apply (stays p _ II); cbn [step]; rewrite RQ, KD; reflexivity|]. destruct (honest p i q a) eqn:HN; [|apply (stays p _ II); cbn [step]; rewrite RQ, KD, HN; reflexivity].
  unfold moves. cbn [step]. rewrite RQ, KD, HN. do 2 eexists. split; [reflexivity|]. set (q' := mkq (kmask q) (kcan q) (Some a)). set (p' := w_cq (w_req p i (Some q')) (cq p ++ [i])).
  assert (R1 : req p' i = Some q') by apply set_same. assert (R2 : forall j, j <> i -> req p' j = req p j) by (intros j N; apply set_other, N).
  pose proof IV as [(T1 & T2 & U & DQ & C & H & HC & HH & CL) OK]. pose proof (OK i) as OI. destruct OI as [OI DN]. assert (ND : ~ done p i) by (intros (q0 & a0 & X & Y); congruence). rewrite DN in ND.
  split; [|split; [|split; [auto|left; reflexivity]]].
  - split; [|split; [apply (groups_ext p _ IG); reflexivity|split; [|apply (in_same p _ IT); reflexivity]]].
    + apply (inv_hold p' (hold_of p)); [reflexivity|]. split.
      * unfold glob, p'. ww. do 4 (split; [assumption|]). split; [apply nd_snoc; [exact C|tauto]|]. split; [exact H|]. split; [|split; [exact HH|exact CL]].
        intros t j I. rewrite in_app_iff. cbn. intros [J|[J|[]]]; [apply (HC t j I J)|]. subst j. apply ND. eauto.
      * intros j. destruct (Nat.eq_dec j i) as [EQ|N].
        -- subst j. unfold okS. change (socks p' i) with (socks p i). split.
           ++ destruct (socks p i) as [s|]; [|destruct OI as [X _]; congruence]. destruct OI as (L1 & L2 & L3 & L4 & L5 & L6 & L7). unfold live. do 6 (split; [assumption|]). unfold stat in *. rewrite R1, RQ in *.
              destruct (pst s); [destruct L7; discriminate| |].
              ** destruct L7 as (q0 & X & Y). injection X as <-. exists q'. split; [reflexivity|exact Y].
              ** destruct L7 as (q0 & X & Y & _). exists q'. split; [reflexivity|]. split; [exact Y|]. right. discriminate.
           ++ split; [intros _; left; unfold p'; ww; apply in_app_iff; cbn; auto|]. intros _. exists q', a. auto.
        -- apply (okS_ext p p' (hold_of p) _ j (OK j)); try reflexivity; try (intros; reflexivity); [apply R2, N|]. unfold p'. ww. rewrite in_app_iff. cbn. intuition congruence.
    + intros j q0 e Q1 Q2 Q3. change (closed p' j) with (closed p j). destruct (Nat.eq_dec j i) as [EQ|N].
      * subst j. assert (q0 = q') by congruence. subst q0. cbn in Q2. injection Q2 as ->. apply (honest_closed p i q e HN Q3).
      * rewrite R2 in Q1 by exact N. apply (IC j q0 e Q1 Q2 Q3).
  - intros st [R RT]. pose proof R as [RE1 RE2]. pose proof (in_tree p _ i IV) as TR. destruct (find (fun e : Z * nat => Nat.eqb (snd e) i) (tree p)) as [[k j]|] eqn:F.
    + destruct TR as (_ & s & E & D & KK). destruct (RE1 i s E D) as (e & B1 & B2 & B3 & B4 & B5). rewrite KK in B1. cbn [legal ends fold_left after]. rewrite B1. split; [split; [cbn; congruence|exact I]|]. split; [|exact RT]. split.
      * intros b s1 E1 D1. cbn [ents]. unfold zset. change (socks p' b) with (socks p b) in E1. change (closed p' b) with (closed p b). destruct (Nat.eq_dec b i) as [EQ|N].
        -- subst b. assert (s1 = s) by congruence. subst s1. rewrite KK, Z.eqb_refl. eexists. split; [reflexivity|]. cbn [easked edat ecl eans]. split; [exact B2|]. split; [exact B3|]. split; [exact B4|]. intros q0 a1 Y1 Y2. assert (q0 = q') by congruence. subst q0. exact Y2.
        -- destruct (Z.eqb_spec (skey s1) k) as [K|K]; [destruct N; apply (key_inj p (hold_of p) b i s1 s IV E1 E D1 D); congruence|]. rewrite R2 by exact N. apply (RE1 b s1 E1 D1).
      * intros k1 e1. cbn [ents]. unfold zset. destruct (Z.eqb_spec k1 k) as [->|K]; [intros _; exists i, s; auto|apply RE2].
    + cbn [legal ends fold_left]. split; [exact I|]. split; [|exact RT]. apply (rel_same st p p' i R); auto.
Qed.

Lemma step_ok p l : Inv p -> moves p l.
Proof. destruct l; [apply step_ctl|apply step_wait|apply step_take|apply step_feed|apply step_stop|apply step_cond|apply step_close|apply step_done]. Qed.
Lemma run_ok : forall ls p, Inv p -> exists p' o, run p ls = Ok (p', o) /\ Inv p' /\ (forall st, Rel st p -> legal st o /\ Rel (ends st o) p') /\ (Forall cool ls -> InvU p -> InvU p').
Proof.
  induction ls as [|l r IH]; intros p IV.
  - exists p, []. split; [reflexivity|]. split; [exact IV|]. split; [intros st R; cbn; auto|auto].
  - destruct (step_ok p l IV) as (p1 & o1 & X & I1 & R1 & U1 & _). destruct (IH p1 I1) as (p2 & o2 & Y & I2 & R2 & U2). exists p2, (o1 ++ o2). cbn [run]. rewrite X. cbn [bind fst snd]. rewrite Y. cbn [bind fst snd]. split; [reflexivity|]. split; [exact I2|]. split.
    + intros st R. destruct (R1 st R) as [A B]. destruct (R2 _ B) as [C D]. rewrite legal_app, ends_app. auto.
    + intros F U. apply Forall_cons_iff in F as [F1 F2]. auto.
Qed.
Lemma start_inv c : Inv (port0 c).
Proof.
  split; [|split; [|split]].
  - split.
    + unfold glob, port0, hold_of. cbn. repeat split; try constructor; try (intros; contradiction); discriminate.
    + intros i. unfold okS, port0, dead, done, hold_of. cbn. split; [repeat split; auto|]. split; [intros (q & a & X & _); discriminate|intros [[]|[t []]]].
  - unfold InvG, port0. cbn. split; [constructor|]. split; [intros; contradiction|]. split; [discriminate|]. split; [exists [], []; repeat split; constructor|]. intros; lia.
  - intros i q e Q. discriminate.
  - exists []. split; [constructor|]. split; [|reflexivity]. intros t. cbn. split; [contradiction|]. intros H. apply H. reflexivity.
Qed.
Definition st0 : sst := mkst (fun _ => None) (fun _ => None) (fun _ => O).
Lemma start_rel c : Rel st0 (port0 c).
Proof. split; [split; [intros i s E; discriminate|intros k e E; discriminate]|]. intros t. reflexivity. Qed.
