(* Invariant of the heaps: each is in one place. *)
From Coq Require Import List Bool Arith Lia.
From Verif Require Import Base HpModel.
Import ListNotations.

Lemma upd_same : forall A (f : nat -> A) x v, upd f x v x = v.
Proof. intros. unfold upd. rewrite Nat.eqb_refl. reflexivity. Qed.
Lemma upd_other : forall A (f : nat -> A) x v y, y <> x -> upd f x v y = f y.
Proof. intros A f x v y H. unfold upd. destruct (Nat.eqb_spec y x); congruence. Qed.

(* the list of orphans in memory *)
Fixpoint chain (n : nat -> option nat) (o : option nat) (q : list nat) : Prop :=
  match q with
  | [] => o = None
  | x :: r => o = Some x /\ chain n (n x) r
  end.

Lemma chain_upd : forall n q o x v, chain n o q -> ~ In x q -> chain (upd n x v) o q.
Proof.
  intros n. induction q as [|y q IH]; intros o x v H Hn; [exact H|]. destruct H as (-> & H). cbn in Hn. cbn.
  split; [reflexivity|]. rewrite upd_other by (intros E; apply Hn; left; congruence). apply IH; [exact H|tauto].
Qed.

(* the heap a thread has by its place *)
Definition has (p : pc) (x : nat) : Prop :=
  match p with
  | A4 h j e | A4w h j e => x = h \/ (j <= x < e)
  | A5 (Some h) | A6 h | A7 h | Run h | Dir h | R1 h | R2 h | R3 h | R4 h | R5 h | R6 h => x = h
  | _ => False
  end.
Definition crit (p : pc) : Prop :=
  match p with A1 | A2 _ | A3 | A4 _ _ _ | A4w _ _ _ | A5 _ | R4 _ | R5 _ | R6 _ | R7 => True | _ => False end.
Definition holds (s : st) (t x : nat) : Prop := tls s t = Some x \/ has (at_ s t) x.

(* the thread's heap as its place says it *)
Definition fits (p : pc) (o : option nat) : Prop :=
  match p with
  | M0 | M4 | Idle | R0 => True
  | M5 => True
  | M1 | M2 | M3 | S0 => False
  | A7 h | Run h | Dir h => o = Some h
  | R1 h | R2 h => o = Some h \/ o = None
  | _ => o = None
  end.
(* the shape of the list while it is changed *)
Definition shape (s : st) (p : pc) (q : list nat) : Prop :=
  match p with
  | A2 o => hd s = o
  | A3 => q = []
  | A4 h j e => h < j < e /\ e <= fresh s /\ owner s h = None
  | A4w h j e => h < j < e /\ e <= fresh s /\ nxt s j = hd s /\ owner s h = None
  | A5 (Some h) | A6 h | A7 h => owner s h = None
  | R5 h => owner s h = None
  | R6 h => nxt s h = hd s /\ owner s h = None
  | _ => True
  end.
Definition owned (p : pc) (o : option nat) (x : nat) : Prop :=
  (o = Some x /\ match p with A7 _ => False | _ => True end) \/
  match p with R1 h | R2 h | R3 h | R4 h => h = x | _ => False end.

Record Inv (s : st) (q : list nat) : Prop := {
  V_init : inited s = true /\ key s = true;
  V_lock : lock s = false -> forall t, ~ crit (at_ s t);
  V_one : forall t u, crit (at_ s t) -> crit (at_ s u) -> t = u;
  V_held : lock s = true -> exists t, crit (at_ s t);
  V_chain : chain (nxt s) (hd s) q;
  V_nodup : NoDup q;
  V_queue : forall x, In x q -> x < fresh s /\ owner s x = None /\ forall t, ~ holds s t x;
  V_holds : forall t x, holds s t x -> x < fresh s /\ forall u, holds s u x -> u = t;
  V_all : forall x, x < fresh s -> In x q \/ exists t, holds s t x;
  V_fits : forall t, fits (at_ s t) (tls s t);
  V_shape : forall t, shape s (at_ s t) q;
  V_owner : forall x t, owner s x = Some t -> owned (at_ s t) (tls s t) x }.

Definition keeps_lock (s s' : st) (t : nat) : Prop :=
  (lock s' = lock s /\ (crit (at_ s t) <-> crit (at_ s' t))) \/ (lock s = false /\ lock s' = true /\ crit (at_ s' t)) \/
  (crit (at_ s t) /\ ~ crit (at_ s' t) /\ lock s' = false).

Lemma inv_step : forall s q t s' q', Inv s q ->
  inited s' = true -> key s' = true ->
  (forall u, u <> t -> at_ s' u = at_ s u /\ tls s' u = tls s u) ->
  keeps_lock s s' t ->
  chain (nxt s') (hd s') q' -> NoDup q' -> fresh s <= fresh s' ->
  (forall x, In x q' -> x < fresh s' /\ owner s' x = None /\ ~ holds s' t x /\ forall u, u <> t -> ~ holds s u x) ->
  (forall x, holds s' t x -> x < fresh s' /\ forall u, u <> t -> ~ holds s u x) ->
  (forall x, x < fresh s' -> In x q' \/ holds s' t x \/ exists u, u <> t /\ holds s u x) ->
  fits (at_ s' t) (tls s' t) -> shape s' (at_ s' t) q' ->
  (forall u x, u <> t -> holds s u x -> owner s' x = owner s x) ->
  (crit (at_ s t) \/ crit (at_ s' t) \/ (hd s' = hd s /\ (forall x, nxt s' x = nxt s x) /\ q' = q)) ->
  (forall x u, owner s' x = Some u -> if Nat.eqb u t then owned (at_ s' t) (tls s' t) x else owner s x = Some u) ->
  Inv s' q'.
Proof.
  intros s q t s' q' H I1 I2 Fr LK Ch ND Fm Qu Ho Al Fi Sh Ow Un Ow2.
  destruct H as [Vi Vl Vo Vh Vc Vn Vq Vhold Va Vf Vs Vw].
  assert (HO : forall u x, u <> t -> (holds s' u x <-> holds s u x)).
  { intros u x Hu. destruct (Fr u Hu) as (A & B). unfold holds. rewrite A, B. tauto. }
  assert (NC : crit (at_ s t) \/ crit (at_ s' t) -> forall u, u <> t -> ~ crit (at_ s u)).
  { intros Hc u Hu Hcu. destruct LK as [(E & C)|[(E & E' & C)|(C & _)]].
    - assert (Hct : crit (at_ s t)) by tauto. apply Hu. apply Vo; assumption.
    - apply (Vl E u Hcu).
    - apply Hu. apply Vo; assumption. }
  constructor.
  - auto.
  - intros Hl u Hu. destruct (Nat.eq_dec u t) as [->|Ne].
    + destruct LK as [(E & C)|[(E & E' & C)|(_ & C & _)]]; [|congruence|contradiction].
      rewrite E in Hl. apply (Vl Hl t). tauto.
    + destruct (Fr u Ne) as (A & _). rewrite A in Hu.
      destruct LK as [(E & C)|[(E & E' & C)|(C & _)]]; [|congruence|].
      * rewrite E in Hl. exact (Vl Hl u Hu).
      * exact (NC (or_introl C) u Ne Hu).
  - intros u v Hu Hv.
    destruct (Nat.eq_dec u t) as [->|Nu], (Nat.eq_dec v t) as [->|Nv]; auto.
    + exfalso. destruct (Fr v Nv) as (A & _). rewrite A in Hv. exact (NC (or_intror Hu) v Nv Hv).
    + exfalso. destruct (Fr u Nu) as (A & _). rewrite A in Hu. exact (NC (or_intror Hv) u Nu Hu).
    + destruct (Fr u Nu) as (A & _), (Fr v Nv) as (B & _). rewrite A in Hu. rewrite B in Hv. apply Vo; assumption.
  - intros Hl. destruct LK as [(E & C)|[(E & E' & C)|(_ & _ & C)]]; [| |congruence].
    + rewrite E in Hl. destruct (Vh Hl) as (u & Hu). exists u. destruct (Nat.eq_dec u t) as [->|Ne]; [tauto|].
      destruct (Fr u Ne) as (A & _). rewrite A. exact Hu.
    + exists t. exact C.
  - exact Ch.
  - exact ND.
  - intros x Hx. destruct (Qu x Hx) as (A & B & C & D). split; [exact A|]. split; [exact B|]. intros u Hu.
    destruct (Nat.eq_dec u t) as [->|Ne]; [exact (C Hu)|]. apply (D u Ne). apply (HO u x Ne), Hu.
  - intros u x Hu. destruct (Nat.eq_dec u t) as [->|Ne].
    + destruct (Ho x Hu) as (A & B). split; [exact A|]. intros v Hv. destruct (Nat.eq_dec v t) as [->|Nv]; [reflexivity|].
      exfalso. apply (B v Nv). apply (HO v x Nv), Hv.
    + assert (Hu' := proj1 (HO u x Ne) Hu). destruct (Vhold u x Hu') as (A & B). split; [lia|]. intros v Hv.
      destruct (Nat.eq_dec v t) as [->|Nv].
      * exfalso. destruct (Ho x Hv) as (_ & C). exact (C u Ne Hu').
      * apply B. apply (HO v x Nv), Hv.
  - intros x Hx. destruct (Al x Hx) as [A|[A|(u & Ne & A)]]; [auto|right; eauto|right; exists u; apply (HO u x Ne), A].
  - intros u. destruct (Nat.eq_dec u t) as [->|Ne]; [exact Fi|]. destruct (Fr u Ne) as (A & B). rewrite A, B. apply Vf.
  - intros u. destruct (Nat.eq_dec u t) as [->|Ne]; [exact Sh|]. destruct (Fr u Ne) as (A & B). rewrite A.
    pose proof (Vs u) as Su.
    assert (HH : forall x, has (at_ s u) x -> owner s' x = owner s x) by (intros x Hx; apply (Ow u x Ne); right; exact Hx).
    destruct Un as [Un|[Un|(E1 & E2 & E3)]].
    + pose proof (NC (or_introl Un) u Ne) as Nc. destruct (at_ s u) as [| | | | | | | | | |o| | | |o| | | | | | | | | | | | |] eqn:Ea; cbn in *; try tauto; rewrite HH; auto.
    + pose proof (NC (or_intror Un) u Ne) as Nc. destruct (at_ s u) as [| | | | | | | | | |o| | | |o| | | | | | | | | | | | |] eqn:Ea; cbn in *; try tauto; rewrite HH; auto.
    + subst q'. destruct (at_ s u) as [| | | | | | | | | |o| |h j e|h j e|o| | | | | | | | | | | | |] eqn:Ea; cbn in *; try tauto; try congruence.
      * rewrite HH by auto. intuition lia.
      * rewrite HH, E1, E2 by auto. intuition lia.
      * destruct o; [rewrite HH by auto|]; tauto.
      * rewrite HH by auto. tauto.
      * rewrite HH by auto. tauto.
      * rewrite HH by auto. tauto.
      * rewrite HH, E1, E2 by auto. tauto.
  - intros x u Hx. pose proof (Ow2 x u Hx) as Hw. destruct (Nat.eqb_spec u t) as [E|Ne]; [rewrite E; exact Hw|].
    destruct (Fr u Ne) as (A & B). rewrite A, B. apply Vw, Hw.
Qed.

Ltac simp := unfold go, set_lock, set_hd, set_nxt, set_owner, set_tls, set_fresh in *; cbn [inited key lock hd nxt owner tls fresh at_] in *;
  rewrite ?upd_same in *.
Ltac others := intros ? ?; cbn; rewrite ?upd_other by assumption; split; reflexivity.

(* only the place changes *)
Lemma inv_go : forall s q t p, Inv s q -> (forall x, has p x -> holds s t x) ->
  (forall x, has (at_ s t) x -> tls s t = Some x \/ has p x) -> (crit (at_ s t) <-> crit p) -> fits p (tls s t) ->
  shape s p q -> (forall x, owned (at_ s t) (tls s t) x -> owned p (tls s t) x) -> Inv (go s t p) q.
Proof.
  intros s q t p H Hh Hk Hc Hf Hs Ho. assert (H0 := H). destruct H as [Vi Vl Vo Vh Vc Vn Vq Vhold Va Vf Vs Vw].
  assert (HO : forall x, holds (go s t p) t x -> holds s t x).
  { intros x [E|E]; simp; [left; exact E|]. apply Hh, E. }
  assert (HO2 : forall x, holds s t x -> holds (go s t p) t x).
  { intros x [E|E]; [left; simp; exact E|]. destruct (Hk x E); [left|right]; simp; assumption. }
  apply (inv_step s q t); simp; try apply Vi; auto.
  - others.
  - left. simp. split; [reflexivity|tauto].
  - intros x Hx. destruct (Vq x Hx) as (A & B & C). split; [exact A|]. split; [exact B|]. split; [intros E; exact (C t (HO x E))|].
    intros u _. apply C.
  - intros x Hx. apply HO in Hx. destruct (Vhold t x Hx) as (A & B). split; [exact A|]. intros u Hu E. apply Hu, B, E.
  - intros x Hx. destruct (Va x Hx) as [A|(u & A)]; [auto|]. destruct (Nat.eq_dec u t) as [->|Ne]; [right; left; apply HO2, A|].
    right. right. eauto.
  - intros x u E. destruct (Nat.eqb_spec u t) as [->|]; [apply Ho, Vw, E|exact E].
Qed.
