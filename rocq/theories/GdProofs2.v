(* Who hears of an exception; and the schedules for which guards go wrong *)
From Coq Require Import List Arith Bool Lia.
From Verif Require Import Base GdModel GdProofs.
Import ListNotations.

(* all flows of the process are looked at together *)
Definition all : nat -> nat := fun _ => 0.

(* the flows with an open guard, that of the innermost first *)
Definition order (l : list (nat * op)) : list nat := fold_left ord_step l [].

Definition some_ {A} (l : list A) : bool := match l with [] => false | _ => true end.

Fixpoint hchain (H : list (nat * frame)) : Prop :=
  match H with [] => True | x :: r => fr_set (snd x) = some_ r /\ hchain r end.

Record hinv (s : st) (q : list nat) (H : list (nat * frame)) : Prop := {
  h_q : map fst H = q;
  h_fr : forall f, frames s f = of f H;
  h_hook : hook s = some_ H;
  h_ch : hchain H }.

Section P.
Variable th : nat -> nat.
Variable tsk : nat -> bool.

Lemma all_next (q o : nat -> list nat) f a : (forall t, o t = filter (fun g => th g =? t) (q 0)) ->
  match a with Leave => hd_error (q 0) = Some f | _ => True end ->
  forall t, put o (th f) (ord_step (o (th f)) (f, a)) t =
    filter (fun g => th g =? t) (put q 0 (ord_step (q 0) (f, a)) 0).
Proof.
  intros R L t. rewrite put_same. unfold put. destruct a as [k| | |]; cbn [ord_step].
  - destruct (Nat.eqb_spec t (th f)) as [-> |]; apply R.
  - cbn [filter]. destruct (Nat.eqb_spec t (th f)) as [-> |]; [rewrite Nat.eqb_refl; now rewrite R|].
    destruct (Nat.eqb_spec (th f) t); [congruence|apply R].
  - destruct (q 0) as [|g r] eqn:E; [discriminate|]. injection L as ->. rewrite !R. cbn [filter tl].
    destruct (Nat.eqb_spec t (th f)) as [-> |]; [now rewrite Nat.eqb_refl|].
    destruct (Nat.eqb_spec (th f) t); [congruence|reflexivity].
  - destruct (Nat.eqb_spec t (th f)) as [-> |]; apply R.
Qed.

Lemma all_hd (q : nat -> list nat) (o : nat -> list nat) f : (forall t, o t = filter (fun g => th g =? t) (q 0)) ->
  hd_error (q 0) = Some f -> hd_error (o (th f)) = Some f.
Proof.
  intros R. rewrite R. destruct (q 0); [discriminate|]. intros [= ->]. cbn. now rewrite Nat.eqb_refl.
Qed.

Lemma run_both l : forall s p q o G H, inv th tsk s p o G -> hinv s (q 0) H ->
  (forall t, o t = filter (fun g => th g =? t) (q 0)) -> nested all q l ->
  exists s' o' G' H', run th tsk s l = Ok s' /\ inv th tsk s' (fold_left sp_step l p) o' G' /\
    hinv s' (fold_left ord_step l (q 0)) H' /\ (forall t, o' t = filter (fun g => th g =? t) (fold_left ord_step l (q 0))).
Proof.
  induction l as [|(f & a) l IH]; intros s p q o G H V W R N.
  - exists s, o, G, H. auto.
  - cbn [nested] in N. unfold all in N at 1 2 3 4. destruct N as [C N].
    assert (R' := all_next q o f a R). cbn [run step fold_left].
    rewrite <- (put_same _ q 0 (ord_step (q 0) (f, a))).
    destruct a as [k| | |].
    + specialize (R' Logic.I).
      assert (C' : o (th f) = [] \/ hd_error (o (th f)) = Some f).
      { destruct C as [C|C]; [left; now rewrite R, C|right; eapply all_hd; eauto]. }
      destruct (step_defer th tsk _ _ _ _ f k V C') as (s' & E & V' & E1 & E2 & _). rewrite E. cbn [bind].
      eapply IH; [exact V'| |exact R'|exact N].
      rewrite put_same. destruct W. constructor; [exact h_q0|intro; rewrite E2; auto|rewrite E1; auto|exact h_ch0].
    + specialize (R' Logic.I).
      destruct (step_enter th tsk _ _ _ _ f V) as (s' & E & V' & E1 & E2). rewrite E. cbn [bind].
      set (fr := mkF _ _ _) in *.
      eapply IH with (H := (f, fr) :: H); [exact V'| |exact R'|exact N].
      rewrite put_same. destruct W. constructor.
      * cbn. now rewrite h_q0.
      * intro g. rewrite E2. unfold upd. destruct (Nat.eqb_spec g f) as [-> |Q].
        -- rewrite of_cons_same. now rewrite h_fr0.
        -- now rewrite of_cons_other by auto.
      * exact E1.
      * cbn. auto.
    + specialize (R' C).
      pose proof (all_hd _ _ _ R C) as C'.
      destruct (step_leave th tsk _ _ _ _ f V C') as (s' & fr & r & E & EG & V' & E1 & E2 & E3). rewrite E. cbn [bind].
      destruct W. destruct H as [|(g & fr') H]; [cbn in h_q0; rewrite <- h_q0 in C; discriminate|].
      cbn in h_q0. rewrite <- h_q0 in C. injection C as ->.
      assert (fr' = fr /\ of f H = of f r).
      { pose proof (h_fr0 f) as K. rewrite of_cons_same, E2 in K. injection K as K1 K2. auto. }
      destruct H0 as [-> HO].
      eapply IH with (H := H); [exact V'| |exact R'|exact N].
      rewrite put_same. cbn [ord_step]. rewrite <- h_q0. cbn [tl]. destruct h_ch0 as [CH1 CH2]. constructor.
      * reflexivity.
      * intro g. rewrite E3. unfold upd. destruct (Nat.eqb_spec g f) as [-> |Q]; [congruence|].
        rewrite h_fr0. now rewrite of_cons_other by auto.
      * rewrite E1. exact CH1.
      * exact CH2.
    + specialize (R' Logic.I).
      destruct (step_finish th tsk _ _ _ _ f V) as (s' & E & V' & E1 & E2 & _). rewrite E. cbn [bind].
      eapply IH; [exact V'| |exact R'|exact N].
      rewrite put_same. destruct W. constructor; [exact h_q0|intro; rewrite E2; auto|rewrite E1; auto|exact h_ch0].
Qed.

Lemma throw_ok l : nested all none_open l ->
  exists s, run th tsk init l = Ok s /\ out s = ran (sp_run l) /\
    (order l = [] -> forall f, throw th s f = Ok Usual) /\
    (forall f, hd_error (order l) = Some f ->
       exists b c, throw th s f = Ok (InGuard b) /\ nth_error (heap s) b = Some c /\ live c = true /\ owner c = f /\
         hd_error (gs (sp_run l) f) = Some (fns c)).
Proof.
  intro N.
  destruct (run_both l init sp0 none_open none_open (fun _ => []) []) as (s & o & G & H & E & V & W & R);
    [apply inv0|constructor; cbn; auto|reflexivity|exact N|].
  exists s. split; [exact E|]. split; [exact (i_out _ _ _ _ _ _ V)|].
  change (none_open 0) with (@nil nat) in W, R. fold (order l) in W, R. split.
  - intros Q f. unfold throw. rewrite (h_hook _ _ _ W). pose proof (h_q _ _ _ W) as K. rewrite Q in K.
    apply map_eq_nil in K. subst H. reflexivity.
  - intros f Q.
    assert (Q' : hd_error (o (th f)) = Some f) by (apply (all_hd (fun _ => order l)); auto).
    destruct (hd_G _ _ _ _ _ _ _ _ V Q') as (fr & r & EG).
    destruct (not_top _ _ _ _ _ _ _ _ _ _ V EG) as (_ & F & _).
    destruct (i_live _ _ _ _ _ _ V (th f) f fr) as (fl & L); [rewrite EG; now left|].
    exists (fr_block fr), (mkB true fl f). repeat split.
    + unfold throw. rewrite (h_hook _ _ _ W). pose proof (h_q _ _ _ W) as K.
      destruct H as [|x H]; [cbn in K; rewrite <- K in Q; discriminate|]. cbn [some_].
      rewrite (i_loc _ _ _ _ _ _ V), EG. cbn. now rewrite (rd_ok _ _ _ L).
    + exact L.
    + fold (sp_run l) in V. rewrite (i_gs _ _ _ _ _ _ V), F. cbn. unfold body. now rewrite L.
Qed.
End P.

(* ---- Schedules for which it goes wrong ---- *)
Definition one (f : nat) : nat := 0.
Definition yes (f : nat) : bool := true.

(* a task without a guard defers while another task of its thread is in one *)
Lemma foreign k : exists s, run one yes init [(1, Enter); (2, Defer k); (1, Leave)] = Ok s /\
  out s = [(1, k)] /\ ran (sp_run [(1, Enter); (2, Defer k); (1, Leave)]) = [].
Proof. eexists. split; [cbv; reflexivity|]. split; reflexivity. Qed.

(* two tasks of a thread in guards: what the first defers runs at the end of the second's *)
Lemma inner k : exists s, run one yes init [(1, Enter); (2, Enter); (1, Defer k); (2, Leave)] = Ok s /\
  out s = [(2, k)] /\ ran (sp_run [(1, Enter); (2, Enter); (1, Defer k); (2, Leave)]) = [].
Proof. eexists. split; [cbv; reflexivity|]. split; reflexivity. Qed.

(* the first to enter leaves first: the second's defer uses a null pointer *)
Lemma null_ k : run one yes init [(1, Enter); (2, Enter); (1, Leave); (2, Defer k)] = UB.
Proof. reflexivity. Qed.

(* after both left, the thread's arena is the first's freed block: a further guard, used as it should be,
   leaves the thread such that the next defer of any task reads it, and so does an exception at once *)
Definition crossed : list (nat * op) := [(1, Enter); (2, Enter); (1, Leave); (2, Leave)].

Lemma dangling f g k : exists s, run one yes init crossed = Ok s /\ order crossed = [] /\
  throw one s f = UB /\ run one yes s [(g, Enter); (g, Leave); (g, Defer k)] = UB.
Proof.
  eexists. split; [cbv; reflexivity|]. split; [reflexivity|]. split; [reflexivity|].
  unfold run, step, enter, leave, yes, one. cbn -[Nat.eqb]. rewrite !upd_same.
  cbn. unfold defer, is_guarded, get_scope. cbn -[Nat.eqb]. rewrite !upd_same. reflexivity.
Qed.

(* threads that run no tasks *)
Definition same (f : nat) : nat := f.
Definition no (f : nat) : bool := false.

(* a thread without a guard, while another thread is in one: the program's own handler is not called *)
Lemma hushed : exists s, run same no init [(1, Enter)] = Ok s /\ gs (sp_run [(1, Enter)]) 2 = [] /\
  forall f, f <> 1 -> throw same s f = Ok NoOne.
Proof.
  eexists. split; [reflexivity|]. split; [reflexivity|]. intros f N. unfold throw, same. cbn [hook arena loc].
  now rewrite upd_other by exact N.
Qed.

(* two threads: the first to enter leaves first; the second is in its guard, but the guard is not told *)
Lemma deaf : exists s, run same no init [(1, Enter); (2, Enter); (1, Leave)] = Ok s /\
  gs (sp_run [(1, Enter); (2, Enter); (1, Leave)]) 2 = [[]] /\ throw same s 2 = Ok Usual.
Proof. eexists. split; [cbv; reflexivity|]. split; reflexivity. Qed.

(* and once both have left nobody hears of exceptions any more *)
Lemma mute : exists s, run same no init crossed = Ok s /\ order crossed = [] /\ forall f, throw same s f = Ok NoOne.
Proof.
  eexists. split; [reflexivity|]. split; [reflexivity|]. intro f. unfold throw, same. cbn -[Nat.eqb upd].
  unfold upd. destruct (f =? 2); [reflexivity|]. destruct (f =? 1); [reflexivity|].
  destruct (f =? 2); [reflexivity|]. destruct (f =? 1); reflexivity.
Qed.
