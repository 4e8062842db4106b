(* Careful callers; what is in a certificate. *)
From Coq Require Import ZArith List Bool Arith Lia.
From Verif Require Import Base PkModel PkProofs PkProofs2.
Import ListNotations.
Local Open Scope nat_scope.

Lemma Forall2_length {A B} (P : A -> B -> Prop) l m : Forall2 P l m -> length l = length m.
Proof. induction 1; simpl; auto. Qed.

Fixpoint cnt (l : list nat) (i : nat) : nat := match l with [] => 0 | j :: r => one (j =? i) + cnt r i end.
Definition part (r : option nat) (x : vs) (i : nat) : nat :=
  match x, r with Own _, Some j => one (j =? i) | _, _ => 0 end.
Fixpoint tot (env : list (option nat)) (sts : list vs) (i : nat) : nat :=
  match env, sts with
  | r :: env, x :: sts => part r x i + tot env sts i
  | _, _ => 0
  end.

Lemma tot_app env sts r x i : length env = length sts -> tot (env ++ [r]) (sts ++ [x]) i = tot env sts i + part r x i.
Proof.
  revert sts; induction env as [|a env IH]; intros [|b sts] L; simpl in *; try discriminate; [lia|].
  rewrite IH by lia. lia.
Qed.
Lemma tot_gone env sts v x r : nth_error sts v = Some x -> nth_error env v = Some r -> forall i,
  tot env (set_nth v Gone sts) i + part r x i = tot env sts i.
Proof.
  revert sts v; induction env as [|a env IH]; intros [|b sts] [|v] S E i; simpl in *; try discriminate.
  - injection S as ->. injection E as ->. lia.
  - specialize (IH _ _ S E i). lia.
Qed.
Lemma tot_in env sts i : 0 < tot env sts i -> exists v k, nth_error sts v = Some (Own k) /\ nth_error env v = Some (Some i).
Proof.
  revert sts; induction env as [|a env IH]; intros [|b sts]; simpl; try lia. intros H.
  destruct (Nat.eq_dec (part a b i) 0) as [Z0|N].
  - destruct (IH sts) as (v & k & A & B); [lia|]. exists (S v), k. auto.
  - unfold part in N. destruct b as [k| | |]; try lia. destruct a as [j|]; try lia.
    destruct (j =? i) eqn:E; [|simpl in N; lia]. apply Nat.eqb_eq in E. subst. exists 0, k. auto.
Qed.
Lemma in_tot env sts i v k : nth_error sts v = Some (Own k) -> nth_error env v = Some (Some i) -> 0 < tot env sts i.
Proof.
  revert sts v; induction env as [|a env IH]; intros [|b sts] [|v] A B; simpl in *; try discriminate.
  - injection A as ->. injection B as ->. simpl. rewrite Nat.eqb_refl. simpl. lia.
  - specialize (IH _ _ A B). lia.
Qed.
Lemma cnt_in l i : In i l -> 0 < cnt l i.
Proof.
  induction l as [|j l IH]; simpl; [tauto|]. intros [->|H].
  - rewrite Nat.eqb_refl. simpl. lia.
  - specialize (IH H). lia.
Qed.

Definition knd (h : list obj) (k : bool) (i : nat) : Prop := k = true -> exists o, nth_error h i = Some o /\ kd o = Key.
Definition okv (s : st) (r : option nat) (x : vs) : Prop :=
  match x, r with
  | Own k, Some i => knd (heap s) k i
  | Lent k, Some i => knd (heap s) k i /\ In i (pend s)
  | Null, Some _ => False
  | _, _ => True
  end.
Record R (s : st) (env : list (option nat)) (sts : list vs) : Prop := mkR {
  rv : Forall2 (okv s) env sts;
  ri : inv (heap s) (fun i => tot env sts i + cnt (pend s) i) }.

Lemma knd_frame h h' k i : frame h h' -> knd h k i -> knd h' k i.
Proof. intros F K E. destruct (K E) as (o & N & D). destruct (F _ _ N) as (o' & N' & D' & _). exists o'. split; auto. congruence. Qed.

Lemma okv_frame s s' : frame (heap s) (heap s') -> (forall i, In i (pend s) -> In i (pend s')) ->
  forall env sts, Forall2 (okv s) env sts -> Forall2 (okv s') env sts.
Proof.
  intros F P env sts H. induction H as [|r x env sts A _ IH]; constructor; auto.
  destruct x as [k|k| |], r as [i|]; simpl in *; auto.
  - eapply knd_frame; eauto.
  - destruct A. split; auto. eapply knd_frame; eauto.
Qed.

Lemma push s env sts s' r x : R s env sts -> frame (heap s) (heap s') -> (forall i, In i (pend s) -> In i (pend s')) ->
  okv s' r x -> inv (heap s') (fun i => tot env sts i + part r x i + cnt (pend s') i) -> R s' (env ++ [r]) (sts ++ [x]).
Proof.
  intros [V I] F P K I'. constructor.
  - apply Forall2_app; [eapply okv_frame; eauto|]. constructor; auto.
  - eapply inv_ext; [|exact I']. intros i. cbv beta. rewrite tot_app by (eapply Forall2_length; eauto). reflexivity.
Qed.

Lemma use_ok s env sts v k : R s env sts -> usable sts v k = true ->
  has (fun i => tot env sts i + cnt (pend s) i) (nth v env None) /\ (k = true -> is_key (heap s) (nth v env None)).
Proof.
  intros [V I] U. unfold usable in U. destruct (nth_error sts v) as [x|] eqn:E; [|discriminate].
  assert (exists r, nth_error env v = Some r /\ okv s r x) as (r & Er & K).
  { clear U I. revert v E. induction V as [|a b env sts A _ IH]; intros [|v] E; simpl in *; try discriminate.
    - injection E as ->. eauto.
    - apply IH; auto. }
  rewrite (nth_error_nth _ _ _ Er). destruct r as [i|]; [|split; simpl; auto].
  destruct x as [q|q| |]; try discriminate; simpl in K; try tauto; apply eqb_prop in U; subst q; simpl.
  - split; [|intros ->; auto]. pose proof (in_tot _ _ _ _ _ E Er). lia.
  - destruct K as (K & Hin). split; [|intros ->; auto]. pose proof (cnt_in _ _ Hin). lia.
Qed.

Section S.
Variable ok mem : nat -> bool.

Definition no_export (o : op) : Prop := match o with Export _ _ _ => False | _ => True end.

Lemma step_ok s env sts o sts' : R s env sts -> chk sts o = Some sts' -> (forall t, mem t = true) \/ no_export o ->
  exists r s', step false ok mem s env o = Ok (r, s') /\ R s' (env ++ [r]) sts'.
Proof.
  intros H C M. pose proof (ri _ _ _ H) as I.
  assert (quietly : forall s', good s s' -> inv (heap s') (fun i => tot env sts i + cnt (pend s) i) -> R s' (env ++ [None]) (sts ++ [Null])).
  { intros s' [F P] I'. eapply push; eauto; [rewrite P; auto|exact Logic.I|].
    eapply inv_ext; [|exact I']. intros i. cbv beta. rewrite P. simpl. lia. }
  assert (certs : forall v d l, usable sts v true = true ->
    exists r s', certify ok mem s (nth v env None) d l = Ok (r, s') /\ R s' (env ++ [r]) (sts ++ [Own false])).
  { intros v d l U. destruct (use_ok _ _ _ _ _ H U) as (Hh & Hk).
    destruct (certify_ok ok mem s _ _ d l I Hh (Hk eq_refl)) as (r & s' & E & [F P] & I'). exists r, s'. split; auto.
    eapply push; eauto; [rewrite P; auto|destruct r; simpl; auto; intros; discriminate|].
    destruct r as [i|]; (eapply inv_ext; [|exact I']); intros j; cbv beta; unfold add; rewrite P; simpl; lia. }
  destruct o; simpl in C.
  - injection C as <-. simpl. destruct (rsa_ok ok mem s _ bits I) as (r & s' & E & [F P] & I' & K). exists r, s'. split; auto.
    eapply push; eauto; [rewrite P; auto|destruct r; simpl in *; auto; intros _; auto|].
    destruct r as [i|]; (eapply inv_ext; [|exact I']); intros j; cbv beta; unfold add; rewrite P; simpl; lia.
  - destruct (usable sts v true) eqn:U; [|discriminate]. injection C as <-. simpl. unfold x509_self. apply certs; auto.
  - destruct (usable sts v true) eqn:U; [|discriminate]. injection C as <-. simpl. apply certs; auto.
  - destruct (usable sts v true) eqn:U; [|discriminate]. destruct (usable sts w false) eqn:U2; [|discriminate].
    injection C as <-. simpl. destruct (use_ok _ _ _ _ _ H U) as (A & _). destruct (use_ok _ _ _ _ _ H U2) as (B & _).
    destruct (create_ok ok mem s _ _ _ I A B) as (b & s' & -> & I' & G). cbn [bind snd]. exists None, s'. auto.
  - injection C as <-. simpl. destruct M as [M|[]].
    destruct (export_ok ok mem s _ host alt now I M) as (b & s' & -> & I' & G). cbn [bind snd]. exists None, s'. auto.
  - injection C as <-. simpl. unfold pkey_get.
    destruct (file_ok ok mem s _ (mkO Key 1 true None blank) I eq_refl eq_refl) as (r & s' & E & F & X). exists r, s'. split; auto.
    destruct r as [i|].
    + destruct X as (I' & P & K). eapply push; eauto.
      * intros j. rewrite P. simpl. auto.
      * simpl. rewrite P. split; [intros _; exact K|simpl; auto].
      * eapply inv_ext; [|exact I']. intros j. cbv beta. unfold add. rewrite P. simpl. lia.
    + destruct X as (I' & P). eapply push; eauto; [rewrite P; auto|exact Logic.I|].
      eapply inv_ext; [|exact I']. intros j. cbv beta. rewrite P. simpl. lia.
  - injection C as <-. simpl. unfold x509_get.
    destruct (file_ok ok mem s _ (mkO Cert 1 false None d) I eq_refl eq_refl) as (r & s' & E & F & X). exists r, s'. split; auto.
    destruct r as [i|].
    + destruct X as (I' & P & K). eapply push; eauto.
      * intros j. rewrite P. simpl. auto.
      * simpl. rewrite P. split; [intros; discriminate|simpl; auto].
      * eapply inv_ext; [|exact I']. intros j. cbv beta. unfold add. rewrite P. simpl. lia.
    + destruct X as (I' & P). eapply push; eauto; [rewrite P; auto|exact Logic.I|].
      eapply inv_ext; [|exact I']. intros j. cbv beta. rewrite P. simpl. lia.
  - destruct (nth_error sts v) as [x|] eqn:E; [|discriminate].
    assert (exists r, nth_error env v = Some r /\ okv s r x) as (r & Er & K).
    { pose proof (rv _ _ _ H) as V. clear - V E. revert v E. induction V as [|a b env sts A _ IH]; intros [|v] E; simpl in *; try discriminate.
      - injection E as ->. eauto.
      - apply IH; auto. }
    simpl. rewrite (nth_error_nth _ _ _ Er). destruct x as [k| | |]; try discriminate; injection C as <-.
    + pose proof (tot_gone _ _ _ _ _ E Er) as T.
      assert (R1 : forall s', good s s' -> inv (heap s') (fun i => tot env (set_nth v Gone sts) i + cnt (pend s) i) ->
                   R s' (env ++ [None]) (set_nth v Gone sts ++ [Null])).
      { intros s' [F P] I'. constructor.
        - apply Forall2_app; [|constructor; auto; exact Logic.I].
          pose proof (okv_frame s s' F ltac:(rewrite P; auto) _ _ (rv _ _ _ H)) as V. clear - V. revert v.
          induction V as [|a b env sts A V IH]; intros v; [destruct v; constructor|]. destruct v; simpl; constructor; auto. destruct a; exact Logic.I.
        - eapply inv_ext; [|exact I']. intros i. cbv beta. rewrite P, tot_app; [simpl; lia|].
          rewrite set_nth_length. eapply Forall2_length; exact (rv _ _ _ H). }
      destruct r as [i|].
      * destruct (free_ok s _ i I) as (s' & Ef & I' & G).
        { pose proof (in_tot _ _ _ _ _ E Er). lia. }
        rewrite Ef. cbn [bind]. exists None, s'. split; auto. apply R1; auto. eapply inv_ext; [|exact I'].
        intros j. specialize (T j). simpl in T. unfold sub. lia.
      * simpl. exists None, s. split; auto. apply R1; [apply good_refl|]. eapply inv_ext; [|exact I].
        intros j. specialize (T j). simpl in T; cbv beta. lia.
    + simpl in K. destruct r; [tauto|]. simpl. exists None, s. split; auto. apply quietly; auto. apply good_refl.
Qed.

Lemma run_ok l : forall s env sts sts', R s env sts -> careful sts l = Some sts' -> (forall t, mem t = true) \/ Forall no_export l ->
  exists s' env', run false ok mem s env l = Ok (s', env') /\ R s' env' sts'.
Proof.
  induction l as [|o l IH]; intros s env sts sts' H C M; simpl in *.
  - injection C as <-. eauto.
  - destruct (chk sts o) as [t|] eqn:E; [|discriminate].
    destruct (step_ok s env sts o t H E) as (r & s1 & -> & H1).
    { destruct M as [M|M]; auto. inversion M; auto. }
    cbn [bind fst snd]. eapply IH; eauto. destruct M as [M|M]; auto. inversion M; auto.
Qed.

Lemma leave_ok l : forall h own, inv h (fun i => own i + cnt l i) -> exists h', leave h l = Ok h' /\ inv h' own.
Proof.
  induction l as [|i l IH]; intros h own I; simpl in *.
  - exists h. split; auto. eapply inv_ext; [|exact I]. intros; simpl; lia.
  - destruct (release_ok h _ i I) as (h1 & -> & I1 & _); [rewrite Nat.eqb_refl; simpl; lia|]. cbn [bind].
    apply IH. eapply inv_ext; [|exact I1]. intros j. unfold sub. lia.
Qed.

Definition owned (env : list (option nat)) (sts : list vs) (i : nat) : Prop :=
  exists v k, nth_error sts v = Some (Own k) /\ nth_error env v = Some (Some i).

Lemma careful_ends l sts : careful [] l = Some sts -> (forall t, mem t = true) \/ Forall no_export l ->
  exists s env h, run false ok mem start [] l = Ok (s, env) /\ leave (heap s) (pend s) = Ok h /\
    forall i, live h i <-> owned env sts i \/ exists j o, owned env sts j /\ nth_error h j = Some o /\ pub o = Some i.
Proof.
  intros C M. destruct (run_ok l start [] [] sts) as (s & env & E & H); auto.
  { constructor; [constructor|]. constructor; simpl; auto; intros [|i]; discriminate. }
  destruct (leave_ok _ _ _ (ri _ _ _ H)) as (h & L & I). exists s, env, h. split; auto. split; auto.
  pose proof I as [A B D]. intros i. split.
  - intros (o & N & P). rewrite (A _ _ N) in P. destruct (Nat.eq_dec (tot env sts i) 0) as [Z0|Z0].
    + right. destruct (hold_pos h i) as (j & x & Nj & Rj & Pj); [lia|]. exists j, x. split; auto.
      destruct (D _ _ _ Nj Pj) as (Kx & _). assert (Hj : hold h j = 0).
      { destruct (Nat.eq_dec (hold h j) 0) as [|Q]; auto. destruct (hold_pos h j) as (q & y & Nq & _ & Pq); [lia|].
        destruct (D _ _ _ Nq Pq) as (_ & k & Nk & Kk). congruence. }
      rewrite (A _ _ Nj) in Rj. apply tot_in. lia.
    + left. apply tot_in. lia.
  - intros [O|(j & x & O & N & P)].
    + destruct O as (v & k & X & Y). pose proof (in_tot _ _ _ _ _ X Y) as T. exact (own_at _ _ _ I T).
    + destruct O as (v & k & X & Y). pose proof (in_tot _ _ _ _ _ X Y) as T.
      destruct (own_at _ _ _ I T) as (x' & N' & Rx). rewrite N in N'. injection N' as <-.
      destruct (D _ _ _ N P) as (_ & q & Nq & _). exists q. split; auto. rewrite (A _ _ Nq).
      pose proof (hold_ge h j x i N) as G. unfold con in G. rewrite P in G. simpl in G. rewrite Nat.eqb_refl in G.
      replace (0 <? refs x) with true in G by (symmetry; apply Nat.ltb_lt; auto). simpl in G. lia.
Qed.

Lemma nothing_left l sts : careful [] l = Some sts -> (forall t, mem t = true) \/ Forall no_export l ->
  (forall v k, nth_error sts v <> Some (Own k)) ->
  exists s env h, run false ok mem start [] l = Ok (s, env) /\ leave (heap s) (pend s) = Ok h /\ forall i, ~ live h i.
Proof.
  intros C M N. destruct (careful_ends l sts C M) as (s & env & h & E & L & A). exists s, env, h. split; auto. split; auto.
  intros i H. apply A in H. destruct H as [(v & k & X & _)|(j & o & (v & k & X & _) & _)]; eapply N; eauto.
Qed.

(* no memory for the key: the one that is made is known to nobody *)
Lemma export_leaks s own host alt now : inv (heap s) own -> mem (tick s) = false ->
  ok (1 + tick s) = true -> ok (2 + tick s) = true -> ok (3 + tick s) = true -> ok (4 + tick s) = true ->
  exists s', x509_self_export false ok mem s host alt now = Ok (false, s') /\ live (heap s') (S (length (heap s))) /\
    pend s' = pend s.
Proof.
  intros I M O1 O2 O3 O4. unfold x509_self_export, new. rewrite M. cbn [put heap tick pend].
  unfold generate, new. cbn [heap tick pend put]. simpl Nat.add in *. rewrite O1. unfold ask. cbn [heap tick pend put].
  rewrite O2, O3. cbn [andb]. change (512 <=? 4096)%Z with true. cbn match.
  unfold keygen, ask. cbn [heap tick pend put]. rewrite O4. cbn [bind fst snd].
  set (c := length (heap s)).
  set (h2 := (heap s ++ [mkO Ctx 1 false None blank]) ++ [mkO Key 1 true None blank]).
  assert (I2 : inv h2 (add c (add (S c) own))).
  { pose proof (inv_app _ _ (mkO Key 1 true None blank) (inv_app _ _ (mkO Ctx 1 false None blank) I eq_refl eq_refl) eq_refl eq_refl) as X.
    eapply inv_ext; [|exact X]. intros j. rewrite app_length. cbn [length]. rewrite Nat.add_1_r. unfold add. fold c. lia. }
  match goal with |- context [free ?x (Some c)] => destruct (free_added x _ c I2) as (s3 & E3 & I3 & G3); rewrite E3 end. cbn [bind fst snd].
  unfold x509_self_req.
  match goal with |- context [certify ok mem s3 None ?d ?l] => destruct (certify_ok ok mem s3 _ None d l I3 Logic.I Logic.I) as (r & s4 & E4 & G4 & I4);
    assert (r = None) as -> end.
  { revert E4. unfold certify. destruct (new ok mem Cert s3) as [[i|] s5]; [|congruence]. cbn [set_pubkey bind].
    destruct (set_doc s5 i _); try discriminate. cbn [bind]. destruct (add_exts _ _ _ _ _); try discriminate. cbn [bind sign fst snd].
    intros X. destruct (free s1 (Some i)); try discriminate. cbn [bind] in X. congruence. }
  rewrite E4. cbn [bind fst snd free]. exists s4. split; auto. split.
  - destruct (own_at _ _ _ I4 (add_same (S c) own)) as (o & N & P). exists o. auto.
  - destruct G3 as [_ P3], G4 as [_ P4]. cbn [pend put] in *. congruence.
Qed.
End S.
