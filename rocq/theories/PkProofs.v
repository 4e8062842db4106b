(* Who releases what: the references to an object are the owners' and those of the certificates that hold it. *)
From Coq Require Import ZArith List Bool Arith Lia.
From Verif Require Import Base PkModel.
Import ListNotations.
Local Open Scope nat_scope.

(* How a value of the caller stands: to be released by the caller (true: a key, false: a certificate), released at the end of
   the task or scope, NULL, gone. *)
Inductive vs := Own (key : bool) | Lent (key : bool) | Null | Gone.

Definition usable (sts : list vs) (v : nat) (key : bool) : bool :=
  match nth_error sts v with
  | Some (Own k) | Some (Lent k) => Bool.eqb k key
  | Some Null => true
  | _ => false
  end.

Definition chk (sts : list vs) (o : op) : option (list vs) :=
  match o with
  | Rsa _ => Some (sts ++ [Own true])
  | KeyFile => Some (sts ++ [Lent true])
  | CertFile _ => Some (sts ++ [Lent false])
  | Self v _ _ _ | Req v _ _ _ _ _ => if usable sts v true then Some (sts ++ [Own false]) else None
  | Write v w => if usable sts v true && usable sts w false then Some (sts ++ [Null]) else None
  | Export _ _ _ => Some (sts ++ [Null])
  | Free v => match nth_error sts v with
              | Some (Own _) => Some (set_nth v Gone sts ++ [Null])
              | Some Null => Some (sts ++ [Null])
              | _ => None
              end
  end.

(* The caller uses only what it still has, keys as keys, and releases only what it was given to release, once. *)
Fixpoint careful (sts : list vs) (l : list op) : option (list vs) :=
  match l with
  | [] => Some sts
  | o :: r => match chk sts o with Some t => careful t r | None => None end
  end.

Definition live (h : list obj) (i : nat) : Prop := exists o, nth_error h i = Some o /\ 0 < refs o.

(* ---------- counting ---------- *)
Definition oeq (p : option nat) (j : nat) : bool := match p with Some i => i =? j | None => false end.
Definition one (b : bool) : nat := if b then 1 else 0.
Definition con (o : obj) (j : nat) : nat := one ((0 <? refs o) && oeq (pub o) j).
Fixpoint hold (h : list obj) (j : nat) : nat :=
  match h with [] => 0 | o :: r => con o j + hold r j end.

Lemma hold_app h o j : hold (h ++ [o]) j = hold h j + con o j.
Proof. induction h as [|a h IH]; simpl; lia. Qed.

Lemma hold_set h i o o' j : nth_error h i = Some o ->
  hold (set_nth i o' h) j + con o j = hold h j + con o' j.
Proof.
  revert i; induction h as [|a h IH]; intros [|i] E; simpl in *; try discriminate.
  - injection E as ->. lia.
  - specialize (IH _ E). lia.
Qed.

Lemma hold_ge h i o j : nth_error h i = Some o -> con o j <= hold h j.
Proof.
  revert i; induction h as [|a h IH]; intros [|i] E; simpl in *; try discriminate.
  - injection E as ->. lia.
  - specialize (IH _ E). lia.
Qed.

Lemma hold_pos h j : 0 < hold h j -> exists i o, nth_error h i = Some o /\ 0 < refs o /\ pub o = Some j.
Proof.
  induction h as [|a h IH]; simpl; [lia|]. intros H.
  destruct (Nat.eq_dec (con a j) 0) as [E|E].
  - destruct IH as (i & o & A & B); [lia|]. exists (S i), o. auto.
  - exists 0, a. unfold con, one in E. destruct (0 <? refs a) eqn:R; [|simpl in E; lia].
    apply Nat.ltb_lt in R. destruct (pub a) as [k|] eqn:P; simpl in E; [|lia].
    destruct (k =? j) eqn:K; [|lia]. apply Nat.eqb_eq in K. subst. repeat split; auto.
Qed.

Definition add (i : nat) (own : nat -> nat) : nat -> nat := fun j => own j + one (i =? j).
Definition sub (i : nat) (own : nat -> nat) : nat -> nat := fun j => own j - one (i =? j).

Record inv (h : list obj) (own : nat -> nat) : Prop := mkInv {
  ia : forall i o, nth_error h i = Some o -> refs o = own i + hold h i;
  ib : forall i, length h <= i -> own i = 0;
  ic : forall i o j, nth_error h i = Some o -> pub o = Some j ->
       kd o <> Key /\ exists k, nth_error h j = Some k /\ kd k = Key }.

Lemma inv_ext h own own' : (forall i, own i = own' i) -> inv h own -> inv h own'.
Proof. intros E [A B C]. constructor; auto; intros; rewrite <- E; auto. Qed.

Lemma own_at h own i : inv h own -> 0 < own i -> exists o, nth_error h i = Some o /\ 0 < refs o.
Proof.
  intros [A B C] P. destruct (nth_error h i) as [o|] eqn:E.
  - exists o. split; auto. rewrite (A _ _ E). lia.
  - apply nth_error_None in E. rewrite (B _ E) in P. lia.
Qed.

Lemma hold_out h own j : inv h own -> length h <= j -> hold h j = 0.
Proof.
  intros [A B C] L. destruct (Nat.eq_dec (hold h j) 0) as [|N]; auto.
  destruct (hold_pos h j) as (i & o & E & R & P); [lia|].
  destruct (C _ _ _ E P) as (_ & k & K & _). assert (j < length h) by (apply nth_error_Some; rewrite K; discriminate). lia.
Qed.

Lemma nth_app_inv {A} (h : list A) o i x : nth_error (h ++ [o]) i = Some x ->
  nth_error h i = Some x \/ (i = length h /\ x = o).
Proof.
  intros E. destruct (Nat.lt_ge_cases i (length h)).
  - rewrite nth_error_app1 in E by auto. auto.
  - rewrite nth_error_app2 in E by auto. destruct (i - length h) as [|n] eqn:D.
    + simpl in E. injection E as <-. right. split; auto. lia.
    + simpl in E. destruct n; discriminate.
Qed.

Lemma nth_app_old {A} (h : list A) o i x : nth_error h i = Some x -> nth_error (h ++ [o]) i = Some x.
Proof. intros E. rewrite nth_error_app1; auto. apply nth_error_Some. rewrite E. discriminate. Qed.

Lemma inv_app h own o : inv h own -> refs o = 1 -> pub o = None -> inv (h ++ [o]) (add (length h) own).
Proof.
  intros I R P. pose proof I as [A B C]. assert (Z0 : forall j, con o j = 0).
  { intros j. unfold con. rewrite P. simpl. rewrite andb_false_r. reflexivity. }
  constructor.
  - intros i x E. rewrite hold_app, Z0. unfold add. destruct (nth_app_inv _ _ _ _ E) as [H|[-> ->]].
    + rewrite (A _ _ H). assert (i < length h) by (apply nth_error_Some; rewrite H; discriminate).
      replace (length h =? i) with false by (symmetry; apply Nat.eqb_neq; lia). simpl. lia.
    + rewrite R, (B (length h)), (hold_out _ _ _ I), Nat.eqb_refl by lia. reflexivity.
  - intros i L. rewrite app_length in L. simpl in L. unfold add. rewrite B by lia.
    replace (length h =? i) with false by (symmetry; apply Nat.eqb_neq; lia). reflexivity.
  - intros i x j E Q. destruct (nth_app_inv _ _ _ _ E) as [H|[-> ->]]; [|congruence].
    destruct (C _ _ _ H Q) as (N & k & K & D). split; auto. exists k. split; auto. apply nth_app_old; auto.
Qed.

(* what stays: kinds, and keys that are made *)
Definition frame (h h' : list obj) : Prop :=
  forall i o, nth_error h i = Some o ->
    exists o', nth_error h' i = Some o' /\ kd o' = kd o /\ (made o = true -> made o' = true).

Lemma frame_refl h : frame h h.
Proof. intros i o E. exists o. auto. Qed.
Lemma frame_trans a b c : frame a b -> frame b c -> frame a c.
Proof.
  intros F G i o E. destruct (F _ _ E) as (o1 & E1 & K1 & M1). destruct (G _ _ E1) as (o2 & E2 & K2 & M2).
  exists o2. repeat split; auto. congruence.
Qed.
Lemma frame_app h o : frame h (h ++ [o]).
Proof. intros i x E. exists x. split; auto using nth_app_old. Qed.

Lemma nth_set {A} (h : list A) i x j : nth_error h i <> None ->
  nth_error (set_nth i x h) j = if i =? j then Some x else nth_error h j.
Proof.
  intros N. destruct (i =? j) eqn:E.
  - apply Nat.eqb_eq in E. subst. apply set_nth_same. apply nth_error_Some; auto.
  - apply Nat.eqb_neq in E. apply set_nth_other; auto.
Qed.

Lemma wr_set (h : list obj) i x o : nth_error h i = Some o -> wr h i x = Ok (set_nth i x h).
Proof.
  intros E. unfold wr. replace (i <? length h) with true; auto. symmetry. apply Nat.ltb_lt.
  apply nth_error_Some. rewrite E. discriminate.
Qed.
Lemma rd_at {A} (h : list A) i o : nth_error h i = Some o -> rd h i = Ok o.
Proof. unfold rd. intros ->. reflexivity. Qed.

Lemma frame_set h i o x : nth_error h i = Some o -> kd x = kd o -> (made o = true -> made x = true) ->
  frame h (set_nth i x h).
Proof.
  intros E K M j y F. rewrite nth_set by congruence. destruct (i =? j) eqn:D.
  - apply Nat.eqb_eq in D. subst. rewrite E in F. injection F as <-. exists x. auto.
  - exists y. auto.
Qed.

(* changes that leave references and links alone *)
Lemma inv_same h own i o x : inv h own -> nth_error h i = Some o -> kd x = kd o -> refs x = refs o -> pub x = pub o ->
  inv (set_nth i x h) own.
Proof.
  intros [A B C] E K R P.
  assert (H : forall j, hold (set_nth i x h) j = hold h j).
  { intros j. pose proof (hold_set h i o x j E) as H. unfold con in H. rewrite R, P in H. lia. }
  constructor.
  - intros j y F. rewrite nth_set in F by congruence. rewrite H. destruct (i =? j) eqn:D; auto.
    apply Nat.eqb_eq in D. subst. injection F as <-. rewrite R. auto.
  - intros j L. rewrite set_nth_length in L. auto.
  - intros j y k F Q. rewrite nth_set in F by congruence.
    assert (kd y <> Key /\ exists z, nth_error h k = Some z /\ kd z = Key) as (N & z & Hz & Kz).
    { destruct (i =? j) eqn:D.
      - apply Nat.eqb_eq in D. subst. injection F as <-. rewrite K. rewrite P in Q. eauto.
      - eauto. }
    split; auto. rewrite nth_set by congruence. destruct (i =? k) eqn:D.
    + apply Nat.eqb_eq in D. subst. rewrite E in Hz. injection Hz as <-. exists x. split; auto. congruence.
    + exists z. auto.
Qed.

Lemma release_ok h own i : inv h own -> 0 < own i ->
  exists h', release h i = Ok h' /\ inv h' (sub i own) /\ frame h h'.
Proof.
  intros I P. pose proof I as [A B C]. destruct (own_at _ _ _ I P) as (o & E & R).
  unfold release, down. rewrite (rd_at _ _ _ E). cbn [bind]. pose proof (A _ _ E) as Ro.
  destruct (refs o) as [|n] eqn:Rn; [lia|]. rewrite (wr_set _ _ _ _ E). cbn [bind].
  set (o1 := with_refs o n). set (h1 := set_nth i o1 h).
  assert (F1 : frame h h1) by (eapply frame_set; eauto).
  assert (L1 : forall j, length h <= j -> sub i own j = 0) by (intros j L; unfold sub; rewrite B; auto).
  assert (N1 : forall j, nth_error h1 j = if i =? j then Some o1 else nth_error h j) by (intros; apply nth_set; congruence).
  assert (C1 : forall j y k, nth_error h1 j = Some y -> pub y = Some k ->
               kd y <> Key /\ exists z, nth_error h1 k = Some z /\ kd z = Key).
  { intros j y k F Q. rewrite N1 in F.
    assert (kd y <> Key /\ exists z, nth_error h k = Some z /\ kd z = Key) as (N & z & Hz & Kz).
    { destruct (i =? j) eqn:D; [|eauto]. apply Nat.eqb_eq in D. subst j. injection F as <-. exact (C _ _ _ E Q). }
    split; auto. destruct (F1 _ _ Hz) as (z' & Hz' & Kz' & _). exists z'. split; auto. congruence. }
  assert (Hh : forall j, hold h1 j + con o j = hold h j + con o1 j) by (intros; apply hold_set; auto).
  assert (same : (forall j, hold h1 j = hold h j) -> inv h1 (sub i own)).
  { intros S. constructor; auto.
    - intros j y F. rewrite N1 in F. rewrite S. unfold sub. destruct (i =? j) eqn:D.
      + apply Nat.eqb_eq in D. subst j. injection F as <-. simpl. lia.
      + simpl. rewrite (A _ _ F). lia.
    - intros j L. unfold h1 in L. rewrite set_nth_length in L. auto. }
  destruct n as [|n].
  - destruct (pub o) as [j|] eqn:Po.
    + destruct (C _ _ _ E Po) as (No & k & Ek & Kk).
      assert (ij : i <> j) by (intros ->; congruence).
      pose proof (A _ _ Ek) as Rk. pose proof (hold_ge _ _ _ j E) as G.
      unfold con in G. rewrite Rn, Po in G. simpl in G. rewrite Nat.eqb_refl in G. simpl in G.
      assert (E1 : nth_error h1 j = Some k).
      { rewrite N1. replace (i =? j) with false by (symmetry; apply Nat.eqb_neq; auto). auto. }
      rewrite (rd_at _ _ _ E1). cbn [bind]. destruct (refs k) as [|m] eqn:Rm; [lia|].
      rewrite (wr_set _ _ _ _ E1). exists (set_nth j (with_refs k m) h1).
      assert (Pk : pub k = None).
      { destruct (pub k) as [q|] eqn:Q; auto. destruct (C _ _ _ Ek Q). congruence. }
      assert (H2 : forall x, hold (set_nth j (with_refs k m) h1) x + one (j =? x) = hold h x).
      { intros x. pose proof (hold_set h1 j k (with_refs k m) x E1) as H2. pose proof (Hh x) as H3.
        unfold con in H2, H3. cbn [refs pub with_refs o1] in H2, H3. rewrite Pk in H2. rewrite Rn, Po in H3.
        simpl in H2, H3. rewrite !andb_false_r in H2. simpl in H2. unfold one in *. destruct (j =? x); lia. }
      split; [reflexivity|]. split; [|eapply frame_trans; [exact F1|eapply frame_set; eauto]].
      constructor.
      * intros x y F. rewrite nth_set in F by congruence. pose proof (H2 x) as Hx. unfold sub.
        destruct (j =? x) eqn:D.
        -- apply Nat.eqb_eq in D. subst x. injection F as <-. simpl in *.
           replace (i =? j) with false by (symmetry; apply Nat.eqb_neq; auto). simpl. lia.
        -- rewrite N1 in F. simpl in Hx. destruct (i =? x) eqn:D2.
           ++ apply Nat.eqb_eq in D2. subst x. injection F as <-. simpl. lia.
           ++ rewrite (A _ _ F). simpl. lia.
      * intros x L. rewrite set_nth_length in L. unfold h1 in L. rewrite set_nth_length in L. auto.
      * intros x y z F Q. rewrite nth_set in F by congruence.
        assert (kd y <> Key /\ exists w, nth_error h1 z = Some w /\ kd w = Key) as (N & w & Hw & Kw).
        { destruct (j =? x) eqn:D; [|eauto]. injection F as <-. simpl in Q. congruence. }
        split; auto. rewrite nth_set by congruence. destruct (j =? z) eqn:D; [|eauto].
        exists (with_refs k m). split; auto.
    + exists h1. split; [reflexivity|]. split; auto. apply same. intros j. specialize (Hh j). unfold con in Hh.
      cbn [refs pub with_refs o1] in Hh. rewrite Po in Hh. simpl in Hh. rewrite !andb_false_r in Hh. simpl in Hh. lia.
  - exists h1. split; [reflexivity|]. split; auto. apply same. intros j. specialize (Hh j). unfold con in Hh.
    cbn [refs pub with_refs o1] in Hh. rewrite Rn in Hh. simpl in Hh. lia.
Qed.

Lemma link_ok h own i c k o : inv h own -> nth_error h i = Some k -> nth_error h c = Some o -> kd k = Key -> kd o = Cert ->
  pub o = None -> 0 < refs o ->
  inv (set_nth c (mkO (kd o) (refs o) (made o) (Some i) (doc o)) (set_nth i (with_refs k (S (refs k))) h)) own.
Proof.
  intros I Ek Eo Kk Ko Po R. pose proof I as [A B C].
  assert (ic' : i <> c) by (intros ->; congruence).
  set (k1 := with_refs k (S (refs k))). set (o1 := mkO (kd o) (refs o) (made o) (Some i) (doc o)).
  assert (E1 : nth_error (set_nth i k1 h) c = Some o).
  { rewrite nth_set by congruence. replace (i =? c) with false by (symmetry; apply Nat.eqb_neq; auto). auto. }
  assert (Pk : pub k = None).
  { destruct (pub k) as [q|] eqn:Q; auto. destruct (C _ _ _ Ek Q). congruence. }
  assert (H : forall x, hold (set_nth c o1 (set_nth i k1 h)) x = hold h x + one (i =? x)).
  { intros x. pose proof (hold_set _ _ _ o1 x E1) as H1. pose proof (hold_set _ _ _ k1 x Ek) as H2.
    unfold con in H1, H2. cbn [refs pub with_refs o1 k1] in H1, H2. rewrite Pk in H2. rewrite Po in H1.
    simpl in H1, H2. rewrite !andb_false_r in H2. rewrite andb_false_r in H1.
    replace (0 <? refs o) with true in H1 by (symmetry; apply Nat.ltb_lt; auto). simpl in *. lia. }
  assert (N : forall x, nth_error (set_nth c o1 (set_nth i k1 h)) x =
              if c =? x then Some o1 else if i =? x then Some k1 else nth_error h x).
  { intros x. rewrite nth_set by congruence. destruct (c =? x); auto. apply nth_set. congruence. }
  constructor.
  - intros x y F. rewrite N in F. rewrite H. destruct (c =? x) eqn:D.
    + apply Nat.eqb_eq in D. subst x. injection F as <-. simpl.
      replace (i =? c) with false by (symmetry; apply Nat.eqb_neq; auto). rewrite (A _ _ Eo). simpl. lia.
    + destruct (i =? x) eqn:D2.
      * apply Nat.eqb_eq in D2. subst x. injection F as <-. simpl. rewrite (A _ _ Ek). lia.
      * rewrite (A _ _ F). simpl. lia.
  - intros x L. rewrite !set_nth_length in L. auto.
  - intros x y z F Q. rewrite N in F.
    assert (kd y <> Key /\ exists w, nth_error h z = Some w /\ kd w = Key) as (M & w & Hw & Kw).
    { destruct (c =? x) eqn:D.
      - injection F as <-. simpl in *. injection Q as <-. split; [congruence|]. eauto.
      - destruct (i =? x) eqn:D2; [|eauto]. injection F as <-. simpl in Q. congruence. }
    split; auto. rewrite N. destruct (c =? z) eqn:D.
    + apply Nat.eqb_eq in D. subst z. congruence.
    + destruct (i =? z) eqn:D2; [|eauto]. exists k1. split; auto.
Qed.

Lemma sub_add i own j : sub i (add i own) j = own j.
Proof. unfold sub, add. lia. Qed.
Lemma add_same i own : 0 < add i own i.
Proof. unfold add. rewrite Nat.eqb_refl. simpl. lia. Qed.
Lemma add_le i own j : own j <= add i own j.
Proof. unfold add. lia. Qed.
