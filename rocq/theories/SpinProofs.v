(* Spin locks: specification and lemmas. *)
From Verif Require Import Base DllModel SpinModel.
From Coq Require Import List Lia Arith Bool.
Import ListNotations.

(* ---- Specification ---- *)
Section Spec.
Context {A X : Type}.
Notation access := (access A X).
Notation section := (section A X).
(* a section run by itself *)
Fixpoint exec (l : list access) (a : A) (x : X) : outcome (A * X) :=
  match l with [] => Ok (a, x) | f :: r => do y <- f a x; exec r (fst y) (snd y) end.
(* whole sections one after another, in the given order of threads *)
Fixpoint atomically (order : list nat) (a : A) (p : nat -> X * list section) : outcome (A * (nat -> X * list section)) :=
  match order with
  | [] => Ok (a, p)
  | i :: r => match snd (p i) with
              | [] => atomically r a p
              | (_, sec) :: k => do y <- exec sec a (fst (p i)); atomically r (fst y) (upd p i (snd y, k))
              end
  end.
Definition inside (s : sst A X) (i : nat) : Prop := match ph (thr s i) with PIn _ _ => True | _ => False end.
(* all sections are under one lock *)
Definition one_lock (k : nat) (p : nat -> X * list section) : Prop := forall i, Forall (fun sec => fst sec = k) (snd (p i)).
(* number of steps the threads below n have to do *)
Fixpoint secs_work (l : list section) : nat := match l with [] => 0 | (_, sec) :: r => length sec + 2 + secs_work r end.
Fixpoint work (n : nat) (p : nat -> X * list section) : nat := match n with 0 => 0 | S m => secs_work (snd (p m)) + work m p end.
End Spec.
(* what each thread appends, tagged with the thread *)
Definition appenders {V} (k : nat) (mv : nat -> bool) (vs : nat -> list V) (i : nat) : nat * list (section (arr (nat * V)) nat) :=
  (0, map (fun v => (k, append_steps mv (i, v))) (vs i)).
Fixpoint total {V} (n : nat) (vs : nat -> list V) : nat := match n with 0 => 0 | S m => length (vs m) + total m vs end.
Definition from_thread {V} (i : nat) (l : list (nat * V)) : list V := map snd (filter (fun x => Nat.eqb (fst x) i) l).
Definition array_of {V} (l : list V) (c : nat) : arr V := {| cells := l; size := length l; cap := c; gone := false |}.

(* ---- Lemmas ---- *)
Lemma upd_same {V} (f : nat -> V) k v : upd f k v k = v.
Proof. unfold upd. now rewrite Nat.eqb_refl. Qed.
Lemma upd_other {V} (f : nat -> V) k v x : x <> k -> upd f k v x = f x.
Proof. unfold upd. intros H. destruct (Nat.eqb_spec x k); congruence. Qed.

Section Lemmas.
Context {A X : Type}.
Notation access := (access A X).
Notation section := (section A X).
Notation sst := (sst A X).
Implicit Types (s : sst) (p : nat -> X * list section) (a : A) (i j k : nat).

Lemma atomically_app l1 : forall l2 a p, atomically (l1 ++ l2) a p = do y <- atomically l1 a p; atomically l2 (fst y) (snd y).
Proof.
  induction l1 as [|i l1 IH]; intros l2 a p; cbn [app atomically]; [reflexivity|].
  destruct (snd (p i)) as [|[k sec] r]; [apply IH|]. destruct (exec sec a (fst (p i))) as [y| | |]; cbn [bind]; auto.
Qed.
Lemma srun_app l1 : forall l2 s, srun (l1 ++ l2) s = do s' <- srun l1 s; srun l2 s'.
Proof. induction l1 as [|i l1 IH]; intros l2 s; cbn [app srun]; [reflexivity|]. destruct (sstep s i); cbn [bind]; auto. Qed.

(* everybody outside, or exactly one inside and half-way *)
Definition outside s i : Prop := ph (thr s i) = PTry \/ ph (thr s i) = PSpin.
Definition mid k s a' p' : Prop :=
  (flag s k = false /\ shr s = a' /\ forall i, outside s i /\ own (thr s i) = fst (p' i)) \/
  (flag s k = true /\ exists i rest sec r, ph (thr s i) = PIn k rest /\ snd (p' i) = (k, sec) :: r /\
     exec rest (shr s) (own (thr s i)) = exec sec a' (fst (p' i)) /\ forall j, j <> i -> outside s j /\ own (thr s j) = fst (p' j)).
Definition sinv k a p s : Prop := exists a' p', atomically (slog s) a p = Ok (a', p') /\ (forall i, todo (thr s i) = snd (p' i)) /\ one_lock k p' /\
  (forall i, count_occ Nat.eq_dec (slog s) i + length (snd (p' i)) = length (snd (p i))) /\ mid k s a' p'.
Lemma sinv_init k a p : one_lock k p -> sinv k a p (sinit a p).
Proof.
  intros O. exists a, p. split; [reflexivity|]. split; [reflexivity|]. split; [exact O|]. split; [reflexivity|]. left. cbn. split; [reflexivity|]. split; [reflexivity|].
  intros i. split; [left; reflexivity|reflexivity].
Qed.
Lemma not_out_in s i k rest : outside s i -> ph (thr s i) = PIn k rest -> False.
Proof. unfold outside. intros [H|H]; congruence. Qed.

(* one step keeps the invariant; if it goes wrong, the section by itself does *)
Lemma sstep_inv k a p s i : sinv k a p s ->
  (forall s', sstep s i = Ok s' -> sinv k a p s') /\
  ((forall s', sstep s i <> Ok s') -> forall y, atomically (slog s ++ [i]) a p <> Ok y) /\ (sstep s i = UB -> atomically (slog s ++ [i]) a p = UB).
Proof.
  intros (a' & p' & Ea & Et & O & Cn & M).
  assert (Fine : forall s1, sstep s i = Ok s1 -> sinv k a p s1 -> (forall s', sstep s i = Ok s' -> sinv k a p s') /\
    ((forall s', sstep s i <> Ok s') -> forall y, atomically (slog s ++ [i]) a p <> Ok y) /\ (sstep s i = UB -> atomically (slog s ++ [i]) a p = UB)).
  { intros s1 E H. split; [intros s' E'; congruence|]. split; [intros K; destruct (K s1 E)|congruence]. }
  unfold sstep in *. destruct (ph (thr s i)) as [| |k' rest] eqn:Ep.
  - (* about to test and set *)
    pose proof (O i) as Oi. rewrite <- Et in Oi. destruct (todo (thr s i)) as [|[k1 sec] r] eqn:Etd.
    { eapply Fine; [reflexivity|]. exists a', p'. auto 6. }
    inversion Oi as [|? ? E1 _]; subst. cbn [fst] in *.
    destruct M as [(F & Es & Out)|(F & h & rest & sec' & r' & Eh & Eq & Ex & Oth)].
    + rewrite F in *. eapply Fine; [reflexivity|]. exists a', p'. split; [exact Ea|]. split; [intros j; cbn; destruct (Nat.eq_dec j i) as [->|N]; [rewrite upd_same; cbn; now rewrite <- Et|now rewrite upd_other]|].
      split; [exact O|]. split; [exact Cn|]. right. cbn. split; [apply upd_same|].
      exists i, sec, sec, r. rewrite upd_same. cbn. split; [reflexivity|]. split; [now rewrite <- Et|]. destruct (Out i) as (_ & Ow). split; [now rewrite Ow, Es|].
      intros j N. unfold outside. cbn. rewrite upd_other by auto. apply Out.
    + rewrite F in *. eapply Fine; [reflexivity|]. exists a', p'. split; [exact Ea|]. split; [intros j; cbn; destruct (Nat.eq_dec j i) as [->|N]; [rewrite upd_same; cbn; now rewrite <- Et|now rewrite upd_other]|].
      split; [exact O|]. split; [exact Cn|]. right. cbn. split; [exact F|].
      assert (Nh : h <> i) by (intros ->; congruence). exists h, rest, sec', r'. rewrite !upd_other by auto. split; [exact Eh|]. split; [exact Eq|]. split; [exact Ex|].
      intros j N. unfold outside. cbn. destruct (Nat.eq_dec j i) as [->|Nj]; [rewrite upd_same; cbn; split; [now right|apply Oth; auto]|rewrite upd_other by auto; apply Oth; auto].
  - (* the inner loop *)
    pose proof (O i) as Oi. rewrite <- Et in Oi. destruct (todo (thr s i)) as [|[k1 sec] r] eqn:Etd.
    { eapply Fine; [reflexivity|]. exists a', p'. auto 6. }
    destruct (flag s k1) eqn:Ef; [eapply Fine; [reflexivity|]; exists a', p'; auto 6|].
    eapply Fine; [reflexivity|]. exists a', p'. split; [exact Ea|]. split; [intros j; cbn; destruct (Nat.eq_dec j i) as [->|N]; [rewrite upd_same; cbn; now rewrite <- Et|now rewrite upd_other]|].
    split; [exact O|]. split; [exact Cn|]. inversion Oi as [|? ? E1 _]; subst. cbn [fst] in *.
    destruct M as [(F & Es & Out)|(F & _)]; [|congruence]. left. split; [exact F|]. split; [exact Es|]. intros j. unfold outside. cbn.
    destruct (Nat.eq_dec j i) as [->|Nj]; [rewrite upd_same; cbn; split; [now left|apply Out]|rewrite upd_other by auto; apply Out].
  - (* inside *)
    destruct M as [(F & Es & Out)|(F & h & rest' & sec & r & Eh & Eq & Ex & Oth)]; [destruct (Out i) as (Oi & _); exfalso; eapply not_out_in; eauto|].
    assert (h = i) by (destruct (Nat.eq_dec h i); [auto|destruct (Oth i) as (Oi & _); [auto|exfalso; eapply not_out_in; eauto]]). subst h.
    assert (k' = k /\ rest' = rest) as (-> & ->) by (split; congruence).
    destruct rest as [|f rest].
    + (* unlock *)
      cbn [exec] in Ex. eapply Fine; [reflexivity|]. exists (shr s), (upd p' i (own (thr s i), r)). cbn.
      split; [rewrite atomically_app, Ea; cbn [bind fst snd atomically]; rewrite Eq, <- Ex; reflexivity|].
      split; [intros j; destruct (Nat.eq_dec j i) as [->|N]; [rewrite !upd_same; cbn; rewrite Et, Eq; reflexivity|rewrite !upd_other by auto; apply Et]|].
      split; [intros j; destruct (Nat.eq_dec j i) as [->|N]; [rewrite upd_same; cbn; specialize (O i); rewrite Eq in O; now inversion O|rewrite upd_other by auto; apply O]|].
      split; [intros j; rewrite count_occ_app; cbn [count_occ]; specialize (Cn j); destruct (Nat.eq_dec i j) as [->|N];
        [rewrite upd_same; cbn [snd length] in *; rewrite Eq in Cn; cbn [length] in Cn; lia|rewrite upd_other by auto; lia]|].
      left. cbn. split; [apply upd_same|]. split; [reflexivity|]. intros j. unfold outside. cbn. destruct (Nat.eq_dec j i) as [->|N]; [rewrite !upd_same; cbn; split; [now left|reflexivity]|].
      rewrite !upd_other by auto. apply Oth; auto.
    + cbn [exec] in Ex. destruct (f (shr s) (own (thr s i))) as [y| | |] eqn:Ey; cbn [bind] in Ex |- *.
      * eapply Fine; [reflexivity|]. exists a', p'. split; [exact Ea|]. split; [intros j; cbn; destruct (Nat.eq_dec j i) as [->|N]; [rewrite upd_same; cbn; apply Et|now rewrite upd_other]|].
        split; [exact O|]. split; [exact Cn|]. right. cbn. split; [exact F|]. exists i, rest, sec, r. rewrite upd_same. cbn. split; [reflexivity|]. split; [exact Eq|]. split; [exact Ex|].
        intros j N. unfold outside. cbn. rewrite upd_other by auto. apply Oth; auto.
      * split; [discriminate|]. rewrite atomically_app, Ea. cbn [bind fst snd atomically]. rewrite Eq, <- Ex. cbn [bind]. split; [discriminate|reflexivity].
      * split; [discriminate|]. rewrite atomically_app, Ea. cbn [bind fst snd atomically]. rewrite Eq, <- Ex. cbn [bind]. split; [discriminate|discriminate].
      * split; [discriminate|]. rewrite atomically_app, Ea. cbn [bind fst snd atomically]. rewrite Eq, <- Ex. cbn [bind]. split; [discriminate|discriminate].
Qed.
Lemma srun_inv k a p sched : forall s, sinv k a p s -> forall s', srun sched s = Ok s' -> sinv k a p s'.
Proof.
  induction sched as [|i r IH]; intros s I s'; cbn [srun]; [intros H; injection H as <-; exact I|].
  destruct (sstep s i) as [s1| | |] eqn:E; cbn [bind]; try discriminate. apply IH. now apply (proj1 (sstep_inv k a p s i I)).
Qed.
Lemma exclusion k a p sched s i j : one_lock k p -> srun sched (sinit a p) = Ok s -> inside s i -> inside s j -> i = j.
Proof.
  intros O R Ii Ij. apply (srun_inv k a p sched) in R; [|now apply sinv_init]. destruct R as (a' & p' & _ & _ & _ & _ & M).
  unfold inside in *. destruct (ph (thr s i)) eqn:Ei; try contradiction. destruct (ph (thr s j)) eqn:Ej; try contradiction.
  destruct M as [(_ & _ & Out)|(_ & h & ? & ? & ? & Eh & _ & _ & Oth)]; [destruct (Out i) as (Oi & _); exfalso; eapply not_out_in; eauto|].
  assert (h = i) by (destruct (Nat.eq_dec h i); [auto|destruct (Oth i) as (Oi & _); [auto|exfalso; eapply not_out_in; eauto]]).
  assert (h = j) by (destruct (Nat.eq_dec h j); [auto|destruct (Oth j) as (Oi & _); [auto|exfalso; eapply not_out_in; eauto]]). congruence.
Qed.
Lemma serial k a p sched s : one_lock k p -> srun sched (sinit a p) = Ok s -> (forall i, ~ inside s i) ->
  exists q, atomically (slog s) a p = Ok (shr s, q) /\ forall i, own (thr s i) = fst (q i) /\ todo (thr s i) = snd (q i) /\
    count_occ Nat.eq_dec (slog s) i + length (todo (thr s i)) = length (snd (p i)).
Proof.
  intros O R N. apply (srun_inv k a p sched) in R; [|now apply sinv_init]. destruct R as (a' & p' & Ea & Et & _ & Cn & M).
  destruct M as [(_ & Es & Out)|(_ & h & ? & ? & ? & Eh & _)]; [|exfalso; apply (N h); unfold inside; now rewrite Eh].
  exists p'. rewrite Es. split; [exact Ea|]. intros i. split; [apply Out|]. split; [apply Et|]. rewrite Et. apply Cn.
Qed.
(* in the middle of a section: what is left of it, run to its end, gives what the whole section gives *)
Lemma serial_mid k a p sched s i k' rest : one_lock k p -> srun sched (sinit a p) = Ok s -> ph (thr s i) = PIn k' rest ->
  exists a' q sec r, atomically (slog s) a p = Ok (a', q) /\ snd (q i) = (k, sec) :: r /\ exec rest (shr s) (own (thr s i)) = exec sec a' (fst (q i)) /\
    forall j, j <> i -> own (thr s j) = fst (q j).
Proof.
  intros O R Ei. apply (srun_inv k a p sched) in R; [|now apply sinv_init]. destruct R as (a' & p' & Ea & Et & _ & Cn & M).
  destruct M as [(_ & Es & Out)|(_ & h & rest' & sec & r & Eh & Eq & Ex & Oth)]; [destruct (Out i) as (Oi & _); exfalso; eapply not_out_in; eauto|].
  assert (h = i) by (destruct (Nat.eq_dec h i); [auto|destruct (Oth i) as (Oi & _); [auto|exfalso; eapply not_out_in; eauto]]). subst h.
  assert (rest' = rest) as -> by congruence.
  exists a', p', sec, r. split; [exact Ea|]. split; [exact Eq|]. split; [exact Ex|]. intros j N. apply Oth; auto.
Qed.
Lemma safe k a p : one_lock k p -> (forall order, exists y, atomically order a p = Ok y) -> forall sched, exists s, srun sched (sinit a p) = Ok s.
Proof.
  intros O H sched. assert (G : forall sched s, sinv k a p s -> exists s', srun sched s = Ok s').
  { intros sch. induction sch as [|i r IH]; intros s I; cbn [srun]; [eauto|]. destruct (sstep_inv k a p s i I) as (I1 & I2 & _).
    destruct (sstep s i) as [s1| | |] eqn:E; cbn [bind]; [apply IH, I1; reflexivity| | |].
    all: exfalso; destruct (H (slog s ++ [i])) as (y & Ey); apply (I2 ltac:(discriminate) y Ey). }
  apply G. now apply sinv_init.
Qed.
Lemma wrong k a p sched : one_lock k p -> srun sched (sinit a p) = UB -> exists order, atomically order a p = UB.
Proof.
  intros O. assert (G : forall sched s, sinv k a p s -> srun sched s = UB -> exists order, atomically order a p = UB).
  { intros sch. induction sch as [|i r IH]; intros s I; cbn [srun]; [discriminate|]. destruct (sstep_inv k a p s i I) as (I1 & _ & I2).
    destruct (sstep s i) as [s1| | |] eqn:E; cbn [bind]; try discriminate; [apply IH, I1; reflexivity|]. intros _. eexists. apply I2. reflexivity. }
  apply G. now apply sinv_init.
Qed.

(* ---- progress ---- *)
Definition tw (t : th A X) : nat := match ph t with PIn _ rest => length rest + 1 + secs_work (tl (todo t)) | _ => secs_work (todo t) end.
Fixpoint pot (n : nat) (s : sst) : nat := match n with 0 => 0 | S m => tw (thr s m) + pot m s end.
Lemma pot_ext n s s' : (forall j, j < n -> tw (thr s' j) = tw (thr s j)) -> pot n s' = pot n s.
Proof. induction n as [|n IH]; intros H; cbn [pot]; [reflexivity|]. rewrite H by lia. rewrite IH by (intros; apply H; lia). reflexivity. Qed.
Lemma pot_one n s s' i d : i < n -> tw (thr s' i) + d = tw (thr s i) -> (forall j, j <> i -> thr s' j = thr s j) -> pot n s' + d = pot n s.
Proof.
  intros L E N. induction n as [|n IH]; [lia|]. cbn [pot]. destruct (Nat.eq_dec i n) as [->|Ne].
  - rewrite (pot_ext n s s'); [lia|]. intros j Hj. rewrite N by lia. reflexivity.
  - rewrite N by lia. rewrite <- IH by lia. lia.
Qed.
Definition loaded (s : sst) n : Prop := forall i, n <= i -> todo (thr s i) = [] /\ ~ inside s i.
Definition inhead (s : sst) : Prop := forall i, inside s i -> todo (thr s i) <> [].
(* a step either does one unit of work, or changes nothing but the waiting of its thread *)
Definition quiet s s' i : Prop := flag s' = flag s /\ (forall j, j <> i -> thr s' j = thr s j) /\ todo (thr s' i) = todo (thr s i) /\ outside s i /\ outside s' i.
Lemma step_work n s i s' : loaded s n -> inhead s -> sstep s i = Ok s' ->
  loaded s' n /\ inhead s' /\ (forall j, j <> i -> thr s' j = thr s j) /\
  ((i < n /\ pot n s' + 1 = pot n s) \/ (pot n s' = pot n s /\ quiet s s' i)).
Proof.
  intros L H. unfold sstep. destruct (ph (thr s i)) as [| |k rest] eqn:Ep.
  - destruct (todo (thr s i)) as [|[k sec] r] eqn:Et.
    { intros E. injection E as <-. split; [exact L|]. split; [exact H|]. split; [reflexivity|]. right. split; [reflexivity|]. unfold quiet, outside. rewrite Ep. auto 7. }
    assert (Li : i < n) by (destruct (Nat.lt_ge_cases i n) as [|G]; [auto|destruct (L i G) as (K & _); congruence]).
    destruct (flag s k) eqn:Ef; intros E; injection E as <-.
    + split; [intros j G; cbn; unfold inside; cbn; rewrite upd_other by lia; apply L; auto|].
      split; [intros j; unfold inside; cbn; destruct (Nat.eq_dec j i) as [->|N]; [rewrite upd_same; cbn; contradiction|rewrite upd_other by auto; apply H]|].
      split; [intros j N; cbn; now apply upd_other|]. right. split; [apply pot_ext; intros j _; cbn; destruct (Nat.eq_dec j i) as [->|N]; [rewrite upd_same; unfold tw; cbn; now rewrite Ep|now rewrite upd_other]|].
      unfold quiet, outside. cbn. rewrite upd_same. cbn. split; [reflexivity|]. split; [intros j N; now apply upd_other|]. auto.
    + split; [intros j G; cbn; unfold inside; cbn; rewrite upd_other by lia; apply L; auto|].
      split; [intros j; unfold inside; cbn; destruct (Nat.eq_dec j i) as [->|N]; [rewrite upd_same; cbn; rewrite Et; discriminate|rewrite upd_other by auto; apply H]|].
      split; [intros j N; cbn; now apply upd_other|]. left. split; [exact Li|]. apply (pot_one n s _ i 1); [exact Li| |intros j N; cbn; now apply upd_other].
      cbn. rewrite upd_same. unfold tw. cbn [ph todo own]. rewrite Ep, Et. cbn [secs_work tl]. lia.
  - destruct (todo (thr s i)) as [|[k sec] r] eqn:Et.
    { intros E. injection E as <-. split; [exact L|]. split; [exact H|]. split; [reflexivity|]. right. split; [reflexivity|]. unfold quiet, outside. rewrite Ep. auto 7. }
    assert (Li : i < n) by (destruct (Nat.lt_ge_cases i n) as [|G]; [auto|destruct (L i G) as (K & _); congruence]).
    destruct (flag s k) eqn:Ef; intros E; injection E as <-.
    { split; [exact L|]. split; [exact H|]. split; [reflexivity|]. right. split; [reflexivity|]. unfold quiet, outside. rewrite Ep. auto 7. }
    split; [intros j G; cbn; unfold inside; cbn; rewrite upd_other by lia; apply L; auto|].
    split; [intros j; unfold inside; cbn; destruct (Nat.eq_dec j i) as [->|N]; [rewrite upd_same; cbn; contradiction|rewrite upd_other by auto; apply H]|].
    split; [intros j N; cbn; now apply upd_other|]. right. split; [apply pot_ext; intros j _; cbn; destruct (Nat.eq_dec j i) as [->|N]; [rewrite upd_same; unfold tw; cbn; now rewrite Ep|now rewrite upd_other]|].
    unfold quiet, outside. cbn. rewrite upd_same. cbn. split; [reflexivity|]. split; [intros j N; now apply upd_other|]. auto.
  - assert (Ii : inside s i) by (unfold inside; now rewrite Ep).
    assert (Li : i < n) by (destruct (Nat.lt_ge_cases i n) as [|G]; [auto|destruct (L i G) as (_ & K); contradiction]).
    pose proof (H i Ii) as Ht. destruct rest as [|f rest].
    + intros E; injection E as <-. split; [intros j G; cbn; unfold inside; cbn; rewrite upd_other by lia; apply L; auto|].
      split; [intros j; unfold inside; cbn; destruct (Nat.eq_dec j i) as [->|N]; [rewrite upd_same; cbn; contradiction|rewrite upd_other by auto; apply H]|].
      split; [intros j N; cbn; now apply upd_other|]. left. split; [exact Li|]. apply (pot_one n s _ i 1); [exact Li| |intros j N; cbn; now apply upd_other].
      cbn. rewrite upd_same. unfold tw. cbn [ph todo own]. rewrite Ep. cbn [length]. lia.
    + destruct (f (shr s) (own (thr s i))) as [y| | |]; cbn [bind]; try discriminate. intros E; injection E as <-.
      split; [intros j G; cbn; unfold inside; cbn; rewrite upd_other by lia; apply L; auto|].
      split; [intros j; unfold inside; cbn; destruct (Nat.eq_dec j i) as [->|N]; [rewrite upd_same; cbn; auto|rewrite upd_other by auto; apply H]|].
      split; [intros j N; cbn; now apply upd_other|]. left. split; [exact Li|]. apply (pot_one n s _ i 1); [exact Li| |intros j N; cbn; now apply upd_other].
      cbn. rewrite upd_same. unfold tw. cbn [ph todo own]. rewrite Ep. cbn [length]. lia.
Qed.
Lemma run_work n sched : forall s s', loaded s n -> inhead s -> srun sched s = Ok s' -> loaded s' n /\ inhead s' /\ pot n s' <= pot n s.
Proof.
  induction sched as [|i r IH]; intros s s' L H; cbn [srun]; [intros E; injection E as <-; auto|].
  destruct (sstep s i) as [s1| | |] eqn:E; cbn [bind]; try discriminate. destruct (step_work n s i s1 L H E) as (L1 & H1 & _ & W).
  intros R. destruct (IH s1 s' L1 H1 R) as (L2 & H2 & P2). split; [exact L2|]. split; [exact H2|]. destruct W as [(_ & W)|(W & _)]; lia.
Qed.
Lemma inside_works n h sched : forall s s', loaded s n -> inhead s -> inside s h -> In h sched -> srun sched s = Ok s' -> pot n s' < pot n s.
Proof.
  induction sched as [|i r IH]; intros s s' L H Ih I; [destruct I|]. cbn [srun].
  destruct (sstep s i) as [s1| | |] eqn:E; cbn [bind]; try discriminate. destruct (step_work n s i s1 L H E) as (L1 & H1 & N1 & W).
  intros R. pose proof (run_work n r s1 s' L1 H1 R) as (_ & _ & P2). destruct W as [(_ & W)|(W & Q)]; [lia|].
  destruct (Nat.eq_dec h i) as [->|Ne]; [unfold inside in Ih; destruct Q as (_ & _ & _ & [K|K] & _); rewrite K in Ih; contradiction|].
  destruct I as [I|I]; [congruence|]. rewrite <- W. apply (IH s1 s'); auto. unfold inside in *. now rewrite N1.
Qed.
Lemma try_works n k sec l h sched : forall s s', loaded s n -> inhead s -> flag s k = false -> ph (thr s h) = PTry -> todo (thr s h) = (k, sec) :: l ->
  In h sched -> srun sched s = Ok s' -> pot n s' < pot n s.
Proof.
  induction sched as [|i r IH]; intros s s' L H F Eh Et I; [destruct I|]. cbn [srun].
  destruct (sstep s i) as [s1| | |] eqn:E; cbn [bind]; try discriminate. destruct (step_work n s i s1 L H E) as (L1 & H1 & N1 & W).
  intros R. pose proof (run_work n r s1 s' L1 H1 R) as (_ & _ & P2). destruct W as [(_ & W)|(W & Q)]; [lia|].
  destruct (Nat.eq_dec h i) as [->|Ne].
  - unfold sstep in E. rewrite Eh, Et, F in E. injection E as <-. destruct Q as (_ & _ & _ & _ & [K|K]); cbn in K; rewrite upd_same in K; discriminate.
  - destruct I as [I|I]; [congruence|]. rewrite <- W. destruct Q as (Q1 & _). apply (IH s1 s'); auto; [now rewrite Q1|now rewrite N1|now rewrite N1].
Qed.
Lemma spin_works n k sec l h sched : forall s s', loaded s n -> inhead s -> flag s k = false -> outside s h -> todo (thr s h) = (k, sec) :: l ->
  In h sched -> srun sched s = Ok s' -> pot n s' < pot n s \/ (flag s' k = false /\ ph (thr s' h) = PTry /\ todo (thr s' h) = (k, sec) :: l).
Proof.
  induction sched as [|i r IH]; intros s s' L H F Oh Et I; [destruct I|]. cbn [srun].
  destruct (sstep s i) as [s1| | |] eqn:E; cbn [bind]; try discriminate. destruct (step_work n s i s1 L H E) as (L1 & H1 & N1 & W).
  intros R. pose proof (run_work n r s1 s' L1 H1 R) as (_ & _ & P2). destruct W as [(_ & W)|(W & Q)]; [left; lia|].
  destruct Q as (Q1 & _ & Q3 & Q4 & Q5).
  destruct (Nat.eq_dec h i) as [->|Ne].
  - (* now about to test and set, until something happens *)
    assert (Ep : ph (thr s1 i) = PTry).
    { unfold sstep in E. destruct Q4 as [K|K]; rewrite K, Et, F in E; injection E as <-.
      - exfalso. destruct Q5 as [K'|K']; cbn in K'; rewrite upd_same in K'; discriminate.
      - cbn. now rewrite upd_same. }
    rewrite <- W. assert (F1 : flag s1 k = false) by (now rewrite Q1). assert (Et1 : todo (thr s1 i) = (k, sec) :: l) by (now rewrite Q3).
    clear - L1 H1 F1 Ep Et1 R. revert s1 L1 H1 F1 Ep Et1 R. induction r as [|j r IH]; intros s1 L1 H1 F1 Ep Et1; cbn [srun].
    + intros E. injection E as <-. right. auto.
    + intros R. destruct (sstep s1 j) as [s2| | |] eqn:E; cbn [bind] in R; try discriminate. destruct (step_work n s1 j s2 L1 H1 E) as (L2 & H2 & N2 & W2).
      pose proof (run_work n r s2 s' L2 H2 R) as (_ & _ & P3). destruct W2 as [(_ & W2)|(W2 & Q)]; [left; lia|]. rewrite <- W2.
      destruct (Nat.eq_dec j i) as [->|Ne].
      * exfalso. unfold sstep in E. rewrite Ep, Et1, F1 in E. injection E as <-. destruct Q as (_ & _ & _ & _ & [K|K]); cbn in K; rewrite upd_same in K; discriminate.
      * destruct Q as (Q1 & _). apply (IH s2); auto; [now rewrite Q1|now rewrite N2 by auto|now rewrite N2 by auto].
  - destruct I as [I|I]; [congruence|]. rewrite <- W. apply (IH s1 s'); auto; [now rewrite Q1|unfold outside in *; now rewrite N1|now rewrite N1].
Qed.
Lemma pot_pos n s : 0 < pot n s -> exists h, h < n /\ 0 < tw (thr s h).
Proof.
  induction n as [|n IH]; cbn [pot]; [lia|]. intros H. destruct (Nat.eq_dec (tw (thr s n)) 0) as [E|E]; [destruct IH as (h & Lh & Ph); [lia|exists h; split; [lia|exact Ph]]|exists n; split; [lia|lia]].
Qed.
Lemma sinv_parts k a p s : sinv k a p s -> inhead s /\ (forall i, Forall (fun sec => fst sec = k) (todo (thr s i))) /\
  ((flag s k = false /\ forall i, outside s i) \/ (exists h, inside s h)).
Proof.
  intros (a' & p' & _ & Et & O & _ & M). destruct M as [(F & _ & Out)|(F & h & rest & sec & r & Eh & Eq & _ & Oth)].
  - split; [intros i Ii; unfold inside in Ii; destruct (Out i) as ([K|K] & _); rewrite K in Ii; contradiction|].
    split; [intros i; rewrite Et; apply O|]. left. split; [exact F|]. intros i. apply Out.
  - split; [intros i Ii; destruct (Nat.eq_dec i h) as [->|N]; [rewrite Et, Eq; discriminate|destruct (Oth i N) as ([K|K] & _); unfold inside in Ii; rewrite K in Ii; contradiction]|].
    split; [intros i; rewrite Et; apply O|]. right. exists h. unfold inside. now rewrite Eh.
Qed.
Definition round n (r : list nat) : Prop := forall j, j < n -> In j r.
Lemma two_rounds n k a p s s' r1 r2 : sinv k a p s -> loaded s n -> round n r1 -> round n r2 -> srun (r1 ++ r2) s = Ok s' -> 0 < pot n s -> pot n s' < pot n s.
Proof.
  intros I L R1 R2 R P. rewrite srun_app in R. destruct (srun r1 s) as [s1| | |] eqn:E1; cbn [bind] in R; try discriminate.
  destruct (sinv_parts k a p s I) as (H & Ol & St). pose proof (run_work n r1 s s1 L H E1) as (L1 & H1 & P1). pose proof (run_work n r2 s1 s' L1 H1 R) as (_ & _ & P2).
  destruct St as [(F & Out)|(h & Ih)].
  - destruct (pot_pos n s P) as (h & Lh & Ph). assert (exists sec l, todo (thr s h) = (k, sec) :: l) as (sec & l & Et).
    { specialize (Ol h). unfold tw in Ph. destruct (Out h) as [K|K]; rewrite K in Ph; (destruct (todo (thr s h)) as [|[k1 sec] l]; [cbn in Ph; lia|inversion Ol; cbn [fst] in *; subst; eauto]). }
    destruct (spin_works n k sec l h r1 s s1 L H F (Out h) Et (R1 h Lh) E1) as [W|(F1 & T1 & Et1)]; [lia|].
    pose proof (try_works n k sec l h r2 s1 s' L1 H1 F1 T1 Et1 (R2 h Lh) R). lia.
  - assert (Lh : h < n) by (destruct (Nat.lt_ge_cases h n) as [|G]; [auto|destruct (L h G); contradiction]).
    pose proof (inside_works n h r1 s s1 L H Ih (R1 h Lh) E1). lia.
Qed.
Lemma pot_zero n s : pot n s = 0 -> forall i, i < n -> tw (thr s i) = 0.
Proof. induction n as [|n IH]; cbn [pot]; intros H i Li; [lia|]. destruct (Nat.eq_dec i n) as [->|]; [lia|apply IH; lia]. Qed.
Lemma tw_zero (t : th A X) : tw t = 0 -> todo t = [] /\ (ph t = PTry \/ ph t = PSpin).
Proof. unfold tw. destruct (ph t) eqn:E; [| |lia]; (destruct (todo t) as [|[k sec] l]; [auto|cbn [secs_work]; lia]). Qed.
Lemma rounds_end n k a p m : forall rounds s s', pot n s <= m -> 2 * m <= length rounds -> Forall (round n) rounds -> sinv k a p s -> loaded s n ->
  srun (concat rounds) s = Ok s' -> pot n s' = 0.
Proof.
  induction m as [|m IH]; intros rounds s s' P Ln Fr I L R.
  - destruct (sinv_parts k a p s I) as (H & _). destruct (run_work n _ s s' L H R) as (_ & _ & P'). lia.
  - destruct rounds as [|r1 [|r2 rounds]]; cbn [length] in Ln; [lia|lia|]. inversion Fr as [|? ? R1 Fr1]; subst. inversion Fr1 as [|? ? R2 Fr2]; subst.
    cbn [concat] in R. rewrite app_assoc, srun_app in R. destruct (srun (r1 ++ r2) s) as [s1| | |] eqn:E1; cbn [bind] in R; try discriminate.
    destruct (sinv_parts k a p s I) as (H & _). pose proof (run_work n (r1 ++ r2) s s1 L H E1) as (L1 & H1 & P1).
    apply (IH rounds s1 s'); auto; [|lia|now apply (srun_inv k a p (r1 ++ r2) s I)].
    destruct (Nat.eq_dec (pot n s) 0) as [Z|Z]; [lia|]. pose proof (two_rounds n k a p s s1 r1 r2 I L R1 R2 E1). lia.
Qed.
Lemma pot_init n a p : pot n (sinit a p) = work n p.
Proof. induction n as [|n IH]; cbn [pot work]; [reflexivity|]. rewrite IH. reflexivity. Qed.
Lemma fair_end n k a p rounds s : one_lock k p -> (forall i, n <= i -> snd (p i) = []) -> Forall (fun r => forall j, j < n -> In j r) rounds ->
  2 * work n p <= length rounds -> srun (concat rounds) (sinit a p) = Ok s -> forall i, todo (thr s i) = [] /\ ~ inside s i.
Proof.
  intros O Ln Fr Le R. pose proof (sinv_init k a p O) as I. assert (L : loaded (sinit a p) n) by (intros i G; cbn; split; [now apply Ln|intros []]).
  pose proof (rounds_end n k a p (work n p) rounds (sinit a p) s) as Z. rewrite pot_init in Z. specialize (Z (le_n _) Le Fr I L R).
  destruct (sinv_parts k a p _ I) as (H & _). destruct (run_work n _ _ s L H R) as (L' & _ & _).
  intros i. destruct (Nat.lt_ge_cases i n) as [G|G]; [|now apply L'].
  destruct (tw_zero _ (pot_zero n s Z i G)) as (E & K). split; [exact E|]. unfold inside. destruct K as [K|K]; rewrite K; auto.
Qed.
(* a lock nobody will release *)
Lemma stuck k sched : forall s s', flag s k = true -> (forall i, outside s i /\ Forall (fun sec => fst sec = k) (todo (thr s i))) ->
  srun sched s = Ok s' -> shr s' = shr s /\ slog s' = slog s /\ forall i, todo (thr s' i) = todo (thr s i).
Proof.
  induction sched as [|i r IH]; intros s s' F Out; cbn [srun]; [intros E; injection E as <-; auto|].
  destruct (sstep s i) as [s1| | |] eqn:E; cbn [bind]; try discriminate.
  assert (G : flag s1 = flag s /\ shr s1 = shr s /\ slog s1 = slog s /\ (forall j, todo (thr s1 j) = todo (thr s j)) /\ forall j, outside s1 j).
  { destruct (Out i) as (Oi & Fi). unfold sstep in E. destruct Oi as [Oi|Oi]; rewrite Oi in E; (destruct (todo (thr s i)) as [|[k1 sec] l] eqn:Et; [injection E as <-; repeat split; auto; apply Out|]).
    - inversion Fi; cbn [fst] in *; subst. rewrite F in E. injection E as <-. cbn. repeat split; auto; intros j; unfold outside; cbn; (destruct (Nat.eq_dec j i) as [->|N]; [rewrite !upd_same; cbn; auto|rewrite !upd_other by auto; auto; apply Out]).
    - inversion Fi; cbn [fst] in *; subst. rewrite F in E. injection E as <-. repeat split; auto; apply Out. }
  destruct G as (G1 & G2 & G3 & G4 & G5). intros R. apply IH in R; [|now rewrite G1|intros j; split; [apply G5|rewrite G4; apply Out]].
  rewrite G2, G3 in R. destruct R as (R1 & R2 & R3). split; [exact R1|]. split; [exact R2|]. intros j. now rewrite R3.
Qed.
End Lemmas.

(* ---- appending under the array's lock ---- *)
Lemma exec_append {V} mv (v : V) l c x : (length l < c \/ (0 < c /\ mv (2 * c) = false)) -> length l <= c ->
  exists c', exec (append_steps mv v) (array_of l c) x = Ok (array_of (l ++ [v]) c', length l) /\ length l < c' /\ c <= c' /\ (length l < c -> c' = c).
Proof.
  intros H Hc. unfold append_steps, array_of. cbn [exec bind fst snd gone cap size].
  destruct (Nat.leb_spec c (length l)) as [G|G].
  - destruct H as [H|(P & M)]; [lia|]. exists (2 * c). cbn [bind exec fst snd gone cap size cells]. rewrite M.
    destruct (Nat.ltb_spec (length l) (2 * c)); [|lia]. cbn [bind exec fst snd gone cap size cells].
    rewrite firstn_all, app_length. cbn [length]. rewrite Nat.add_1_r. split; [reflexivity|]. repeat split; lia.
  - exists c. cbn [bind exec fst snd gone cap size cells]. destruct (Nat.ltb_spec (length l) c); [|lia]. cbn [bind exec fst snd gone cap size cells].
    rewrite firstn_all, app_length. cbn [length]. rewrite Nat.add_1_r. split; [reflexivity|]. repeat split; lia.
Qed.
Section Append.
Context {V : Type}.
Implicit Types vs : nat -> list V.
(* what is left to append, while a thread's list shrinks *)
Definition rest_of k mv (q : nat -> nat * list (section (arr (nat * V)) nat)) (ws : nat -> list V) : Prop :=
  forall i, snd (q i) = map (fun v => (k, append_steps mv (i, v))) (ws i).
Lemma total_upd n vs i v l : i < n -> vs i = v :: l -> total n (upd vs i l) + 1 = total n vs.
Proof.
  intros L E. induction n as [|n IH]; [lia|]. cbn [total]. destruct (Nat.eq_dec i n) as [->|Ne].
  - rewrite upd_same, E. cbn [length]. assert (forall m, m <= n -> total m (upd vs n l) = total m vs) as G.
    { induction m as [|m IHm]; intros Hm; cbn [total]; [reflexivity|]. rewrite upd_other by lia. rewrite IHm by lia. reflexivity. }
    rewrite G by lia. lia.
  - rewrite upd_other by lia. rewrite <- IH by lia. lia.
Qed.
Lemma total_pos n vs i v l : i < n -> vs i = v :: l -> 0 < total n vs.
Proof. intros L E. pose proof (total_upd n vs i v l L E). lia. Qed.
Lemma append_order k mv n order : forall l c q ws, rest_of k mv q ws -> (forall i, n <= i -> ws i = []) -> length l <= c ->
  (length l + total n ws <= c \/ (0 < c /\ forall m, mv m = false)) ->
  exists log c' q' ws', atomically order (array_of l c) q = Ok (array_of (l ++ log) c', q') /\ rest_of k mv q' ws' /\ (forall i, from_thread i log ++ ws' i = ws i) /\
    (length l + total n ws <= c -> c' = c) /\ length (l ++ log) <= c'.
Proof.
  induction order as [|i order IH]; intros l c q ws Q Nn Hl Hc; cbn [atomically].
  - exists [], c, q, ws. rewrite app_nil_r. split; [reflexivity|]. split; [exact Q|]. split; [reflexivity|]. split; [reflexivity|exact Hl].
  - pose proof (Q i) as Qi. destruct (ws i) as [|v wr] eqn:Ew.
    + cbn [map] in Qi. rewrite Qi. now apply IH.
    + cbn [map] in Qi. rewrite Qi. assert (Li : i < n) by (destruct (Nat.lt_ge_cases i n) as [|G]; [auto|rewrite Nn in Ew by auto; discriminate]).
      pose proof (total_pos n ws i v wr Li Ew) as Tp. pose proof (total_upd n ws i v wr Li Ew) as Tu.
      destruct (exec_append mv (i, v) l c (fst (q i))) as (c1 & -> & C1 & C2 & C3); [destruct Hc as [Hc|(Hc & Hm)]; [left; lia|right; auto]|exact Hl|].
      cbn [bind fst snd].
      destruct (IH (l ++ [(i, v)]) c1 (upd q i (length l, map (fun v => (k, append_steps mv (i, v))) wr)) (upd ws i wr)) as (log & c' & q' & ws' & E & Q' & Fr & Cc & Cl).
      * intros j. destruct (Nat.eq_dec j i) as [->|N]; [rewrite !upd_same; reflexivity|rewrite !upd_other by auto; apply Q].
      * intros j G. rewrite upd_other by lia. now apply Nn.
      * rewrite app_length. cbn. lia.
      * rewrite app_length. cbn [length]. destruct Hc as [Hc|(Hc & Hm)]; [left; lia|right; split; [lia|exact Hm]].
      * exists ((i, v) :: log), c', q', ws'. change (l ++ (i, v) :: log) with (l ++ [(i, v)] ++ log). rewrite app_assoc. split; [exact E|]. split; [exact Q'|].
        split; [|split; [intros Hf; rewrite Cc; [apply C3; lia|rewrite app_length; cbn [length]; rewrite C3 by lia; lia]|exact Cl]].
        intros j. specialize (Fr j). unfold from_thread in *. cbn [filter fst]. destruct (Nat.eqb_spec i j) as [->|N].
        -- cbn [map snd app]. rewrite upd_same in Fr. now rewrite Ew, <- Fr.
        -- rewrite upd_other in Fr by auto. exact Fr.
Qed.
Lemma one_lock_app k mv vs : one_lock k (appenders k mv vs).
Proof. intros i. unfold appenders. cbn. induction (vs i); cbn; constructor; auto. Qed.
Lemma appends k mv n vs l c : (forall i, n <= i -> vs i = []) -> (length l + total n vs <= c \/ (0 < c /\ forall m, mv m = false)) -> length l <= c ->
  forall sched, exists s, srun sched (sinit (array_of l c) (appenders k mv vs)) = Ok s /\
    ((forall i, ~ inside s i) -> exists log c', shr s = array_of (l ++ log) c' /\ forall i, exists todo', from_thread i log ++ todo' = vs i /\ length todo' = length (todo (thr s i))).
Proof.
  intros Nn Hc Hl sched. assert (Q : rest_of k mv (appenders k mv vs) vs) by (intros i; reflexivity).
  destruct (safe k (array_of l c) (appenders k mv vs) (one_lock_app k mv vs)) with (sched := sched) as (s & R).
  { intros order. destruct (append_order k mv n order l c _ vs Q Nn Hl Hc) as (log & c' & q' & ws' & E & _). eauto. }
  exists s. split; [exact R|]. intros N. destruct (serial k _ _ sched s (one_lock_app k mv vs) R N) as (q & E & Th).
  destruct (append_order k mv n (slog s) l c _ vs Q Nn Hl Hc) as (log & c' & q' & ws' & E' & Q' & Fr & _).
  assert (Eq : array_of (l ++ log) c' = shr s /\ q' = q) by (split; congruence). destruct Eq as (E1 & ->).
  exists log, c'. split; [auto|]. intros i. exists (ws' i). split; [apply Fr|]. destruct (Th i) as (_ & T & _). rewrite T, Q'. now rewrite map_length.
Qed.
End Append.

(* every thread having its turn again and again, all is appended *)
Lemma secs_work_app {V} (k : nat) mv (i : nat) (l : list V) : secs_work (map (fun v => (k, append_steps mv (i, v))) l) = 7 * length l.
Proof. induction l as [|v l IH]; cbn [map secs_work length]; [reflexivity|]. rewrite IH. unfold append_steps. cbn [length]. lia. Qed.
Lemma work_app {V} (k : nat) mv (vs : nat -> list V) n : work n (appenders k mv vs) = 7 * total n vs.
Proof. induction n as [|n IH]; cbn [work total]; [reflexivity|]. rewrite IH. unfold appenders. cbn [snd]. rewrite secs_work_app. lia. Qed.
Lemma appends_all {V} k mv n (vs : nat -> list V) l c rounds : (forall i, n <= i -> vs i = []) ->
  (length l + total n vs <= c \/ (0 < c /\ forall m, mv m = false)) -> length l <= c ->
  Forall (fun r => forall j, j < n -> In j r) rounds -> 14 * total n vs <= length rounds ->
  exists s log c', srun (concat rounds) (sinit (array_of l c) (appenders k mv vs)) = Ok s /\ shr s = array_of (l ++ log) c' /\ forall i, from_thread i log = vs i.
Proof.
  intros Nn Hc Hl Fr Le. destruct (appends k mv n vs l c Nn Hc Hl (concat rounds)) as (s & R & G).
  assert (D : forall i, todo (thr s i) = [] /\ ~ inside s i).
  { apply (fair_end n k (array_of l c) (appenders k mv vs) rounds s (one_lock_app k mv vs)); auto; [intros i Hi; unfold appenders; cbn; now rewrite Nn|rewrite work_app; lia]. }
  destruct G as (log & c' & E & Th); [intros i; apply D|]. exists s, log, c'. split; [exact R|]. split; [exact E|].
  intros i. destruct (Th i) as (t & E1 & E2). destruct (D i) as (D1 & _). rewrite D1 in E2. destruct t; [now rewrite app_nil_r in E1|discriminate].
Qed.

(* ---- what goes wrong ---- *)
Lemma inside_run {A X} i rest : forall (s : sst A X) k, ph (thr s i) = PIn k rest -> exec rest (shr s) (own (thr s i)) = UB -> srun (repeat i (length rest)) s = UB.
Proof.
  induction rest as [|f rest IH]; intros s k E; cbn [exec repeat length srun]; [discriminate|]. unfold sstep. rewrite E.
  destruct (f (shr s) (own (thr s i))) as [y| | |]; cbn [bind]; try discriminate; [|reflexivity]. intros H. apply (IH _ k); cbn; rewrite upd_same; cbn; auto.
Qed.
(* the array is full and growing moves it: the lock is in the freed block *)
Lemma append_moved {V} k (mv : nat -> bool) (v : V) l : l <> [] -> mv (2 * length l) = true ->
  srun (repeat 0 6) (sinit (array_of l (length l)) (fun i => (0, match i with 0 => [(k, append_steps mv v)] | _ => [] end))) = UB.
Proof.
  intros N M. assert (L : 0 < length l) by (destruct l; [congruence|cbn; lia]).
  assert (P : (length l <=? length l) = true) by (apply Nat.leb_refl). assert (Q : (length l <? 2 * length l) = true) by (apply Nat.ltb_lt; lia).
  change (repeat 0 6) with (0 :: repeat 0 (length (append_steps mv v))). cbn [srun]. unfold sstep. cbn [sinit thr ph todo flag snd]. cbn [bind].
  apply (inside_run 0 _ _ k); [cbn; reflexivity|]. unfold append_steps, array_of. cbn [set_ph set_flag sinit shr thr exec gone cap size]. rewrite P. cbn [bind fst snd exec size cap]. 
  rewrite Q. cbn [bind fst snd exec size cap gone]. rewrite M. reflexivity.
Qed.
(* two locks for one array: one of two values is lost *)
Definition two_locks {V} mv (u v : V) (i : nat) : nat * list (section (arr V) nat) :=
  (0, match i with 0 => [(0, append_steps mv u)] | 1 => [(1, append_steps mv v)] | _ => [] end).
Lemma lost : exists sched s, srun sched (sinit (array_of [7] 4) (two_locks (fun _ => false) 1 2)) = Ok s /\
  todo (thr s 0) = [] /\ todo (thr s 1) = [] /\ shr s = array_of [7; 2] 4.
Proof. exists [0; 1; 0; 1; 0; 0; 1; 1; 0; 1; 0; 1; 0; 1]. eexists. split; [vm_compute; reflexivity|]. split; [reflexivity|]. split; reflexivity. Qed.
(* a thread may wait as long as others keep coming *)
Definition hog (m : nat) (i : nat) : unit * list (section unit unit) := (tt, match i with 0 => repeat (0, []) m | 1 => [(0, [])] | _ => [] end).
Lemma starve m : exists sched s, srun sched (sinit tt (hog m)) = Ok s /\ m <= count_occ Nat.eq_dec sched 1 /\ length (todo (thr s 1)) = 1 /\ slog s = repeat 0 m.
Proof.
  assert (G : forall m (s : sst unit unit), flag s 0 = false -> ph (thr s 0) = PTry -> todo (thr s 0) = repeat (0, []) m -> ph (thr s 1) = PTry -> todo (thr s 1) = [(0, [])] ->
    exists sched s', srun sched s = Ok s' /\ m <= count_occ Nat.eq_dec sched 1 /\ length (todo (thr s' 1)) = 1 /\ slog s' = slog s ++ repeat 0 m).
  { clear m. induction m as [|m IH]; intros s F P0 T0 P1 T1.
    - exists [], s. split; [reflexivity|]. split; [lia|]. rewrite T1, app_nil_r. auto.
    - cbn [repeat] in T0.
      assert (R4 : exists s4, srun [0; 1; 0; 1] s = Ok s4 /\ flag s4 0 = false /\ ph (thr s4 0) = PTry /\ todo (thr s4 0) = repeat (0, []) m /\
        ph (thr s4 1) = PTry /\ todo (thr s4 1) = [(0, [])] /\ slog s4 = slog s ++ [0]).
      { eexists. split; [cbn [srun]; unfold sstep; rewrite P0, T0, F; cbn; rewrite P1, T1; cbn; rewrite ?T0, ?T1; cbn; reflexivity|]. cbn. rewrite ?T0, ?T1. auto 7. }
      destruct R4 as (s4 & R4 & F4 & P4 & T4 & P5 & T5 & L4). destruct (IH s4 F4 P4 T4 P5 T5) as (sched & s' & R & C & T & L).
      exists ([0; 1; 0; 1] ++ sched), s'. split; [rewrite srun_app, R4; exact R|]. split; [rewrite count_occ_app; cbn; lia|]. split; [exact T|].
      rewrite L, L4. cbn [repeat]. now rewrite <- app_assoc. }
  apply (G m (sinit tt (hog m))); reflexivity.
Qed.
