(* The Windows poller: invariants and the callers' view. *)
Require Import Verif.Base Verif.WeModel.
Require Import List ZArith Lia Bool Arith Permutation.
Import ListNotations.
Open Scope Z_scope.

(* ---- masks ---- *)
Lemma nonzero_bit x : x <> 0 -> exists i, 0 <= i /\ Z.testbit x i = true.
Proof.
  intros N. destruct (Z.lt_trichotomy x 0) as [L|[L|L]]; [|contradiction|].
  - exists (Z.succ (Z.log2 (Z.abs x))). split; [pose proof (Z.log2_nonneg (Z.abs x)); lia|]. apply Z.bits_iff_neg'. exact L.
  - exists (Z.log2 x). split; [apply Z.log2_nonneg|]. apply Z.bit_log2. exact L.
Qed.
Lemma hasb_bits m b : hasb m b = true <-> exists i, 0 <= i /\ Z.testbit m i = true /\ Z.testbit b i = true.
Proof.
  unfold hasb. split.
  - intros H. destruct (Z.eqb_spec (Z.land m b) 0) as [E|E]; [discriminate|]. destruct (nonzero_bit _ E) as (i & I0 & B).
    rewrite Z.land_spec in B. apply andb_true_iff in B. exists i. tauto.
  - intros (i & I0 & A & B). destruct (Z.eqb_spec (Z.land m b) 0) as [E|E]; [|reflexivity].
    assert (X : Z.testbit (Z.land m b) i = true) by (rewrite Z.land_spec, A, B; reflexivity). rewrite E, Z.bits_0 in X. discriminate.
Qed.
Lemma hasb_sym m b : hasb m b = hasb b m. Proof. unfold hasb. rewrite Z.land_comm. reflexivity. Qed.
Lemma hasb_lor m a b : hasb m (Z.lor a b) = hasb m a || hasb m b.
Proof.
  unfold hasb. rewrite Z.land_lor_distr_r. destruct (Z.eqb_spec (Z.land m a) 0) as [A|A], (Z.eqb_spec (Z.land m b) 0) as [B|B]; cbn [negb orb];
    destruct (Z.eqb_spec (Z.lor (Z.land m a) (Z.land m b)) 0) as [C|C]; cbn; try reflexivity; try (apply Z.lor_eq_0_iff in C; tauto).
  rewrite A, B in C. destruct C. reflexivity.
Qed.
Lemma hasb_lor_l m a b : hasb (Z.lor a b) m = hasb a m || hasb b m.
Proof. rewrite hasb_sym, hasb_lor, (hasb_sym m a), (hasb_sym m b). reflexivity. Qed.
Lemma hasb_on m b x : hasb m (on b x) = b && hasb m x.
Proof. destruct b; cbn [on andb]; [reflexivity|]. unfold hasb. rewrite Z.land_0_r. reflexivity. Qed.
Lemma hasb_on_l m b x : hasb (on b x) m = b && hasb x m.
Proof. rewrite hasb_sym, hasb_on, (hasb_sym m). reflexivity. Qed.

(* what is reported for a condition was asked from the kernel *)
Lemma asked_for c u : hasb u EPOLLERR = true -> hasb (afd2ep c) u = true -> hasb c (ep2afd u) = true.
Proof.
  unfold afd2ep, ep2afd. rewrite !hasb_lor_l, !hasb_lor, !hasb_on, !hasb_on_l, !hasb_lor, !hasb_lor_l.
  rewrite !(hasb_sym EPOLLIN u), !(hasb_sym EPOLLOUT u), !(hasb_sym EPOLLPRI u), !(hasb_sym EPOLLERR u), !(hasb_sym EPOLLHUP u), !(hasb_sym EPOLLRDNORM u), !(hasb_sym EPOLLRDBAND u),
    !(hasb_sym EPOLLWRNORM u), !(hasb_sym EPOLLWRBAND u), !(hasb_sym EPOLLRDHUP u).
  repeat rewrite orb_true_iff. repeat rewrite andb_true_iff. repeat rewrite orb_true_iff. tauto.
Qed.
Lemma covered_bit u pd b : hasb (Z.land u KNOWN) (Z.lnot pd) = false -> Z.land b KNOWN = b -> hasb u b = true -> hasb pd b = true.
Proof.
  intros C K H. apply hasb_bits in H as (i & I0 & A & B). apply hasb_bits. exists i. split; [exact I0|]. split; [|exact B].
  destruct (Z.testbit pd i) eqn:P; [reflexivity|]. assert (X : hasb (Z.land u KNOWN) (Z.lnot pd) = true); [|congruence].
  apply hasb_bits. exists i. rewrite Z.land_spec, A, Z.lnot_spec, P by lia. rewrite <- K, Z.land_spec in B. apply andb_true_iff in B as [_ B]. rewrite B. auto.
Qed.
Lemma covered_mask c u pd : hasb (Z.land u KNOWN) (Z.lnot pd) = false -> hasb c (ep2afd u) = true -> hasb c (ep2afd pd) = true.
Proof.
  intros C. assert (Q : forall b, Z.land b KNOWN = b -> hasb u b = true -> hasb pd b = true) by (intros b; apply covered_bit, C).
  pose proof (Q EPOLLIN eq_refl) as Q1. pose proof (Q EPOLLPRI eq_refl) as Q2. pose proof (Q EPOLLOUT eq_refl) as Q3. pose proof (Q EPOLLERR eq_refl) as Q4. pose proof (Q EPOLLHUP eq_refl) as Q5.
  pose proof (Q EPOLLRDNORM eq_refl) as Q6. pose proof (Q EPOLLRDBAND eq_refl) as Q7. pose proof (Q EPOLLWRNORM eq_refl) as Q8. pose proof (Q EPOLLWRBAND eq_refl) as Q9. pose proof (Q EPOLLRDHUP eq_refl) as Q10. clear Q.
  unfold ep2afd. rewrite !hasb_lor, !hasb_on, !hasb_lor. repeat rewrite orb_true_iff. repeat rewrite andb_true_iff. repeat rewrite orb_true_iff. tauto.
Qed.

(* ---- lists ---- *)
Lemma set_same {A} (f : nat -> A) i v : set f i v i = v. Proof. unfold set. rewrite Nat.eqb_refl. reflexivity. Qed.
Lemma set_other {A} (f : nat -> A) i v j : j <> i -> set f i v j = f j.
Proof. intros N. unfold set. destruct (Nat.eqb_spec j i); [contradiction|reflexivity]. Qed.
Lemma mem_in i l : mem i l = true <-> In i l.
Proof. unfold mem. rewrite existsb_exists. split; [intros (x & I & E); apply Nat.eqb_eq in E; subst x; exact I|intros I; exists i; rewrite Nat.eqb_refl; auto]. Qed.
Lemma in_without i j l : In j (without i l) <-> In j l /\ j <> i.
Proof. unfold without. rewrite filter_In. destruct (Nat.eqb_spec j i); cbn; intuition congruence. Qed.
Lemma nd_without i l : NoDup l -> NoDup (without i l). Proof. apply NoDup_filter. Qed.
Lemma without_none i l : ~ In i l -> without i l = l.
Proof. induction l as [|a l IH]; cbn; [reflexivity|]. intros N. destruct (Nat.eqb_spec a i); [tauto|]. cbn. f_equal. apply IH. tauto. Qed.
Lemma nd_snoc (i : nat) l : NoDup l -> ~ In i l -> NoDup (l ++ [i]).
Proof. intros N I. apply (Permutation_NoDup (l := i :: l)); [apply Permutation_cons_append|constructor; assumption]. Qed.
Lemma enq_or p i : enq p i = true <-> In i (updq p) \/ In i (delq p).
Proof. unfold enq. rewrite orb_true_iff, !mem_in. tauto. Qed.
Lemma dequeue_as p i : dequeue p i = unq p i.
Proof.
  unfold dequeue. destruct (enq p i) eqn:E; [reflexivity|]. unfold unq. assert (N : ~ (In i (updq p) \/ In i (delq p))) by (rewrite <- enq_or; congruence).
  rewrite !without_none by tauto. destruct p; reflexivity.
Qed.

(* ---- the invariant ---- *)
Definition done (p : port) (i : nat) : Prop := exists q a, req p i = Some q /\ kdone q = Some a.
Definition covered (s : sock) : Prop := hasb (Z.land (uev s) KNOWN) (Z.lnot (pend s)) = false.
Definition stat (p : port) (i : nat) (s : sock) : Prop :=
  match pst s with
  | Idle => req p i = None /\ In i (updq p) /\ pend s = 0
  | Pending => exists q, req p i = Some q /\ kmask q = ep2afd (pend s) /\ kcan q = false /\ (delp s = false -> In i (updq p) \/ covered s)
  | Cancelled => exists q, req p i = Some q /\ pend s = 0 /\ (kcan q = true \/ kdone q <> None)
  end.
Definition live (p : port) (i : nat) (s : sock) : Prop :=
  (i < nxt p)%nat /\ (forall k, In (k, i) (tree p) <-> k = skey s /\ delp s = false) /\ (In i (delq p) <-> delp s = true) /\ (In i (updq p) -> delp s = false) /\
  (delp s = true -> pst s <> Idle) /\ (uev s = 0 \/ hasb (uev s) EPOLLERR = true) /\ stat p i s.
Definition dead (p : port) (i : nat) : Prop := req p i = None /\ ~ In i (updq p) /\ ~ In i (delq p) /\ (forall k, ~ In (k, i) (tree p)).
Definition okS (p : port) (hold : nat -> list nat) (i : nat) : Prop :=
  match socks p i with None => dead p i | Some s => live p i s end /\ (done p i <-> In i (cq p) \/ exists t, In i (hold t)).
Definition glob (p : port) (hold : nat -> list nat) : Prop :=
  NoDup (map fst (tree p)) /\ NoDup (map snd (tree p)) /\ NoDup (updq p) /\ NoDup (delq p) /\ NoDup (cq p) /\ (forall t, NoDup (hold t)) /\
  (forall t i, In i (hold t) -> ~ In i (cq p)) /\ (forall t u i, In i (hold t) -> In i (hold u) -> t = u) /\ (forall i, closed p i = true -> (i < nxt p)%nat).
Definition InvS (p : port) (hold : nat -> list nat) : Prop := glob p hold /\ forall i, okS p hold i.

Lemma okS_ext p p' hold hold' j : okS p hold j -> socks p' j = socks p j -> req p' j = req p j -> (nxt p <= nxt p')%nat ->
  (In j (updq p') <-> In j (updq p)) -> (In j (delq p') <-> In j (delq p)) -> (forall k, In (k, j) (tree p') <-> In (k, j) (tree p)) ->
  (In j (cq p') \/ (exists t, In j (hold' t)) <-> In j (cq p) \/ exists t, In j (hold t)) -> okS p' hold' j.
Proof.
  intros [A B] ES ER EN EU ED ET EC. unfold okS. rewrite ES. split; [|unfold done in *; rewrite ER, EC; exact B].
  destruct (socks p j) as [s|].
  - destruct A as (A1 & A2 & A3 & A4 & A5 & A6 & A7). unfold live. split; [lia|]. split; [intros k; rewrite ET; apply A2|]. split; [rewrite ED; exact A3|]. split; [rewrite EU; exact A4|]. split; [exact A5|]. split; [exact A6|].
    unfold stat in *. rewrite ER. destruct (pst s); try setoid_rewrite EU; exact A7.
  - destruct A as (A1 & A2 & A3 & A4). unfold dead. rewrite ER, EU, ED. split; [exact A1|]. split; [exact A2|]. split; [exact A3|]. intros k. rewrite ET. apply A4.
Qed.

(* ---- groups ---- *)
Definition ing (f : nat -> option sock) (g : nat) (i : nat) : bool := match f i with Some s => Nat.eqb (grp s) g | None => false end.
Definition gcount (f : nat -> option sock) (n g : nat) : nat := length (filter (ing f g) (seq 0 n)).
Definition gsorted (l : list (nat * nat)) : Prop := exists a b, l = a ++ b /\ Forall (fun e => snd e = GMAX) a /\ Forall (fun e => (snd e < GMAX)%nat) b.
Definition InvG (p : port) : Prop :=
  NoDup (map fst (grps p)) /\ (forall g n, In (g, n) (grps p) -> n = gcount (socks p) (nxt p) g /\ (g < ngrp p)%nat) /\
  (forall i s, socks p i = Some s -> In (grp s) (map fst (grps p)) /\ (i < nxt p)%nat) /\ gsorted (grps p) /\ (forall g, (g < ngrp p)%nat -> In g (map fst (grps p))).

Lemma gcount_ext f f' n g : (forall i, (i < n)%nat -> ing f' g i = ing f g i) -> gcount f' n g = gcount f n g.
Proof. intros H. unfold gcount. f_equal. apply filter_ext_in. intros a I. apply in_seq in I. apply H. lia. Qed.
Lemma gcount_S f n g : gcount f (S n) g = (gcount f n g + (if ing f g n then 1 else 0))%nat.
Proof. unfold gcount. rewrite seq_S, filter_app, app_length. cbn. destruct (ing f g n); reflexivity. Qed.
Lemma gcount_free f n i s g : (i < n)%nat -> f i = Some s -> gcount f n g = (gcount (set f i None) n g + (if Nat.eqb (grp s) g then 1 else 0))%nat.
Proof.
  intros L E. induction n as [|n IH]; [lia|]. rewrite !gcount_S. destruct (Nat.eq_dec i n) as [->|N].
  - assert (X : gcount (set f n None) n g = gcount f n g). { apply gcount_ext. intros j J. unfold ing. rewrite set_other by lia. reflexivity. }
    rewrite X. unfold ing. rewrite set_same, E. destruct (Nat.eqb _ _); lia.
  - rewrite IH by lia. assert (X : ing (set f i None) g n = ing f g n) by (unfold ing; rewrite set_other by lia; reflexivity). rewrite X. lia.
Qed.
Lemma gcount_keep f n i s s' g : f i = Some s -> grp s' = grp s -> gcount (set f i (Some s')) n g = gcount f n g.
Proof.
  intros E G. apply gcount_ext. intros j _. unfold ing, set. destruct (Nat.eqb_spec j i) as [->|N]; [|reflexivity]. rewrite E, G. reflexivity.
Qed.
Lemma find_grp l x k : NoDup (map fst l) -> In (x, k) l -> find (fun e : nat * nat => Nat.eqb (fst e) x) l = Some (x, k).
Proof.
  induction l as [|[y m] l IH]; cbn; [contradiction|]. intros ND [E|I].
  - injection E as -> ->. rewrite Nat.eqb_refl. reflexivity.
  - apply NoDup_cons_iff in ND as [N ND]. destruct (Nat.eqb_spec y x) as [->|NE]; [|apply IH; assumption]. destruct N. apply (in_map fst) in I. exact I.
Qed.
(* releasing one place of a group that has one *)
Lemma release_ok l x k : NoDup (map fst l) -> In (x, S k) l -> (k < GMAX)%nat -> gsorted l ->
  exists l', release l x = Ok l' /\ NoDup (map fst l') /\ gsorted l' /\ (forall g n, In (g, n) l' <-> (g, n) = (x, k) \/ (g <> x /\ In (g, n) l)).
Proof.
  intros ND I L GS. unfold release. rewrite (find_grp _ _ _ ND I). rewrite (proj2 (Nat.ltb_lt k GMAX) L). eexists. split; [reflexivity|].
  assert (IN : forall g n, In (g, n) (filter (fun e : nat * nat => negb (Nat.eqb (fst e) x)) l) <-> g <> x /\ In (g, n) l).
  { intros g n. rewrite filter_In. cbn. destruct (Nat.eqb_spec g x); cbn; intuition congruence. }
  split; [|split].
  - rewrite map_app. apply (Permutation_NoDup (l := x :: map fst (filter (fun e : nat * nat => negb (Nat.eqb (fst e) x)) l))); [apply Permutation_cons_append|]. constructor.
    + intros J. apply in_map_iff in J as ([a b] & E & J). cbn in E. subst a. apply IN in J. tauto.
    + clear - ND. induction l as [|[a b] l IH]; cbn; [constructor|]. apply NoDup_cons_iff in ND as [N ND]. destruct (Nat.eqb a x); cbn; [auto|]. constructor; [|auto].
      intros J. apply N. apply in_map_iff in J as ([c d] & E & J). apply filter_In in J as [J _]. cbn in E. subst c. apply (in_map fst) in J. exact J.
  - destruct GS as (a & b & -> & FA & FB). exists (filter (fun e : nat * nat => negb (Nat.eqb (fst e) x)) a), (filter (fun e : nat * nat => negb (Nat.eqb (fst e) x)) b ++ [(x, k)]).
    rewrite filter_app, app_assoc. split; [reflexivity|]. split.
    + apply Forall_forall. intros e E. apply filter_In in E as [E _]. rewrite Forall_forall in FA. auto.
    + apply Forall_app. split; [|constructor; [exact L|constructor]]. apply Forall_forall. intros e E. apply filter_In in E as [E _]. rewrite Forall_forall in FB. auto.
  - intros g n. rewrite in_app_iff, IN. cbn. intuition congruence.
Qed.
Lemma full_or_room l x k : gsorted (l ++ [(x, k)]) -> (k <= GMAX)%nat /\ ((k < GMAX)%nat -> gsorted l) /\ (k = GMAX -> Forall (fun e => snd e = GMAX) (l ++ [(x, k)])).
Proof.
  intros (a & b & E & FA & FB). induction b as [|[y m] b _] using rev_ind.
  - rewrite app_nil_r in E. rewrite <- E in FA. pose proof FA as FA'. apply Forall_app in FA' as [F1 F2]. apply Forall_inv in F2. cbn in F2. split; [lia|]. split; [lia|]. auto.
  - rewrite app_assoc in E. apply app_inj_tail in E as [-> E]. injection E as -> ->. apply Forall_app in FB as [F1 F2]. apply Forall_inv in F2. cbn in F2. split; [lia|]. split; [|lia]. intros _. exists a, b. auto.
Qed.
Lemma acquire_ok l n fresh : NoDup (map fst l) -> gsorted l -> (forall g m, In (g, m) l -> (g < n)%nat) ->
  match acquire l n fresh with
  | None => fresh = false /\ Forall (fun e => snd e = GMAX) l
  | Some (l', x, n') => exists k, (k < GMAX)%nat /\ NoDup (map fst l') /\ gsorted l' /\ (forall g m, In (g, m) l' <-> (g, m) = (x, S k) \/ (g <> x /\ In (g, m) l)) /\
      ((In (x, k) l /\ n' = n) \/ (x = n /\ k = O /\ n' = S n /\ Forall (fun e => snd e = GMAX) l))
  end.
Proof.
  intros ND GS LT. unfold acquire.
  assert (NEW : Forall (fun e => snd e = GMAX) l -> exists k, (k < GMAX)%nat /\ NoDup (map fst (l ++ [(n, 1%nat)])) /\ gsorted (l ++ [(n, 1%nat)]) /\
     (forall g m, In (g, m) (l ++ [(n, 1%nat)]) <-> (g, m) = (n, S k) \/ (g <> n /\ In (g, m) l)) /\ ((In (n, k) l /\ S n = n) \/ (n = n /\ k = O /\ S n = S n /\ Forall (fun e => snd e = GMAX) l))).
  { intros F. exists O. split; [unfold GMAX; lia|]. split; [|split; [|split; [|right; auto]]].
    - rewrite map_app. cbn. apply nd_snoc; [exact ND|]. intros I. apply in_map_iff in I as ([a b] & E & I). cbn in E. subst a. apply LT in I. lia.
    - exists l, [(n, 1%nat)]. split; [reflexivity|]. split; [exact F|]. constructor; [cbn; unfold GMAX; lia|constructor].
    - intros g m. rewrite in_app_iff. cbn. split; [intros [I|[I|[]]]; [right; split; [|exact I]; apply LT in I; lia|left; congruence]|intros [I|I]; [right; left; congruence|tauto]]. }
  destruct (rev l) as [|[x k] r] eqn:RV.
  - assert (l = []) as -> by (rewrite <- (rev_involutive l), RV; reflexivity). destruct fresh; [|auto]. cbn [Nat.eqb GMAX app]. apply NEW. constructor.
  - assert (EQ : l = rev r ++ [(x, k)]) by (rewrite <- (rev_involutive l), RV; reflexivity). pose proof GS as GS'. rewrite EQ in GS'. apply full_or_room in GS' as (LE & RM & FL). rewrite <- EQ in FL.
    destruct (Nat.leb_spec GMAX k) as [G|G].
    + assert (k = GMAX) as KK by lia. destruct fresh; [|auto]. change (Nat.eqb 1 GMAX) with false. cbv iota. apply NEW, FL, KK.
    + specialize (RM G). exists k. split; [exact G|]. rewrite EQ, map_app in ND. cbn [map fst] in ND.
      assert (NI : ~ In x (map fst (rev r))). { intros I. apply (Permutation_NoDup (Permutation_app_comm _ _)) in ND. cbn in ND. apply NoDup_cons_iff in ND. tauto. }
      assert (NR : NoDup (map fst (rev r))) by (apply (Permutation_NoDup (Permutation_app_comm _ _)) in ND; cbn in ND; apply NoDup_cons_iff in ND; apply ND).
      assert (IN : forall g m, In (g, m) l <-> In (g, m) (rev r) \/ (g, m) = (x, k)). { intros g m. rewrite EQ, in_app_iff. cbn. intuition congruence. }
      assert (NX : forall m, ~ In (x, m) (rev r)) by (intros m I; apply NI; apply (in_map fst) in I; exact I).
      assert (ME : forall g m (b : bool), (In (g, m) (if b then (x, S k) :: rev r else rev r ++ [(x, S k)]) <-> (g, m) = (x, S k) \/ g <> x /\ In (g, m) l)).
      { intros g m b. rewrite IN. destruct b; rewrite ?in_app_iff; cbn [In].
        - split; [intros [I|I]; [left; congruence|right; split; [intros ->; exact (NX _ I)|tauto]]|intros [I|[N [I|I]]]; [left; congruence|tauto|congruence]].
        - split; [intros [I|[I|[]]]; [right; split; [intros ->; exact (NX _ I)|tauto]|left; congruence]|intros [I|[N [I|I]]]; [right; left; congruence|tauto|congruence]]. }
      split; [|split; [|split; [intros g m; apply ME|left; split; [rewrite IN; auto|reflexivity]]]].
      * destruct (Nat.eqb (S k) GMAX); cbn [map fst]; [constructor; assumption|]. rewrite map_app. cbn. apply nd_snoc; assumption.
      * destruct RM as (a & b & E & FA & FB). rewrite E. destruct (Nat.eqb_spec (S k) GMAX) as [Q|Q].
        -- exists ((x, S k) :: a), b. split; [reflexivity|]. split; [constructor; [exact Q|exact FA]|exact FB].
        -- exists a, (b ++ [(x, S k)]). rewrite app_assoc. split; [reflexivity|]. split; [exact FA|]. apply Forall_app. split; [exact FB|]. constructor; [cbn; lia|constructor].
Qed.

(* ---- what the callers may expect ---- *)
(* AFD bit -> epoll bits *)
Definition table : list (Z * list Z) := [(0, [0; 6]); (7, [0; 6]); (1, [1; 7]); (2, [2; 8; 9]); (3, [0; 6; 13]); (4, [4]); (8, [0; 2; 3; 6; 8; 13])].
Definition told (a : kans) (j : Z) : bool :=
  match a with
  | KFailed => j =? 3
  | KEvents e => existsb (fun r => Z.testbit e (fst r) && existsb (Z.eqb j) (snd r)) table
  | _ => false
  end.
(* a registered socket: what is asked, the caller's data, whether it was closed, the last answer of the kernel *)
Record ent := mke { easked : Z; edat : Z; ecl : bool; eans : option kans }.
(* registered sockets; waiting threads with their limit and whether they wait without end; events they got *)
Record sst := mkst { ents : Z -> option ent; lim : nat -> option (Z * bool); cnt : nat -> nat }.
Definition zset {A} (f : Z -> A) (k : Z) (v : A) : Z -> A := fun j => if j =? k then v else f j.
Definition badkey (k : Z) : Prop := k = 0 \/ k = invalid_socket.
Definition fair (st : sst) (o : obs) : Prop :=
  match o with
  | OCtl k (CAdd _ _ ae) hok None => ~ badkey k /\ ents st k = None /\ (ae = 0 \/ ae = 2)%nat
  | OCtl k (CAdd _ _ ae) hok (Some e) =>
    exists x, e = (if hok then x else EBADF) /\
      ((x = EBADF /\ badkey k) \/
       (~ badkey k /\ ((x = ESOCK /\ ae = 1%nat) \/ (x = EDEV /\ ae = 2%nat) \/ (x = ENOMEM /\ (3 <= ae)%nat) \/ (x = EEXIST /\ ents st k <> None /\ (ae = 0 \/ ae = 2)%nat))))
  | OCtl k (CMod _ _) hok r | OCtl k CDel hok r => match r with None => ents st k <> None | Some e => ents st k = None /\ e = if hok then ENOENT else EBADF end
  | OCtl k CBad hok r => r = Some (if hok then EINVAL else EBADF)
  | OClosed k | OAnswer k _ => ents st k <> None
  | ODrop k => exists e, ents st k = Some e /\ ecl e = true
  | OWait t max inf => lim st t = None
  | OReport t k ev dat =>
    (exists m inf, lim st t = Some (m, inf) /\ Z.of_nat (cnt st t) < m) /\
    exists e a, ents st k = Some e /\ eans e = Some a /\ edat e = dat /\ ev <> 0 /\ forall j, 0 <= j -> Z.testbit ev j = told a j && Z.testbit (easked e) j
  | ORet t r => exists m inf, lim st t = Some (m, inf) /\ match r with Some n => n = cnt st t /\ (n = O -> inf = false) | None => cnt st t = O end
  end.
Definition drop (st : sst) (k : Z) : sst := mkst (zset (ents st) k None) (lim st) (cnt st).
Definition after (st : sst) (o : obs) : sst :=
  match o with
  | OCtl k (CAdd ev dat _) _ None => mkst (zset (ents st) k (Some (mke (Z.lor ev (Z.lor EPOLLERR EPOLLHUP)) dat false None))) (lim st) (cnt st)
  | OCtl k (CMod ev dat) _ None =>
    match ents st k with
    | Some e => mkst (zset (ents st) k (Some (mke (Z.lor ev (Z.lor EPOLLERR EPOLLHUP)) dat (ecl e) (eans e)))) (lim st) (cnt st)
    | None => st
    end
  | OCtl k CDel _ None | ODrop k => drop st k
  | OCtl _ _ _ _ => st
  | OClosed k => match ents st k with Some e => mkst (zset (ents st) k (Some (mke (easked e) (edat e) true (eans e)))) (lim st) (cnt st) | None => st end
  | OAnswer k a => match ents st k with Some e => mkst (zset (ents st) k (Some (mke (easked e) (edat e) (ecl e) (Some a)))) (lim st) (cnt st) | None => st end
  | OWait t max inf => mkst (ents st) (set (lim st) t (Some (max, inf))) (set (cnt st) t O)
  | OReport t k ev dat =>
    match ents st k with
    | Some e => mkst (zset (ents st) k (Some (mke (if Z.testbit (easked e) 31 then 0 else easked e) (edat e) (ecl e) None))) (lim st) (set (cnt st) t (S (cnt st t)))
    | None => st
    end
  | ORet t r => mkst (ents st) (set (lim st) t None) (cnt st)
  end.
Fixpoint legal (st : sst) (os : list obs) : Prop := match os with [] => True | o :: r => fair st o /\ legal (after st o) r end.
Definition ends (st : sst) (os : list obs) : sst := fold_left after os st.
Lemma legal_app os : forall st os', legal st (os ++ os') <-> legal st os /\ legal (ends st os) os'.
Proof. induction os as [|o r IH]; intros st os'; cbn; [tauto|]. rewrite IH. tauto. Qed.
Lemma ends_app st os os' : ends st (os ++ os') = ends (ends st os) os'. Proof. apply fold_left_app. Qed.

Lemma hasb_pow m b : 0 <= b -> hasb m (2 ^ b) = Z.testbit m b.
Proof.
  intros B. destruct (Z.testbit m b) eqn:T.
  - apply hasb_bits. exists b. rewrite Z.pow2_bits_true by exact B. auto.
  - destruct (hasb m (2 ^ b)) eqn:H; [|reflexivity]. apply hasb_bits in H as (i & I0 & A & C). rewrite Z.pow2_bits_eqb in C by exact B. apply Z.eqb_eq in C. subst i. congruence.
Qed.
Lemma on_bit b j i : 0 <= j -> Z.testbit (on b (2 ^ j)) i = b && (i =? j).
Proof. intros J. destruct b; cbn [on andb]; [rewrite Z.pow2_bits_eqb by exact J; apply Z.eqb_sym|apply Z.bits_0]. Qed.
Lemma on_lor b x y : on b (Z.lor x y) = Z.lor (on b x) (on b y). Proof. destruct b; reflexivity. Qed.
Lemma told_ok e j : 0 <= j -> Z.testbit (afd2ep e) j = told (KEvents e) j.
Proof.
  intros J. unfold afd2ep, told, table. rewrite !hasb_lor, !on_lor, !Z.lor_spec.
  change AFD_RECEIVE with (2 ^ 0). change AFD_ACCEPT with (2 ^ 7). change AFD_RECEIVE_EXPEDITED with (2 ^ 1). change AFD_SEND with (2 ^ 2). change AFD_DISCONNECT with (2 ^ 3). change AFD_ABORT with (2 ^ 4). change AFD_CONNECT_FAIL with (2 ^ 8).
  change EPOLLIN with (2 ^ 0). change EPOLLRDNORM with (2 ^ 6). change EPOLLPRI with (2 ^ 1). change EPOLLRDBAND with (2 ^ 7). change EPOLLOUT with (2 ^ 2). change EPOLLWRNORM with (2 ^ 8). change EPOLLWRBAND with (2 ^ 9).
  change EPOLLRDHUP with (2 ^ 13). change EPOLLHUP with (2 ^ 4). change EPOLLERR with (2 ^ 3).
  rewrite !on_bit by lia. rewrite !hasb_pow by lia. cbn [existsb fst snd].
  generalize (Z.testbit e 0) (Z.testbit e 7) (Z.testbit e 1) (Z.testbit e 2) (Z.testbit e 3) (Z.testbit e 4) (Z.testbit e 8).
  generalize (j =? 0) (j =? 6) (j =? 1) (j =? 7) (j =? 2) (j =? 8) (j =? 9) (j =? 13) (j =? 4) (j =? 3).
  intros b0 b1 b2 b3 b4 b5 b6 b7 b8 b9 c0 c1 c2 c3 c4 c5 c6. rewrite !orb_false_r.
  destruct c0, c1, c2, c3, c4, c5, c6; cbn [andb orb]; rewrite ?orb_false_r; try reflexivity; destruct b0, b1, b2, b4, b5, b7, b9; cbn [andb orb]; rewrite ?orb_true_r, ?orb_false_r; try reflexivity; destruct b3, b6, b8; reflexivity.
Qed.

(* ---- the callers' view agrees with the port ---- *)
Definition relS (st : sst) (p : port) (i : nat) : Prop :=
  forall s, socks p i = Some s -> delp s = false ->
  exists e, ents st (skey s) = Some e /\ easked e = uev s /\ edat e = udat s /\ ecl e = closed p i /\ forall q a, req p i = Some q -> kdone q = Some a -> eans e = Some a.
Definition RelE (st : sst) (p : port) : Prop :=
  (forall i, relS st p i) /\ (forall k e, ents st k = Some e -> exists i s, socks p i = Some s /\ delp s = false /\ skey s = k).
(* two registered sockets have different keys *)
Lemma key_inj p hold i j s s' : InvS p hold -> socks p i = Some s -> socks p j = Some s' -> delp s = false -> delp s' = false -> skey s = skey s' -> i = j.
Proof.
  intros [(T1 & _) OK] E1 E2 D1 D2 K. pose proof (OK i) as [A _]. rewrite E1 in A. destruct A as (_ & A & _). pose proof (OK j) as [B _]. rewrite E2 in B. destruct B as (_ & B & _).
  assert (I1 : In (skey s, i) (tree p)) by (apply A; auto). assert (I2 : In (skey s', j) (tree p)) by (apply B; auto). rewrite <- K in I2.
  clear - T1 I1 I2. induction (tree p) as [|[a b] l IH]; [contradiction|]. cbn in T1. apply NoDup_cons_iff in T1 as [N T1]. destruct I1 as [I1|I1], I2 as [I2|I2].
  - congruence.
  - injection I1 as -> ->. destruct N. apply (in_map fst) in I2. exact I2.
  - injection I2 as -> ->. destruct N. apply (in_map fst) in I1. exact I1.
  - auto.
Qed.

Definition kept (p p' : port) : Prop := nxt p' = nxt p /\ active p' = active p /\ cq p' = cq p /\ (forall i, cond p' i = cond p i) /\ (forall i, closed p' i = closed p i) /\ (forall t, thr p' t = thr p t) /\
  (forall j q' a, req p' j = Some q' -> kdone q' = Some a -> exists q, req p j = Some q /\ kdone q = Some a).
Lemma kept_refl p : kept p p. Proof. repeat split; eauto. Qed.
Lemma kept_trans p q r : kept p q -> kept q r -> kept p r.
Proof. intros (A1 & A2 & A3 & A4 & A5 & A6 & A7) (B1 & B2 & B3 & B4 & B5 & B6 & B7). repeat split; intros; try congruence. destruct (B7 _ _ _ H H0) as (q0 & X & Y). eauto. Qed.

Lemma nd_map_filter {A B} (f : A -> B) g l : NoDup (map f l) -> NoDup (map f (filter g l)).
Proof.
  induction l as [|a l IH]; cbn; [auto|]. intros ND. apply NoDup_cons_iff in ND as [N ND]. destruct (g a); cbn; [|auto]. constructor; [|auto].
  intros I. apply N. apply in_map_iff in I as (x & E & I). apply filter_In in I as [I _]. rewrite <- E. apply in_map, I.
Qed.
Lemma in_untree (k : Z) j i l : In (k, j) (filter (fun e : Z * nat => negb (Nat.eqb (snd e) i)) l) <-> In (k, j) l /\ j <> i.
Proof. rewrite filter_In. cbn. destruct (Nat.eqb_spec j i); cbn; intuition congruence. Qed.

(* taking a socket out and freeing it *)
Definition freed (p p' : port) (i : nat) (g : list (nat * nat)) : Prop :=
  socks p' i = None /\ (forall j, j <> i -> socks p' j = socks p j) /\ tree p' = filter (fun e => negb (Nat.eqb (snd e) i)) (tree p) /\ updq p' = without i (updq p) /\ delq p' = without i (delq p) /\
  grps p' = g /\ ngrp p' = ngrp p /\ req p' = req p /\ kept p p'.
Lemma freed_inv p p' i g hold : glob p hold -> (forall j, j <> i -> okS p hold j) -> req p i = None -> ~ In i (cq p) -> (forall t, ~ In i (hold t)) -> freed p p' i g -> InvS p' hold.
Proof.
  intros (T1 & T2 & U & D & C & H & HC & HH & CL) OK R NC NH (S1 & S2 & TR & UP & DE & _ & _ & RQ & (KN & _ & KC & _ & KCL & _)). split.
  - unfold glob. rewrite TR, UP, DE, KC, KN. repeat split; auto using nd_map_filter, nd_without. intros j. rewrite KCL. apply CL.
  - intros j. destruct (Nat.eq_dec j i) as [->|N].
    + unfold okS. rewrite S1. unfold dead, done. rewrite RQ, R, UP, DE, TR, KC. split.
      * split; [reflexivity|]. rewrite !in_without. split; [tauto|]. split; [tauto|]. intros k. rewrite in_untree. tauto.
      * split; [intros (q & a & E & _); discriminate|]. intros [I|[t I]]; [contradiction|]. apply NH in I. contradiction.
    + apply (okS_ext p p' hold hold j (OK j N)); [apply S2, N|congruence|lia| | | |].
      * rewrite UP, in_without. tauto.
      * rewrite DE, in_without. tauto.
      * intros k. rewrite TR, in_untree. tauto.
      * rewrite KC. reflexivity.
Qed.
Lemma freed_groups p p' i g s : InvG p -> socks p i = Some s -> release (grps p) (grp s) = Ok g ->
  (forall x n, In (x, n) g <-> (x, n) = (grp s, pred (gcount (socks p) (nxt p) (grp s))) \/ (x <> grp s /\ In (x, n) (grps p))) -> NoDup (map fst g) -> gsorted g -> freed p p' i g -> InvG p'.
Proof.
  intros (G1 & G2 & G3 & G4 & G5) E RL IN ND GS (S1 & S2 & _ & _ & _ & GE & NE & _ & (KN & _)). destruct (G3 i s E) as [IG LI]. unfold InvG. rewrite GE, NE, KN. split; [exact ND|]. split; [|split; [|split; [exact GS|]]].
  - assert (EX : forall x, gcount (socks p') (nxt p) x = gcount (set (socks p) i None) (nxt p) x).
    { intros x. apply gcount_ext. intros j _. unfold ing. destruct (Nat.eq_dec j i) as [->|N]; [rewrite S1, set_same; reflexivity|rewrite S2, set_other by exact N; reflexivity]. }
    intros x n I. apply IN in I. destruct I as [I|[N I]].
    + injection I as -> ->. split; [|apply in_map_iff in IG as ([a b] & X & IG); cbn in X; subst a; eapply G2, IG]. rewrite EX. rewrite (gcount_free _ _ i s (grp s) LI E), Nat.eqb_refl. lia.
    + apply G2 in I as [I1 I2]. split; [|exact I2]. rewrite EX, I1. rewrite (gcount_free _ _ i s x LI E). destruct (Nat.eqb_spec (grp s) x); [congruence|lia].
  - intros j s' E'. destruct (Nat.eq_dec j i) as [->|N]; [congruence|]. rewrite S2 in E' by exact N. destruct (G3 j s' E') as [A B]. split; [|exact B].
    destruct (Nat.eq_dec (grp s') (grp s)) as [Q|Q].
    + rewrite Q. apply in_map_iff. eexists (grp s, _). split; [reflexivity|]. apply IN. left. reflexivity.
    + apply in_map_iff in A as ([a b] & X & A). cbn in X. subst a. apply in_map_iff. exists (grp s', b). split; [reflexivity|]. apply IN. right. auto.
  - intros c C. apply G5 in C. apply in_map_iff in C as ([a b] & X & C). cbn in X. subst a. destruct (Nat.eq_dec c (grp s)) as [->|Q].
    + apply in_map_iff. eexists (grp s, _). split; [reflexivity|]. apply IN. left. reflexivity.
    + apply in_map_iff. exists (c, b). split; [reflexivity|]. apply IN. right. auto.
Qed.
Lemma can_release p i s : InvG p -> socks p i = Some s -> exists g, release (grps p) (grp s) = Ok g /\ NoDup (map fst g) /\ gsorted g /\
  (forall x n, In (x, n) g <-> (x, n) = (grp s, pred (gcount (socks p) (nxt p) (grp s))) \/ (x <> grp s /\ In (x, n) (grps p))).
Proof.
  intros (G1 & G2 & G3 & G4 & _) E. destruct (G3 i s E) as [IG LI]. apply in_map_iff in IG as ([x n] & X & IG). cbn in X. subst x.
  destruct (G2 _ _ IG) as [C _]. pose proof (gcount_free _ _ i s (grp s) LI E) as GF. rewrite Nat.eqb_refl in GF. destruct n as [|k]; [lia|].
  assert (LE : (S k <= GMAX)%nat). { destruct G4 as (a & b & EQ & FA & FB). rewrite EQ, in_app_iff in IG. rewrite Forall_forall in FA, FB. destruct IG as [I|I]; [apply FA in I|apply FB in I]; cbn in I; lia. }
  destruct (release_ok (grps p) (grp s) k G1 IG ltac:(lia) G4) as (g & R & ND & GS & IN). exists g. split; [exact R|]. split; [exact ND|]. split; [exact GS|]. rewrite <- C. exact IN.
Qed.
(* the code of freeing: an idle socket *)
Lemma delete_idle v p i s g force : socks p i = Some s -> pst s = Idle -> (delp s = false -> exists k, In (k, i) (tree p)) -> (delp s = true -> forall k, ~ In (k, i) (tree p)) ->
  release (grps p) (grp s) = Ok g -> exists p', sock_delete v p i force = Ok p' /\ freed p p' i g.
Proof.
  intros E PI IT NT RL. unfold sock_delete, get. rewrite E. cbn [bind]. destruct (delp s) eqn:DP.
  - cbn [bind]. rewrite E. cbn [bind]. rewrite PI, orb_true_r. rewrite dequeue_as. cbn [unq w_qs grps]. rewrite RL. cbn [bind]. eexists. split; [reflexivity|].
    unfold freed. cbn. rewrite set_same. split; [reflexivity|]. split; [intros j N; apply set_other, N|].
    split; [|repeat split; eauto]. symmetry. assert (X : forall l : list (Z * nat), (forall k, ~ In (k, i) l) -> filter (fun e => negb (Nat.eqb (snd e) i)) l = l).
    { induction l as [|[a b] l IH]; cbn; [reflexivity|]. intros H. destruct (Nat.eqb_spec b i) as [->|N]; [destruct (H a); auto|]. cbn. f_equal. apply IH. intros k I. apply (H k). auto. }
    apply X, NT, eq_refl.
  - rewrite PI. cbn [bind fst]. rewrite dequeue_as. unfold unregister. cbn [unq w_qs tree].
    destruct (IT eq_refl) as [k I]. assert (X : existsb (fun e : Z * nat => Nat.eqb (snd e) i) (tree p) = true) by (apply existsb_exists; exists (k, i); split; [exact I|apply Nat.eqb_refl]).
    rewrite X. cbn [bind w_tree unq w_qs socks]. rewrite E. cbn [bind]. cbn [w_sock socks]. rewrite set_same. cbn [bind s_del pst]. rewrite PI, orb_true_r.
    rewrite dequeue_as. cbn [unq w_qs grps w_sock grp s_del w_tree]. rewrite RL. cbn [bind]. eexists. split; [reflexivity|].
    unfold freed. cbn. rewrite set_same. split; [reflexivity|]. split; [intros j N; rewrite !set_other by exact N; reflexivity|].
    assert (W : forall l, without i (without i l) = without i l) by (intros l; apply without_none; rewrite in_without; tauto). split; [reflexivity|]. split; [apply W|]. split; [apply W|]. repeat split; eauto.
Qed.

Ltac ww := cbn [w_sock w_nxt w_tree w_qs w_grps w_active w_req w_cq w_cond w_closed w_thr unq socks nxt tree updq delq grps ngrp active req cq cond closed thr
  s_ev s_st s_del uev udat pend pst delp skey grp kmask kcan kdone].

(* a socket and its request change, nothing else *)
Definition only (p p' : port) (i : nat) : Prop :=
  (forall j, j <> i -> socks p' j = socks p j /\ req p' j = req p j) /\ tree p' = tree p /\ grps p' = grps p /\ ngrp p' = ngrp p /\ kept p p'.
Definition alike (s s' : sock) : Prop := uev s' = uev s /\ udat s' = udat s /\ delp s' = delp s /\ skey s' = skey s /\ grp s' = grp s.
Lemma cancel_ok v p i s q : socks p i = Some s -> pst s = Pending -> req p i = Some q ->
  exists p1 b, cancel_poll v p i = Ok (p1, b) /\
    (b = false -> p1 = p /\ cancels v i = false) /\
    (b = true -> only p p1 i /\ updq p1 = updq p /\ delq p1 = delq p /\ exists s1 q1, socks p1 i = Some s1 /\ req p1 i = Some q1 /\ alike s s1 /\ pst s1 = Cancelled /\ pend s1 = 0 /\ kdone q1 = kdone q /\ (kcan q1 = true \/ kdone q1 <> None)).
Proof.
  intros E P R. unfold cancel_poll, get. rewrite E. cbn [bind]. rewrite P, R. destruct (kdone q) as [a|] eqn:KD.
  - do 2 eexists. split; [reflexivity|]. split; [discriminate|]. intros _. split; [|split; [reflexivity|split; [reflexivity|]]].
    + repeat split; cbn; intros; rewrite ?set_other by assumption; eauto.
    + exists (s_st s Cancelled 0), q. cbn. rewrite set_same. repeat split; auto. right. congruence.
  - destruct (cancels v i) eqn:CV; do 2 eexists; (split; [reflexivity|]); (split; [try discriminate; auto|]); [|discriminate]. intros _. split; [|split; [reflexivity|split; [reflexivity|]]].
    + repeat split; cbn; intros; rewrite ?set_other by assumption; try reflexivity. destruct (Nat.eq_dec j i) as [->|N]; [rewrite set_same in H; injection H as <-; discriminate|rewrite set_other in H by exact N; eauto].
    + exists (s_st s Cancelled 0), (mkq (kmask q) true None). cbn. rewrite !set_same. repeat split; auto.
Qed.

Lemma rel_gone st p p' hold i s : InvS p hold -> socks p i = Some s -> delp s = false -> RelE st p -> (forall j, j <> i -> socks p' j = socks p j /\ req p' j = req p j) ->
  (forall j, closed p' j = closed p j) -> (forall s', socks p' i = Some s' -> delp s' = true) -> RelE (drop st (skey s)) p'.
Proof.
  intros IV E D [R1 R2] O C G. split.
  - intros j s' E' D'. destruct (Nat.eq_dec j i) as [->|N]; [apply G in E'; congruence|]. destruct (O j N) as [OS OR]. rewrite OS in E'. rewrite OR, C.
    destruct (R1 j s' E' D') as (e & A). exists e. cbn. unfold zset. destruct (Z.eqb_spec (skey s') (skey s)) as [K|K]; [|exact A].
    destruct N. apply (key_inj p hold j i s' s IV E' E D' D K).
  - intros k e. cbn. unfold zset. destruct (Z.eqb_spec k (skey s)) as [->|K]; [discriminate|]. intros X. destruct (R2 k e X) as (j & s' & A & B & CC). exists j, s'.
    destruct (Nat.eq_dec j i) as [->|N]; [congruence|]. rewrite (proj1 (O j N)). auto.
Qed.
Lemma rel_same st p p' i : RelE st p -> (forall j, j <> i -> socks p' j = socks p j /\ req p' j = req p j) -> (forall j, closed p' j = closed p j) ->
  (forall s, socks p i = Some s -> delp s = true) -> (forall s, socks p' i = Some s -> delp s = true) -> RelE st p'.
Proof.
  intros [R1 R2] O C G G'. split.
  - intros j s' E' D'. destruct (Nat.eq_dec j i) as [->|N]; [apply G' in E'; congruence|]. destruct (O j N) as [OS OR]. rewrite OS in E'. rewrite OR, C. apply (R1 j s' E' D').
  - intros k e X. destruct (R2 k e X) as (j & s' & A & B & CC). exists j, s'. destruct (Nat.eq_dec j i) as [->|N]; [apply G in A; congruence|]. rewrite (proj1 (O j N)). auto.
Qed.
Lemma rel_alike st p p' i s s' : RelE st p -> (forall j, j <> i -> socks p' j = socks p j /\ req p' j = req p j) -> (forall j, closed p' j = closed p j) ->
  socks p i = Some s -> socks p' i = Some s' -> alike s s' -> (forall q' a, req p' i = Some q' -> kdone q' = Some a -> exists q, req p i = Some q /\ kdone q = Some a) -> RelE st p'.
Proof.
  intros [R1 R2] O C E E' (A1 & A2 & A3 & A4 & A5) Q. split.
  - intros j t ET D. destruct (Nat.eq_dec j i) as [->|N].
    + assert (t = s') by congruence. subst t. rewrite A3 in D. destruct (R1 i s E D) as (e & B1 & B2 & B3 & B4 & B5). exists e. rewrite A4, A1, A2, C. repeat (split; [assumption|]).
      intros q a X Y. destruct (Q q a X Y) as (q0 & X0 & Y0). apply (B5 q0 a X0 Y0).
    + destruct (O j N) as [OS OR]. rewrite OS in ET. rewrite OR, C. apply (R1 j t ET D).
  - intros k e X. destruct (R2 k e X) as (j & t & A & B & CC). destruct (Nat.eq_dec j i) as [->|N].
    + exists i, s'. assert (t = s) by congruence. subst t. rewrite A3, A4. auto.
    + exists j, t. rewrite (proj1 (O j N)). auto.
Qed.
Lemma groups_alike p p' i s s' : InvG p -> (forall j, j <> i -> socks p' j = socks p j) -> socks p i = Some s -> socks p' i = Some s' -> grp s' = grp s -> grps p' = grps p -> ngrp p' = ngrp p -> nxt p' = nxt p -> InvG p'.
Proof.
  intros (G1 & G2 & G3 & G4) O E E' GE A B C. unfold InvG. rewrite A, B, C. split; [exact G1|]. split; [|split; [|exact G4]].
  - intros g n I. destruct (G2 g n I) as [X Y]. split; [|exact Y]. rewrite X. symmetry. apply gcount_ext. intros j _. unfold ing. destruct (Nat.eq_dec j i) as [->|N]; [rewrite E, E', GE; reflexivity|rewrite O by exact N; reflexivity].
  - intros j t ET. destruct (Nat.eq_dec j i) as [->|N]; [assert (t = s') by congruence; subst t; rewrite GE; apply (G3 i s E)|]. rewrite O in ET by exact N. apply (G3 j t ET).
Qed.

(* taking out a socket whose request is at the kernel *)
Lemma delete_pending v p i s hold : InvS p hold -> socks p i = Some s -> delp s = false -> pst s <> Idle ->
  exists p' s', sock_delete v p i false = Ok p' /\ InvS p' hold /\ (forall j, j <> i -> socks p' j = socks p j /\ req p' j = req p j) /\ socks p' i = Some s' /\ delp s' = true /\ grp s' = grp s /\
    grps p' = grps p /\ ngrp p' = ngrp p /\ updq p' = without i (updq p) /\ kept p p'.
Proof.
  intros [GL OK] E D NI. pose proof (OK i) as OI. unfold okS in OI. rewrite E in OI. destruct OI as ((L1 & L2 & L3 & L4 & L5 & L6 & L7) & LD).
  assert (QX : exists q, req p i = Some q) by (unfold stat in L7; destruct (pst s); [congruence| |]; destruct L7 as (q & Q & _); eauto). destruct QX as [q RQ].
  assert (IT : In (skey s, i) (tree p)) by (apply L2; auto). assert (ND : ~ In i (delq p)) by (rewrite L3; congruence).
  assert (MID : exists p1 b s1 q1, (match pst s with Pending => cancel_poll v p i | _ => Ok (p, true) end) = Ok (p1, b) /\ only p p1 i /\ updq p1 = updq p /\ delq p1 = delq p /\ socks p1 i = Some s1 /\ req p1 i = Some q1 /\ alike s s1 /\
     kdone q1 = kdone q /\ (match pst s1 with Idle => False | Pending => kmask q1 = ep2afd (pend s1) /\ kcan q1 = false | Cancelled => pend s1 = 0 /\ (kcan q1 = true \/ kdone q1 <> None) end)).
  { unfold stat in L7. destruct (pst s) eqn:PS; [congruence| |].
    - destruct (cancel_ok v p i s q E PS RQ) as (p1 & b & C1 & C2 & C3). rewrite C1. destruct b.
      + destruct (C3 eq_refl) as (O & U1 & U2 & s1 & q1 & X1 & X2 & X3 & X4 & X5 & X6 & X7). exists p1, true, s1, q1. rewrite X4. repeat (split; [solve [auto]|]). auto.
      + destruct (C2 eq_refl) as [-> _]. exists p, false, s, q. rewrite PS. destruct L7 as (q' & Q1 & Q2 & Q3 & _). assert (q' = q) by congruence. subst q'.
        split; [reflexivity|]. split; [repeat split; eauto|]. split; [reflexivity|]. split; [reflexivity|]. split; [exact E|]. split; [exact RQ|]. split; [repeat split; eauto|]. auto.
    - exists p, true, s, q. rewrite PS. destruct L7 as (q' & Q1 & Q2 & Q3). assert (q' = q) by congruence. subst q'.
      split; [reflexivity|]. split; [repeat split; eauto|]. split; [reflexivity|]. split; [reflexivity|]. split; [exact E|]. split; [exact RQ|]. split; [repeat split; eauto|]. auto. }
  destruct MID as (p1 & b & s1 & q1 & M1 & M2 & M3 & M4 & M5 & M6 & M7 & M8 & M9).
  destruct M2 as (O1 & O2 & O3 & O4 & O5). pose proof M7 as (A1 & A2 & A3 & A4 & A5).
  unfold sock_delete, get. rewrite E. cbn [bind]. rewrite D, M1. cbn [bind fst]. rewrite dequeue_as. unfold unregister. cbn [unq w_qs tree]. rewrite O2.
  assert (X : existsb (fun e : Z * nat => Nat.eqb (snd e) i) (tree p) = true) by (apply existsb_exists; exists (skey s, i); split; [exact IT|apply Nat.eqb_refl]). rewrite X.
  cbn [bind w_tree unq w_qs socks]. rewrite M5. cbn [bind w_sock socks]. rewrite set_same. cbn [bind s_del pst].
  assert (NI1 : (match pst s1 with Idle => true | _ => false end) = false) by (destruct (pst s1); [contradiction| |]; reflexivity). rewrite NI1. cbn [orb].
  unfold add_deleted. match goal with |- context [enq ?P i] => assert (EN : enq P i = false) end.
  { apply not_true_is_false. rewrite enq_or. cbn [updq delq w_sock w_tree w_qs unq]. rewrite !in_without. tauto. }
  rewrite EN. cbn [w_qs unq w_sock w_tree socks nxt tree updq delq grps ngrp active req cq cond closed thr]. do 2 eexists. split; [reflexivity|].
  assert (KK : kept p p1) by exact O5. destruct KK as (K1 & K2 & K3 & K4 & K5 & K6 & K7).
  split; [|split; [|split; [|split; [|split; [|split; [|split; [|split]]]]]]].
  - split.
    + destruct GL as (T1 & T2 & U & DD & C & H & HC & HH & CL). unfold glob. ww. rewrite M3, M4, K3, K1. repeat split; auto using nd_map_filter, nd_without.
      * apply nd_snoc; [apply nd_without, DD|rewrite in_without; tauto].
      * intros j. rewrite K5. apply CL.
    + intros j. destruct (Nat.eq_dec j i) as [->|N].
      * unfold okS. ww. rewrite set_same. split.
        -- unfold live. ww. rewrite M3, M4, K1. split; [exact L1|]. split; [intros k; rewrite in_untree; split; [tauto|intros [_ ?]; discriminate]|].
           split; [rewrite in_app_iff; cbn; split; auto|]. split; [rewrite in_without; tauto|]. split; [intros _; destruct (pst s1); [contradiction|discriminate|discriminate]|]. split; [rewrite A1; exact L6|].
           unfold stat. ww. destruct (pst s1); [contradiction| |]; exists q1.
           ++ split; [exact M6|]. destruct M9. split; [assumption|]. split; [assumption|]. discriminate.
           ++ split; [exact M6|exact M9].
        -- unfold done in *. ww. rewrite K3, <- LD. split; intros (q0 & a & X1 & X2).
           ++ exists q, a. split; [exact RQ|congruence].
           ++ exists q1, a. split; [exact M6|congruence].
      * apply (okS_ext p _ hold hold j (OK j)); ww.
        -- rewrite set_other by exact N. apply (O1 j N).
        -- apply (O1 j N).
        -- lia.
        -- rewrite M3, in_without. tauto.
        -- rewrite M4, in_app_iff, in_without. cbn. intuition congruence.
        -- intros k. rewrite in_untree. tauto.
        -- rewrite K3. reflexivity.
  - intros j N. ww. rewrite set_other by exact N. apply (O1 j N).
  - ww. apply set_same.
  - reflexivity.
  - ww. exact A5.
  - ww. exact O3.
  - ww. exact O4.
  - ww. rewrite M3. reflexivity.
  - unfold kept. ww. auto 10.
Qed.

(* taking out a registered socket, whatever its state *)
Lemma delete_ok v p i s hold : InvS p hold -> InvG p -> socks p i = Some s -> delp s = false ->
  exists p', sock_delete v p i false = Ok p' /\ InvS p' hold /\ InvG p' /\ updq p' = without i (updq p) /\ ngrp p' = ngrp p /\ kept p p' /\ forall st, RelE st p -> RelE (drop st (skey s)) p'.
Proof.
  intros IV IG E D. destruct (pst s) eqn:PS.
  - pose proof IV as [GL OK]. pose proof (OK i) as OI. unfold okS in OI. rewrite E in OI. destruct OI as ((L1 & L2 & L3 & L4 & L5 & L6 & L7) & LD). unfold stat in L7. rewrite PS in L7. destruct L7 as (RQ & IU & _).
    destruct (can_release p i s IG E) as (g & RL & GN & GS & GI).
    destruct (delete_idle v p i s g false E PS) as (p' & X & FR); [intros _; exists (skey s); apply L2; auto|congruence|exact RL|].
    assert (NDN : ~ done p i) by (intros (q & a & Y & _); congruence). rewrite LD in NDN.
    exists p'. split; [exact X|]. split; [|split; [|split; [|split; [|split]]]].
    + apply (freed_inv p p' i g hold GL (fun j _ => OK j) RQ); [tauto|intros t I; apply NDN; eauto|exact FR].
    + apply (freed_groups p p' i g s IG E RL GI GN GS FR).
    + apply FR.
    + apply FR.
    + apply FR.
    + destruct FR as (F1 & F2 & F3 & F4 & F5 & F6 & F7 & F8 & (_ & _ & _ & _ & F9 & _)). intros st R. apply (rel_gone st p p' hold i s IV E D R); [intros j N; rewrite F8; auto|exact F9|congruence].
  - destruct (delete_pending v p i s hold IV E D) as (p' & s' & X & I1 & O & E' & D' & G' & GR & NG & U & K); [congruence|]. exists p'. split; [exact X|]. split; [exact I1|].
    split; [apply (groups_alike p p' i s s' IG (fun j N => proj1 (O j N)) E E' G' GR NG (proj1 K))|]. split; [exact U|]. split; [exact NG|]. split; [exact K|].
    intros st R. apply (rel_gone st p p' hold i s IV E D R O); [apply K|congruence].
  - destruct (delete_pending v p i s hold IV E D) as (p' & s' & X & I1 & O & E' & D' & G' & GR & NG & U & K); [congruence|]. exists p'. split; [exact X|]. split; [exact I1|].
    split; [apply (groups_alike p p' i s s' IG (fun j N => proj1 (O j N)) E E' G' GR NG (proj1 K))|]. split; [exact U|]. split; [exact NG|]. split; [exact K|].
    intros st R. apply (rel_gone st p p' hold i s IV E D R O); [apply K|congruence].
Qed.

Lemma change_inv p p' hold i : (forall j, j <> i -> okS p hold j) -> glob p' hold -> (forall j, j <> i -> socks p' j = socks p j /\ req p' j = req p j) -> tree p' = tree p -> nxt p' = nxt p -> cq p' = cq p ->
  (forall j, j <> i -> In j (updq p') <-> In j (updq p)) -> (forall j, j <> i -> In j (delq p') <-> In j (delq p)) -> okS p' hold i -> InvS p' hold.
Proof.
  intros OK GL O T N C U D OI. split; [exact GL|]. intros j. destruct (Nat.eq_dec j i) as [->|NE]; [exact OI|].
  apply (okS_ext p p' hold hold j (OK j NE)); [apply O, NE|apply O, NE|lia|apply U, NE|apply D, NE|intros k; rewrite T; tauto|rewrite C; tauto].
Qed.
Definition calm (v : env) : Prop := forall i, polls v i <> PErr /\ cancels v i = true.
(* the callers' view goes along *)
Definition along (p p' : port) (o : list obs) : Prop :=
  forall st, RelE st p -> legal st o /\ RelE (ends st o) p' /\ lim (ends st o) = lim st /\ cnt (ends st o) = cnt st.
Lemma along_nil p p' : (forall st, RelE st p -> RelE st p') -> along p p' [].
Proof. intros H st R. cbn. auto. Qed.
Lemma along_trans p q r o o' : along p q o -> along q r o' -> along p r (o ++ o').
Proof.
  intros A B st R. destruct (A st R) as (A1 & A2 & A3 & A4). destruct (B _ A2) as (B1 & B2 & B3 & B4). rewrite legal_app, ends_app. split; [auto|]. split; [exact B2|]. split; congruence.
Qed.

Lemma update_ok v p i hold : InvS p hold -> InvG p -> In i (updq p) ->
  exists p' ok tch o, sock_update v p i = Ok (p', ok, tch, o) /\ InvS p' hold /\ InvG p' /\ ngrp p' = ngrp p /\ kept p p' /\
    (ok = true -> updq p' = without i (updq p)) /\ (ok = false -> p' = p /\ o = [] /\ ~ calm v) /\ along p p' o /\ reports o = O.
Proof.
  intros IV IG IU. pose proof IV as [GL OK]. pose proof (OK i) as OI. unfold okS in OI. destruct (socks p i) as [s|] eqn:E; [|destruct OI as [(_ & X & _) _]; contradiction].
  destruct OI as ((L1 & L2 & L3 & L4 & L5 & L6 & L7) & LD). pose proof (L4 IU) as D. assert (ND : ~ In i (delq p)) by (rewrite L3; congruence).
  unfold sock_update, get. rewrite E. cbn [bind]. rewrite D.
  assert (DEQ : forall p1, glob p1 hold -> (forall j, j <> i -> socks p1 j = socks p j /\ req p1 j = req p j) -> tree p1 = tree p -> nxt p1 = nxt p -> cq p1 = cq p -> updq p1 = updq p -> delq p1 = delq p -> okS (unq p1 i) hold i -> InvS (unq p1 i) hold).
  { intros p1 G1 O T N C U DD OI. apply (change_inv p (unq p1 i) hold i (fun j _ => OK j)); ww; auto.
    - destruct G1 as (X1 & X2 & X3 & X4 & X5 & X6 & X7 & X8 & X9). unfold glob. ww. repeat split; auto using nd_without.
    - intros j NE. rewrite U, in_without. tauto.
    - intros j NE. rewrite DD, in_without. tauto. }
  assert (NDQ : forall q : port, delq q = delq p -> without i (delq q) = delq p) by (intros q0 ->; apply without_none, ND).
  destruct (pst s) eqn:PS; unfold stat in L7; rewrite PS in L7.
  - destruct L7 as (RQ & _ & PE). rewrite RQ. unfold answer. assert (ANS : match polls v i with PClosed => if closed p i then PClosed else PPend | a => a end = PErr -> ~ calm v).
    { intros X C. destruct (C i) as [C1 _]. revert X C1. destruct (polls v i); try discriminate; try congruence. destruct (closed p i); discriminate. }
    assert (CLS : match polls v i with PClosed => if closed p i then PClosed else PPend | a => a end = PClosed -> closed p i = true).
    { destruct (polls v i); try discriminate. destruct (closed p i); [reflexivity|discriminate]. }
    assert (SUB : forall b : bool, exists (p' : port) (ok tch : bool) (o : list obs), Ok (dequeue (w_req (w_sock p i (Some (s_st s Pending (uev s)))) i (Some (mkq (ep2afd (uev s)) false None))) i, true, b, @nil obs) = Ok (p', ok, tch, o) /\ InvS p' hold /\ InvG p' /\ ngrp p' = ngrp p /\ kept p p' /\
       (ok = true -> updq p' = without i (updq p)) /\ (ok = false -> p' = p /\ o = [] /\ ~ calm v) /\ along p p' o /\ reports o = O).
    { intros b. rewrite dequeue_as. do 4 eexists. split; [reflexivity|]. split; [|split; [|split; [|split; [|split; [|split; [|split]]]]]].
      - apply DEQ; ww; auto.
        + intros j NE. rewrite !set_other by exact NE. auto.
        + unfold okS. ww. rewrite set_same. split.
          * unfold live. ww. split; [exact L1|]. split; [exact L2|]. rewrite !in_without. split; [rewrite L3; rewrite D; split; [intros []; discriminate|discriminate]|]. split; [tauto|]. split; [discriminate|]. split; [exact L6|].
            unfold stat. ww. rewrite set_same. eexists. split; [reflexivity|]. ww. split; [reflexivity|]. split; [reflexivity|]. intros _. right. unfold covered. ww.
            unfold hasb. rewrite <- Z.land_assoc. assert (X : Z.land (uev s) (Z.land KNOWN (Z.lnot (uev s))) = 0).
            { rewrite (Z.land_comm KNOWN). rewrite Z.land_assoc, Z.land_lnot_diag. apply Z.land_0_l. } rewrite X. reflexivity.
          * rewrite <- LD. unfold done. ww. rewrite set_same, RQ. split; intros (q & a & X1 & X2); [injection X1 as <-; discriminate|discriminate].
      - apply (groups_alike p _ i s (s_st s Pending (uev s)) IG); ww; auto; [intros j NE; apply set_other, NE|apply set_same].
      - reflexivity.
      - repeat split; eauto. ww. intros j q' a Y1 Y2. destruct (Nat.eq_dec j i) as [->|NE]; [rewrite set_same in Y1; injection Y1 as <-; discriminate|rewrite set_other in Y1 by exact NE; eauto].
      - reflexivity.
      - discriminate.
      - apply along_nil. intros st R. apply (rel_alike st p _ i s (s_st s Pending (uev s)) R); ww; auto; [intros j NE; rewrite !set_other by exact NE; auto|apply set_same|repeat split|].
        rewrite set_same. intros q' a X1 X2. injection X1 as <-. discriminate.
      - reflexivity. }
    destruct (match polls v i with PClosed => if closed p i then PClosed else PPend | a => a end) eqn:AN; [apply SUB|apply SUB| |].
    + destruct (delete_ok v p i s hold IV IG E D) as (p' & X & I1 & G1 & U1 & NG & K & RL). rewrite X. cbn [bind]. do 4 eexists. split; [reflexivity|]. repeat (split; [solve [auto]|]). split; [discriminate|]. split; [|reflexivity].
      intros st R. cbn. pose proof R as R0. destruct R0 as [R1 _]. destruct (R1 i s E D) as (e & B1 & B2 & B3 & B4 & B5). split; [split; [|exact I]; exists e; split; [exact B1|]; rewrite B4; apply CLS; reflexivity|].
      split; [apply RL, R|]. split; reflexivity.
    + do 4 eexists. split; [reflexivity|]. split; [exact IV|]. split; [exact IG|]. split; [reflexivity|]. split; [apply kept_refl|]. split; [discriminate|]. split; [auto|]. split; [apply along_nil; auto|reflexivity].
  - destruct L7 as (q & RQ & KM & KC & CV). destruct (hasb (Z.land (uev s) KNOWN) (Z.lnot (pend s))) eqn:HB.
    + destruct (cancel_ok v p i s q E PS RQ) as (p1 & b & C1 & C2 & C3). rewrite C1. cbn [bind fst snd]. destruct b.
      * destruct (C3 eq_refl) as (O & U1 & U2 & s1 & q1 & X1 & X2 & X3 & X4 & X5 & X6 & X7). destruct O as (O1 & O2 & O3 & O4 & O5). pose proof O5 as (K1 & K2 & K3 & K4 & K5 & K6 & K7). pose proof X3 as (A1 & A2 & A3 & A4 & A5).
        rewrite dequeue_as. do 4 eexists. split; [reflexivity|]. split; [|split; [|split; [|split; [|split; [|split; [|split]]]]]].
        -- apply DEQ; auto.
           ++ destruct GL as (Y1 & Y2 & Y3 & Y4 & Y5 & Y6 & Y7 & Y8 & Y9). unfold glob. rewrite O2, U1, U2, K3, K1. repeat split; auto. intros j. rewrite K5. apply Y9.
           ++ unfold okS. ww. rewrite X1. split.
              ** unfold live. ww. rewrite K1, O2, A4, A3, A1, X4. split; [exact L1|]. split; [exact L2|]. rewrite !in_without, U2. split; [rewrite D; split; [tauto|discriminate]|]. split; [tauto|]. split; [discriminate|]. split; [exact L6|].
                 unfold stat. rewrite X4. ww. exists q1. auto.
              ** unfold done in *. ww. rewrite K3, <- LD. split; intros (q0 & a & Y1 & Y2); [exists q, a; split; [exact RQ|congruence]|exists q1, a; split; [exact X2|congruence]].
        -- apply (groups_alike p _ i s s1 IG); ww; auto. intros j NE. apply (O1 j NE).
        -- exact O4.
        -- exact O5.
        -- ww. rewrite U1. reflexivity.
        -- discriminate.
        -- apply along_nil. intros st R. apply (rel_alike st p _ i s s1 R); ww; auto. rewrite X2. intros q' a Y1 Y2. injection Y1 as <-. exists q. split; [exact RQ|congruence].
        -- reflexivity.
      * destruct (C2 eq_refl) as [-> CN]. do 4 eexists. split; [reflexivity|]. split; [exact IV|]. split; [exact IG|]. split; [reflexivity|]. split; [apply kept_refl|]. split; [discriminate|].
        split; [intros _; split; [reflexivity|split; [reflexivity|]]; intros C; destruct (C i); congruence|]. split; [apply along_nil; auto|reflexivity].
    + rewrite dequeue_as. do 4 eexists. split; [reflexivity|]. split; [|split; [|split; [|split; [|split; [|split; [|split]]]]]].
      * apply DEQ; auto. unfold okS. ww. rewrite E. split.
        -- unfold live. ww. rewrite D. split; [exact L1|]. split; [rewrite D in L2; exact L2|]. rewrite !in_without. split; [split; [tauto|discriminate]|]. split; [tauto|]. split; [discriminate|]. split; [exact L6|].
           unfold stat. rewrite PS. ww. exists q. split; [exact RQ|]. split; [exact KM|]. split; [exact KC|]. intros _. right. exact HB.
        -- exact LD.
      * apply (groups_alike p _ i s s IG); auto.
      * reflexivity.
      * repeat split; eauto.
      * reflexivity.
      * discriminate.
      * apply along_nil. intros st R. exact R.
      * reflexivity.
  - destruct L7 as (q & RQ & PE & KC). rewrite dequeue_as. do 4 eexists. split; [reflexivity|]. split; [|split; [|split; [|split; [|split; [|split; [|split]]]]]].
    + apply DEQ; auto. unfold okS. ww. rewrite E. split.
      * unfold live. ww. rewrite D. split; [exact L1|]. split; [rewrite D in L2; exact L2|]. rewrite !in_without. split; [split; [tauto|discriminate]|]. split; [tauto|]. split; [discriminate|]. split; [exact L6|].
        unfold stat. rewrite PS. ww. exists q. auto.
      * exact LD.
    + apply (groups_alike p _ i s s IG); auto.
    + reflexivity.
    + repeat split; eauto.
    + reflexivity.
    + discriminate.
    + apply along_nil. intros st R. exact R.
    + reflexivity.
Qed.

Lemma filter_len {A} (f : A -> bool) l : (length (filter f l) <= length l)%nat.
Proof. induction l as [|a l IH]; cbn; [lia|]. destruct (f a); cbn; lia. Qed.
Lemma reports_app a b : reports (a ++ b) = (reports a + reports b)%nat.
Proof. unfold reports. rewrite filter_app, app_length. reflexivity. Qed.
Lemma events_ok v hold : forall n p tch, InvS p hold -> InvG p -> (length (updq p) <= n)%nat ->
  exists p' ok t o, update_events n v p tch = Ok (p', ok, t, o) /\ InvS p' hold /\ InvG p' /\ ngrp p' = ngrp p /\ kept p p' /\ (ok = true -> updq p' = []) /\ (ok = false -> ~ calm v) /\ along p p' o /\ reports o = O /\
    (updq p = [] -> p' = p /\ ok = true /\ t = tch /\ o = []).
Proof.
  induction n as [|n IH]; intros p tch IV IG LE.
  - destruct (updq p) as [|i u] eqn:U; [|cbn in LE; lia]. cbn [update_events]. rewrite U. do 4 eexists. split; [reflexivity|]. split; [exact IV|]. split; [exact IG|]. split; [reflexivity|]. split; [apply kept_refl|].
    split; [auto|]. split; [discriminate|]. split; [apply along_nil; auto|]. split; [reflexivity|auto].
  - cbn [update_events]. destruct (updq p) as [|i u] eqn:U.
    + do 4 eexists. split; [reflexivity|]. split; [exact IV|]. split; [exact IG|]. split; [reflexivity|]. split; [apply kept_refl|]. split; [auto|]. split; [discriminate|]. split; [apply along_nil; auto|]. split; [reflexivity|auto].
    + destruct (update_ok v p i hold IV IG) as (p1 & ok & t1 & o1 & X & I1 & G1 & NG1 & K1 & T1 & F1 & A1 & R1); [rewrite U; cbn; auto|]. rewrite X. cbn [bind]. destruct ok.
      * specialize (T1 eq_refl). rewrite U in T1. cbn [without filter] in T1. rewrite Nat.eqb_refl in T1. cbn [negb] in T1.
        destruct (IH p1 (tch || t1) I1 G1) as (p2 & ok2 & t2 & o2 & Y & I2 & G2 & NG2 & K2 & T2 & F2 & A2 & R2 & _).
        { rewrite T1. cbn in LE. pose proof (filter_len (fun j => negb (Nat.eqb j i)) u) as FL. lia. }
        rewrite Y. cbn [bind]. do 4 eexists. split; [reflexivity|]. split; [exact I2|]. split; [exact G2|]. split; [congruence|]. split; [eapply kept_trans; eassumption|]. split; [exact T2|]. split; [exact F2|].
        split; [eapply along_trans; eassumption|]. split; [rewrite reports_app; lia|discriminate].
      * destruct (F1 eq_refl) as (-> & -> & NC). do 4 eexists. split; [reflexivity|]. split; [exact IV|]. split; [exact IG|]. split; [reflexivity|]. split; [apply kept_refl|]. split; [discriminate|]. split; [auto|]. split; [exact A1|]. split; [reflexivity|discriminate].
Qed.
Lemma polling_ok v p hold : InvS p hold -> InvG p -> exists p' t o, if_polling v p = Ok (p', t, o) /\ InvS p' hold /\ InvG p' /\ ngrp p' = ngrp p /\ kept p p' /\ (calm v -> (0 < active p)%nat -> updq p' = []) /\ along p p' o /\ reports o = O /\
   (updq p = [] -> p' = p /\ t = false /\ o = []).
Proof.
  intros IV IG. unfold if_polling, update_all. destruct (active p).
  - do 3 eexists. split; [reflexivity|]. split; [exact IV|]. split; [exact IG|]. split; [reflexivity|]. split; [apply kept_refl|]. split; [lia|]. split; [apply along_nil; auto|]. split; [reflexivity|auto].
  - destruct (events_ok v hold (length (updq p)) p false IV IG (le_n _)) as (p' & ok & t & o & X & I1 & G1 & NG & K & T & F & A & R & Z0). rewrite X. cbn [bind]. do 3 eexists. split; [reflexivity|].
    split; [exact I1|]. split; [exact G1|]. split; [exact NG|]. split; [exact K|]. split; [intros C _; destruct ok; [auto|destruct (F eq_refl C)]|]. split; [exact A|]. split; [exact R|]. intros U. destruct (Z0 U) as (-> & _ & -> & ->). auto.
Qed.
