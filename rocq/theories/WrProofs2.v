(* Ports of the Windows poller: the invariant of all ports is kept by every step. *)
Require Import Verif.Base Verif.WrModel Verif.WrProofs.
Require Import List ZArith Bool Lia.
Import ListNotations.
Open Scope Z_scope.

(* ---- maps ---- *)
Lemma lookup_in h m a : lookup h m = Some a -> In (h, a) m.
Proof. unfold lookup. destruct (find _ m) as [[k b]|] eqn:F; [|discriminate]. intros E. apply find_some in F as (I & K). cbn in *. apply Z.eqb_eq in K. congruence. Qed.
Lemma in_lookup h m a : NoDup (map fst m) -> In (h, a) m -> lookup h m = Some a.
Proof.
  unfold lookup. induction m as [|[k b] m IH]; cbn; [easy|]. intros D [E|I].
  - injection E as -> ->. now rewrite Z.eqb_refl.
  - inversion D as [|? ? D1 D2]; subst. destruct (Z.eqb_spec k h) as [->|]; [|apply IH; auto]. elim D1. apply in_map_iff. exists (h, a). auto.
Qed.
Lemma lookup_none h m : lookup h m = None -> forall a, ~ In (h, a) m.
Proof. unfold lookup. destruct (find _ m) eqn:F; [discriminate|]. intros _ a I. apply (find_none _ _ F) in I. cbn in I. rewrite Z.eqb_refl in I. discriminate. Qed.
Lemma lookup_map (f : nat -> nat) h m : lookup h (map (fun e => (fst e, f (snd e))) m) = match lookup h m with Some a => Some (f a) | None => None end.
Proof. unfold lookup. induction m as [|[k b] m IH]; cbn; [reflexivity|]. destruct (k =? h); [reflexivity|exact IH]. Qed.
Lemma drop_map (f : nat -> nat) h m : drop h (map (fun e => (fst e, f (snd e))) m) = map (fun e => (fst e, f (snd e))) (drop h m).
Proof. unfold drop. induction m as [|[k b] m IH]; cbn; [reflexivity|]. destruct (negb (k =? h)); cbn; now rewrite IH. Qed.
Lemma in_drop h m k a : In (k, a) (drop h m) <-> In (k, a) m /\ k <> h.
Proof. unfold drop. rewrite filter_In. cbn. rewrite negb_true_iff, Z.eqb_neq. tauto. Qed.
Lemma drop_keys h m : NoDup (map fst m) -> NoDup (map fst (drop h m)).
Proof.
  unfold drop. induction m as [|[k b] m IH]; cbn; [auto|]. intros D. inversion D as [|? ? D1 D2]; subst. destruct (negb (k =? h)); cbn; [|auto].
  constructor; [|auto]. intros I. apply D1. apply in_map_iff in I as ([k' b'] & E & I). apply filter_In in I as (I & _). apply in_map_iff. exists (k', b'). auto.
Qed.

Section Threads.
Variable N : nat.
Hypothesis HN : Z.of_nat N < 268435456.

Definition pid_at (s : world) (a : nat) : nat := match mem s a with Some p => pid p | None => 0%nat end.
Definition cur (s : world) (t : nat) : option nat := match thr s t with THold a | TLoad a _ => Some (pid_at s a) | _ => None end.
Record Inv (s : world) (z : spec) : Prop := {
  v_here : forall a, here N (mem s a) (fun h => In (h, a) (tree s)) (fun t => loc_of a (thr s t)) (fun id => In id (sused z)) (fun id => In id (sfreed z));
  v_keys : NoDup (map fst (tree s));
  v_found : forall t h o, thr s t = TFound h o -> o = lookup h (tree s);
  v_far : forall t, (N <= t)%nat -> thr s t = TOut;
  v_hkeys : NoDup (map fst (hands s));
  v_hands : forall h id, In (h, id) (hands s) <-> exists a p, mem s a = Some p /\ iocp p = Some h /\ pid p = id;
  v_pid : forall a b p q, mem s a = Some p -> mem s b = Some q -> pid p = pid q -> a = b;
  v_nxt : forall a p, mem s a = Some p -> (pid p < nxt s)%nat;
  v_sm : sm z = map (fun e => (fst e, pid_at s (snd e))) (tree s);
  v_cur : forall t, scur z t = cur s t;
  v_used : forall id, In id (sused z) -> (id < nxt s)%nat;
  v_freed : forall id, In id (sfreed z) -> (id < nxt s)%nat }.

Lemma set_same {A} (f : nat -> A) i v : set f i v i = v.
Proof. unfold set. now rewrite Nat.eqb_refl. Qed.
Lemma set_other {A} (f : nat -> A) i v j : j <> i -> set f i v j = f j.
Proof. intros N0. unfold set. destruct (Nat.eqb_spec j i); congruence. Qed.

(* who is inside a port, or has it in hand, keeps it in memory *)
Lemma live_of s z a t : Inv s z -> loc_of a (thr s t) <> XNone -> exists p, mem s a = Some p.
Proof. intros V H. pose proof (v_here _ _ V a) as P. unfold here in P. destruct (mem s a) as [p|]; [eauto|]. destruct P as (_ & P). elim H. apply P. Qed.
Lemma live_tree s z a h : Inv s z -> In (h, a) (tree s) -> exists p, mem s a = Some p.
Proof. intros V H. pose proof (v_here _ _ V a) as P. unfold here in P. destruct (mem s a) as [p|]; [eauto|]. destruct P as (P & _). elim (P h H). Qed.
Lemma far_loc s z a : Inv s z -> forall u, (N <= u)%nat -> loc_of a (thr s u) = XNone.
Proof. intros V u L. now rewrite (v_far _ _ V u L). Qed.

Lemma here_other s z s' z' b : here N (mem s b) (fun h => In (h, b) (tree s)) (fun t => loc_of b (thr s t)) (fun id => In id (sused z)) (fun id => In id (sfreed z)) ->
  mem s' b = mem s b -> (forall h, In (h, b) (tree s') <-> In (h, b) (tree s)) -> (forall t, loc_of b (thr s' t) = loc_of b (thr s t)) ->
  (forall p, mem s b = Some p -> (In (pid p) (sused z') <-> In (pid p) (sused z)) /\ (In (pid p) (sfreed z') <-> In (pid p) (sfreed z))) ->
  here N (mem s' b) (fun h => In (h, b) (tree s')) (fun t => loc_of b (thr s' t)) (fun id => In id (sused z')) (fun id => In id (sfreed z')).
Proof.
  intros P M T X U. rewrite M. unfold here in *. destruct (mem s b) as [p|].
  - destruct P as (P & F). destruct (U p eq_refl) as (U1 & U2). split; [|tauto]. eapply phase_ext; [| | |exact P]; [intros h; now rewrite T|intros t; now rewrite X|tauto].
  - destruct P as (P1 & P2). split; [intros h; rewrite T; apply P1|intros t; rewrite X; apply P2].
Qed.

(* one port changes *)
Lemma upd_inv s z s' z' a p p' : Inv s z -> mem s a = Some p -> mem s' a = Some p' -> (forall b, b <> a -> mem s' b = mem s b) -> pid p' = pid p -> nxt s' = nxt s ->
  (forall b u, b <> a -> loc_of b (thr s' u) = loc_of b (thr s u)) -> (forall t, (N <= t)%nat -> thr s' t = TOut) ->
  (forall b h, b <> a -> (In (h, b) (tree s') <-> In (h, b) (tree s))) -> NoDup (map fst (tree s')) ->
  phase N p' (fun h => In (h, a) (tree s')) (fun u => loc_of a (thr s' u)) (In (pid p) (sused z')) ->
  (forall t h o, thr s' t = TFound h o -> o = lookup h (tree s')) ->
  NoDup (map fst (hands s')) -> (forall h id, In (h, id) (hands s') <-> (In (h, id) (hands s) /\ id <> pid p) \/ (iocp p' = Some h /\ id = pid p)) ->
  (forall id, id <> pid p -> (In id (sused z') <-> In id (sused z))) -> sfreed z' = sfreed z ->
  sm z' = map (fun e => (fst e, pid_at s (snd e))) (tree s') -> (forall t, scur z' t = match thr s' t with THold b | TLoad b _ => Some (pid_at s b) | _ => None end) ->
  Inv s' z'.
Proof.
  intros V M M' MO PI NX XO FAR TO TK PH FO HK HH US FR SM CU.
  assert (PA : forall b, pid_at s' b = pid_at s b).
  { intros b. unfold pid_at. destruct (Nat.eq_dec b a) as [->|NE]; [now rewrite M, M', PI|]. now rewrite MO. }
  assert (ND : ~ In (pid p) (sfreed z)) by (pose proof (v_here _ _ V a) as P; rewrite M in P; apply P).
  constructor; auto.
  - intros b. destruct (Nat.eq_dec b a) as [->|NE].
    + rewrite M'. cbn [here]. rewrite PI, FR. split; [exact PH|exact ND].
    + eapply here_other; [apply (v_here _ _ V b)|auto|auto|auto|]. intros q Q. rewrite FR. split; [|tauto]. apply US. intros E. apply NE. apply (v_pid _ _ V b a q p Q M E).
  - intros h id. rewrite HH, (v_hands _ _ V). split.
    + intros [((b & q & B1 & B2 & B3) & NI)|(I & ->)].
      * exists b, q. split; [|auto]. destruct (Nat.eq_dec b a) as [->|NE]; [congruence|]. now rewrite MO.
      * exists a, p'. auto.
    + intros (b & q & B1 & B2 & B3). destruct (Nat.eq_dec b a) as [->|NE].
      * right. rewrite M' in B1. injection B1 as <-. split; congruence.
      * left. rewrite MO in B1 by exact NE. split; [eauto|]. intros E. apply NE. apply (v_pid _ _ V b a q p B1 M). congruence.
  - intros b c q r B C E. destruct (Nat.eq_dec b a) as [->|NB]; destruct (Nat.eq_dec c a) as [->|NC]; auto.
    + rewrite MO in C by exact NC. rewrite M' in B. injection B as <-. apply (v_pid _ _ V a c p r M C). congruence.
    + rewrite MO in B by exact NB. rewrite M' in C. injection C as <-. apply (v_pid _ _ V b a q p B M). congruence.
    + rewrite MO in B by exact NB. rewrite MO in C by exact NC. apply (v_pid _ _ V b c q r B C E).
  - intros b q B. rewrite NX. destruct (Nat.eq_dec b a) as [->|NE]; [rewrite M' in B; injection B as <-; rewrite PI; apply (v_nxt _ _ V a p M)|]. rewrite MO in B by exact NE. apply (v_nxt _ _ V b q B).
  - rewrite SM. apply map_ext. intros e. now rewrite PA.
  - intros t. rewrite CU. unfold cur. destruct (thr s' t); try reflexivity; now rewrite PA.
  - intros id I. rewrite NX. destruct (Nat.eq_dec id (pid p)) as [->|NE]; [apply (v_nxt _ _ V a p M)|]. apply (v_used _ _ V). apply US; assumption.
  - intros id I. rewrite NX. rewrite FR in I. apply (v_freed _ _ V id I).
Qed.

(* no port changes *)
Lemma quiet s z s' z' : Inv s z -> (forall b, mem s' b = mem s b) -> nxt s' = nxt s -> tree s' = tree s -> hands s' = hands s ->
  (forall b u, loc_of b (thr s' u) = loc_of b (thr s u)) -> (forall t, (N <= t)%nat -> thr s' t = TOut) ->
  (forall t h o, thr s' t = TFound h o -> o = lookup h (tree s)) -> sm z' = sm z -> sused z' = sused z -> sfreed z' = sfreed z -> (forall t, scur z' t = cur s' t) ->
  Inv s' z'.
Proof.
  intros V M NX T HA X FAR FO SM US FR CU.
  assert (PA : forall b, pid_at s' b = pid_at s b) by (intros b; unfold pid_at; now rewrite M).
  constructor; auto.
  - intros b. eapply here_other; [apply (v_here _ _ V b)|auto|intros h; now rewrite T|auto|]. intros q Q. rewrite US, FR. tauto.
  - rewrite T. apply (v_keys _ _ V).
  - rewrite T. exact FO.
  - rewrite HA. apply (v_hkeys _ _ V).
  - intros h id. rewrite HA, (v_hands _ _ V). split; intros (b & q & B & C); exists b, q; [rewrite M|rewrite <- M]; auto.
  - intros b c q r B C. rewrite M in B, C. apply (v_pid _ _ V b c q r B C).
  - intros b q B. rewrite NX. rewrite M in B. apply (v_nxt _ _ V b q B).
  - rewrite SM, (v_sm _ _ V), T. apply map_ext. intros e. now rewrite PA.
  - intros id I. rewrite NX. rewrite US in I. apply (v_used _ _ V id I).
  - intros id I. rewrite NX. rewrite FR in I. apply (v_freed _ _ V id I).
Qed.

(* hands when the port keeps its handle *)
Lemma same_hands s z a p p' : Inv s z -> mem s a = Some p -> iocp p' = iocp p ->
  forall h id, In (h, id) (hands s) <-> (In (h, id) (hands s) /\ id <> pid p) \/ (iocp p' = Some h /\ id = pid p).
Proof.
  intros V M I h id. rewrite I. split.
  - intros H. destruct (Nat.eq_dec id (pid p)) as [->|NE]; [|auto]. right. split; [|reflexivity]. apply (v_hands _ _ V) in H as (b & q & B & C & D).
    rewrite (v_pid _ _ V b a q p B M D) in B. congruence.
  - intros [(H & _)|(H & ->)]; [exact H|]. apply (v_hands _ _ V). eauto.
Qed.
Lemma unshared_ok s z : Inv s z -> unshared N s = true -> forall t h o, thr s t <> TFound h o.
Proof.
  intros V U t h o E. unfold unshared in U. rewrite forallb_forall in U. destruct (Nat.lt_ge_cases t N) as [L|G].
  - specialize (U t). rewrite E in U. assert (In t (seq 0 N)) by (apply in_seq; lia). specialize (U H). discriminate.
  - rewrite (v_far _ _ V t G) in E. discriminate.
Qed.
Lemma chg_loc a (f : nat -> tst) t x : chg (fun u => loc_of a (f u)) t (loc_of a x) (fun u => loc_of a (set f t x u)).
Proof. split; [now rewrite set_same|]. intros u U. now rewrite set_other. Qed.
Lemma far_set s z t x : Inv s z -> (t < N)%nat -> forall u, (N <= u)%nat -> set (thr s) t x u = TOut.
Proof. intros V L u U. rewrite set_other by lia. apply (v_far _ _ V u U). Qed.
End Threads.
