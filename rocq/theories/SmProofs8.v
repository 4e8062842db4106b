(* Proofs about runs of spans (SmModel.v), part 8: the statements, and a program that loses spans *)
From Coq Require Import ZArith List Lia Bool Permutation Arith.
From Verif Require Import Base SmModel SmProofs SmProofs2 SmProofs3 SmProofs4 SmProofs5 SmProofs6 SmProofs7.
Import ListNotations.
Local Open Scope Z_scope.

Definition any (s : st) (o : op) : Prop := True.

Lemma reach_sound p u hsc many (Q : st -> op -> Prop) s : 1 <= p -> 0 <= u -> heap_sizes (config p u) hsc many -> reach (config p u) hsc many Q s -> sound s.
Proof. intros P U HS R. destruct (reach_inv _ _ _ _ _ (config_ok p u P U) HS R) as (hs & lost & SI & _). eapply sinv_sound; eauto. Qed.

(* what a step does to the list of runs in use *)
Definition seen (o : op) (s s' : st) : Prop :=
  let l := cache s Held in let l' := cache s' Held in
  match o with
  | Alloc _ _ n ans => (l' = l /\ exists M a, ans M a = None) \/
      exists x, l' = x :: l /\ ~ In x l /\ Z.of_nat n <= h_cnt (hdrs s' x) /\ h_cnt (hdrs s' x) <= Z.of_nat n + (if (2 <? n)%nat then Z.of_nat n / 2 else 0)
  | FreeSpan _ _ x | FreeLarge _ x | FreeOther _ x => Permutation l (x :: l')
  | _ => l' = l
  end.

Lemma reach_step p u hsc many Q s o : 1 <= p -> 0 <= u -> heap_sizes (config p u) hsc many -> reach (config p u) hsc many Q s -> legal s o ->
  exists s', step (config p u) hsc many s o = Ok s' /\ seen o s s' /\
    forall x, In x (cache s Held) -> In x (cache s' Held) -> h_cnt (hdrs s' x) = h_cnt (hdrs s x).
Proof.
  intros P U HS R L. assert (K := config_ok p u P U). destruct (reach_inv _ _ _ _ _ K HS R) as (hs & lost & SI & G & _).
  destruct (step_ok _ _ _ s o hs lost SI K G HS L) as (hs' & more & s' & E & SI' & _ & _ & EF). exists s'. split; auto. split; [|eapply step_size; eauto].
  destruct o; cbn [effect seen legal] in *; cbv zeta; try (apply EF; fail).
  - destruct EF as [(A & _ & M & B)|(r & A & -> & B)]; [left; eauto|]. right. exists (rx r). split; auto.
    assert (ND := o_once _ (sinv_sound _ _ _ SI') Held Logic.I). rewrite A in ND. inversion ND; subst. split; auto. rewrite (sinv_size _ _ _ r SI') by (left; auto). unfold at_most in B. lia.
  - destruct EF as (-> & _). apply drop_one_perm. tauto.
  - destruct EF as (-> & _). apply drop_one_perm. tauto.
  - destruct EF as (-> & _). apply drop_one_perm. tauto.
Qed.

(* nothing is lost: with at most 64 spans mapped at once, or when new heaps never find a small global reserve *)
Lemma reach_kept p u hsc many (Q : st -> op -> Prop) s : 1 <= p -> 0 <= u -> heap_sizes (config p u) hsc many ->
  (p <= 64 /\ u <= 64 \/ (forall s o, Q s o -> quiet hsc s o)) -> reach (config p u) hsc many Q s ->
  exists hs, sinv s hs [] /\ gok (config p u) s.
Proof.
  intros P U HS C R. assert (K := config_ok p u P U). destruct (reach_inv _ _ _ _ _ K HS R) as (hs & lost & SI & G & LO).
  assert (lost = []); [|subst; eauto]. apply LO. intros s1 o1 R1 Q1. destruct C as [(C1 & C2)|C]; [|auto]. eapply small_quiet; [exact K|exact HS| |exact R1].
  unfold config. cbn [mapc]. destruct (u =? 0); destruct (_ <? p); destruct (_ mod p =? 0); lia.
Qed.

Lemma reach_first p u hsc many (Q : st -> op -> Prop) s : 1 <= p -> 0 <= u -> heap_sizes (config p u) hsc many ->
  (p <= 64 /\ u <= 64 \/ (forall s o, Q s o -> quiet hsc s o)) -> reach (config p u) hsc many Q s ->
  forall m t, In (m, t) (maps s) -> exists pl n, at_place s pl m n.
Proof. intros P U HS C R. destruct (reach_kept p u hsc many Q s P U HS C R) as (hs & SI & _). eapply sinv_first; eauto. Qed.

Lemma reach_finalize p u hsc many (Q : st -> op -> Prop) s hs h0 classes : 1 <= p -> 0 <= u -> heap_sizes (config p u) hsc many ->
  (p <= 64 /\ u <= 64 \/ (forall s o, Q s o -> quiet hsc s o)) -> reach (config p u) hsc many Q s -> In h0 hs -> covers s hs classes ->
  exists s', finalize (config p u) classes s hs h0 = Ok s' /\ maps s' = [].
Proof. intros P U HS C R. destruct (reach_kept p u hsc many Q s P U HS C R) as (held & SI & G). intros. eapply finalize_ok; eauto. apply config_ok; auto. Qed.

Lemma reach_limits p u hsc many (Q : st -> op -> Prop) s : 1 <= p -> 0 <= u -> heap_sizes (config p u) hsc many -> reach (config p u) hsc many Q s ->
  (forall h n, (length (cache s (TC h n)) < (if Nat.eqb n 1 then 400 else 100))%nat) /\
  (forall n, (length (cache s (GC n)) <= (if Nat.eqb n 1 then 3200 else 800))%nat) /\
  (forall h k, (length (cache s (CC h k)) <= 1)%nat).
Proof. intros P U HS R. destruct (reach_inv _ _ _ _ _ (config_ok p u P U) HS R) as (hs & lost & SI & _). eapply sinv_limits; eauto. Qed.

(* a system that always has room after everything mapped *)
Definition bump : system := fun M a => Some (fold_right (fun r e => Z.max (fst r + snd r) e) 1 M).
Lemma bump_ok : sys_ok bump.
Proof.
  intros M a i E m t I. inversion E; subst. clear E. right. induction M as [|r M IH]; [destruct I|]. cbn [fold_right]. destruct I as [->|I]; [cbn [fst snd]; lia|]. specialize (IH I). lia.
Qed.

Fixpoint play (c : cfg) (hsc many : Z) (s : st) (l : list op) : outcome st :=
  match l with [] => Ok s | o :: r => do s <- step c hsc many s o; play c hsc many s r end.
Definition legalb (s : st) (o : op) : bool :=
  match o with
  | Alloc h k n ans => (Nat.leb 1 n && Nat.leb n 63) && match k with None => true | Some _ => Nat.eqb n 1 end
  | FreeSpan h k x => existsb (Z.eqb x) (cache s Held) && (h_cnt (hdrs s x) =? 1)
  | FreeLarge h x | FreeOther h x => existsb (Z.eqb x) (cache s Held)
  | Exit h => true
  | NewHeap h ans => r_cnt (hres s h) =? 0
  | Scribble x i d => existsb (Z.eqb x) (cache s Held) && (x <? i) && (i <? x + h_cnt (hdrs s x))
  end.
Definition with_bump (o : op) : Prop := match o with Alloc _ _ _ ans | NewHeap _ ans => ans = bump | _ => True end.
Fixpoint playb (c : cfg) (hsc many : Z) (s : st) (l : list op) : option st :=
  match l with [] => Some s | o :: r => if legalb s o then match step c hsc many s o with Ok s => playb c hsc many s r | _ => None end else None end.
Lemma existsb_in x l : existsb (Z.eqb x) l = true -> In x l.
Proof. intro E. apply existsb_exists in E as (y & I & Q). apply Z.eqb_eq in Q. subst. auto. Qed.
Lemma legalb_ok s o : legalb s o = true -> with_bump o -> legal s o.
Proof.
  destruct o; cbn [legalb legal with_bump]; intros A B.
  - apply andb_true_iff in A as [A A2]. apply andb_true_iff in A as [A A1]. apply Nat.leb_le in A, A1. split; [lia|]. split; [|subst; apply bump_ok]. destruct k; [intros _; apply Nat.eqb_eq; auto|congruence].
  - apply andb_true_iff in A as [A A1]. apply Z.eqb_eq in A1. split; auto. apply existsb_in; auto.
  - apply existsb_in; auto.
  - apply existsb_in; auto.
  - auto.
  - apply Z.eqb_eq in A. subst. split; auto. apply bump_ok.
  - apply andb_true_iff in A as [A A2]. apply andb_true_iff in A as [A A1]. apply Z.ltb_lt in A1, A2. split; [apply existsb_in; auto|lia].
Qed.
Lemma play_reach c hsc many l : forall s s', reach c hsc many any s -> Forall with_bump l -> playb c hsc many s l = Some s' -> reach c hsc many any s'.
Proof.
  induction l as [|o l IH]; intros s s' R F E; cbn [playb] in E; [inversion E; subst; auto|]. inversion F as [|? ? F1 F2]; subst.
  destruct (legalb s o) eqn:L; [|discriminate]. destruct (step c hsc many s o) as [s1| | |] eqn:S1; try discriminate.
  eapply IH; [|exact F2|exact E]. apply reach1 with (s := s) (o := o); [exact R|apply legalb_ok; auto|exact Logic.I|exact S1].
Qed.

(* pages of 128 spans: the second request for heaps overwrites the 10 spans left of the global reserve *)
Definition lossy : list op := [NewHeap 0 bump; Alloc 0 None 40 bump; Alloc 0 None 40 bump; NewHeap 1 bump].
Definition lossy_st : st := match playb (config 128 0) 14 14 st0 lossy with Some s => s | None => st0 end.
Lemma lossy_play : playb (config 128 0) 14 14 st0 lossy = Some lossy_st.
Proof. unfold lossy_st. destruct (playb (config 128 0) 14 14 st0 lossy) eqn:E; auto. vm_compute in E. discriminate. Qed.
Lemma lossy_reach : reach (config 128 0) 14 14 any lossy_st.
Proof. eapply play_reach; [apply reach0| |apply lossy_play]. repeat constructor. Qed.
Lemma lossy_covers : covers lossy_st [0; 1]%nat 0.
Proof.
  split.
  - intros h N. destruct h as [|[|h]]; [exfalso; apply N; cbn; auto|exfalso; apply N; cbn; auto|]. split; [vm_compute; auto|]. split; [vm_compute; auto|]. split; intro k; vm_compute; auto.
  - intros h k _. destruct h as [|[|h]]; vm_compute; auto.
Qed.
Lemma lossy_left : match finalize (config 128 0) 0 lossy_st [0; 1]%nat 0 with Ok s' => maps s' = [(1, 128)] | _ => False end.
Proof. vm_compute. reflexivity. Qed.
Lemma spans_lost : exists s s', heap_sizes (config 128 0) 14 14 /\ reach (config 128 0) 14 14 any s /\ covers s [0; 1]%nat 0 /\ finalize (config 128 0) 0 s [0; 1]%nat 0 = Ok s' /\ maps s' <> [].
Proof.
  assert (X := lossy_left). destruct (finalize (config 128 0) 0 lossy_st [0; 1]%nat 0) as [s'| | |] eqn:E; try contradiction.
  exists lossy_st, s'. split; [split; [lia|intros _; cbn; lia]|]. split; [apply lossy_reach|]. split; [apply lossy_covers|]. split; auto. rewrite X. discriminate.
Qed.

(* a thread that ends leaves nothing in its own caches *)
Lemma reach_exit p u hsc many (Q : st -> op -> Prop) s h : 1 <= p -> 0 <= u -> heap_sizes (config p u) hsc many -> reach (config p u) hsc many Q s ->
  exists s', step (config p u) hsc many s (Exit h) = Ok s' /\ cache s' (DF h) = [] /\ (forall n, cache s' (TC h n) = []) /\
    (forall g, hres s' g = hres s g) /\ (forall g n, g <> h -> cache s' (TC g n) = cache s (TC g n)).
Proof.
  intros P U HS R. assert (K := config_ok p u P U). destruct (reach_inv _ _ _ _ _ K HS R) as (hs & lost & SI & G & _). cbn [step].
  destruct (adopt_ok true (config p u) s h false _ (s_inv _ _ _ SI)) as (q & s1 & -> & G1 & (O1 & O1') & ED & _ & W). cbn [bind snd]. rewrite (W eq_refl) in G1. cbn [gives] in G1.
  destruct (give_caches_ok true (config p u) h 63 s1 1 _ G1 ltac:(lia) ltac:(lia)) as (s2 & -> & I2 & (O2 & O2') & E2 & _). exists s2. split; auto.
  assert (DD : cache s2 (DF h) = []) by (rewrite O2'; auto).
  assert (SI2 : sinv s2 hs lost).
  { eapply sinv_same; [exact SI| |exact I2]. rewrite O2', O1'; auto. intros [X|X]; [exact X|discriminate]. }
  split; auto. split.
  - intro n. assert (D : (1 <= n < 1 + 63)%nat \/ ~ (1 <= n <= 63)%nat) by lia. destruct D as [D|D]; auto.
    destruct (cache s2 (TC h n)) as [|x l] eqn:Q2; auto. exfalso. apply D. assert (A : at_place s2 (TC h n) x (h_cnt (hdrs s2 x))) by (cbn; rewrite Q2; split; [left|]; auto).
    assert (Y := o_size _ (sinv_sound _ _ _ SI2) _ _ _ A). cbn in Y. tauto.
  - split; [intro g; destruct O1 as (O1 & _), O2 as (O2 & _); rewrite O2, O1; auto|]. intros g n NE. rewrite O2', O1'; auto; [intros [X|X]; [exact (NE X)|discriminate]].
Qed.
