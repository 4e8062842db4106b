From Verif Require Import Base DllModel.

Lemma upd_same {V} (f : nat -> V) k v : upd f k v k = v.
Proof. unfold upd. now rewrite Nat.eqb_refl. Qed.
Lemma upd_other {V} (f : nat -> V) k v x : x <> k -> upd f k v x = f x.
Proof. unfold upd. destruct (Nat.eqb_spec x k); congruence. Qed.

(* first element of [l], or [d] *)
Definition first (l : list nat) (d : option nat) : option nat := match l with [] => d | x :: _ => Some x end.
(* last element of [l], or [d] *)
Fixpoint lastp (l : list nat) (d : option nat) : option nat := match l with [] => d | x :: r => lastp r (Some x) end.

(* [l] is linked both ways, entered from [p] and left to [n] *)
Fixpoint seg (s : dll) (p : option nat) (l : list nat) (n : option nat) : Prop :=
  match l with
  | [] => True
  | x :: r => prev s x = p /\ next s x = first r n /\ seg s (Some x) r n
  end.

(* the list [l], duplicate free, correctly linked in both directions *)
Record Rep (s : dll) (l : list nat) : Prop := {
  rep_nodup : NoDup l;
  rep_head : head s = first l None;
  rep_tail : tail s = lastp l None;
  rep_seg : seg s None l None }.

Lemma lastp_app a b d : lastp (a ++ b) d = lastp b (lastp a d).
Proof. revert d; induction a as [|x a IH]; intros d; cbn [app lastp]; auto. Qed.

Lemma first_app a b d : first (a ++ b) d = first a (first b d).
Proof. destruct a; reflexivity. Qed.

Lemma seg_app s a : forall p b n, seg s p (a ++ b) n <-> seg s p a (first b n) /\ seg s (lastp a p) b n.
Proof.
  induction a as [|x a IH]; intros p b n; cbn [app seg lastp].
  - tauto.
  - rewrite IH, first_app. tauto.
Qed.

(* frame: only the links of the members matter *)
Lemma seg_frame s s' l : forall p n,
  (forall x, In x l -> prev s' x = prev s x /\ next s' x = next s x) -> seg s p l n -> seg s' p l n.
Proof.
  induction l as [|x l IH]; intros p n H; cbn [seg]; auto.
  intros (H1 & H2 & H3). destruct (H x (or_introl eq_refl)) as [-> ->].
  repeat split; auto. apply IH; auto. intros y Hy. apply H. now right.
Qed.

Lemma lastp_in l : forall d x, lastp l d = Some x -> In x l \/ d = Some x.
Proof.
  induction l as [|y l IH]; intros d x; cbn [lastp]; auto.
  intros H. apply IH in H. destruct H as [H|H]; [left; now right|]. injection H as ->. left. now left.
Qed.

Lemma lastp_none l d : lastp l d = None -> l = [] /\ d = None.
Proof.
  destruct l as [|x l]; cbn [lastp]; auto. intros H. exfalso.
  revert x H. induction l as [|y l IH]; intros x; cbn [lastp]; [discriminate|apply IH].
Qed.

Lemma lastp_split l x : lastp l None = Some x -> exists a, l = a ++ [x].
Proof.
  intros H. destruct l as [|z l0] eqn:E; [discriminate|].
  assert (N : l <> []) by (subst; discriminate). rewrite <- E in *. clear E.
  destruct (exists_last N) as (a & y & ->). rewrite lastp_app in H. cbn in H. injection H as ->. eauto.
Qed.

(* changing the link out of the last member *)
Lemma seg_out s a x p n v : NoDup (a ++ [x]) -> seg s p (a ++ [x]) n -> seg (set_next s x v) p (a ++ [x]) v.
Proof.
  intros HN H. apply seg_app in H. destruct H as [H1 H2]. apply seg_app. split.
  - cbn [first] in *. apply seg_frame with s; auto. intros y Hy. cbn. split; auto.
    rewrite upd_other; auto. intros ->. apply NoDup_remove_2 in HN. rewrite app_nil_r in HN. auto.
  - cbn [seg] in *. destruct H2 as (H2 & H3 & _). cbn. repeat split; auto. now rewrite upd_same.
Qed.

(* changing the link into the first member *)
Lemma seg_in s x r p n v : NoDup (x :: r) -> seg s p (x :: r) n -> seg (set_prev s x v) v (x :: r) n.
Proof.
  intros HN (H1 & H2 & H3). cbn [seg]. repeat split; auto.
  - cbn. now rewrite upd_same.
  - apply seg_frame with s; auto. intros y Hy. cbn. split; auto. rewrite upd_other; auto.
    intros ->. inversion HN; auto.
Qed.

Lemma NoDup_mid {A} (a b : list A) x : NoDup (a ++ x :: b) -> NoDup a /\ NoDup b /\ ~ In x a /\ ~ In x b /\
  (forall y, In y a -> ~ In y b).
Proof.
  intros H. pose proof (NoDup_remove_2 _ _ _ H) as H2. pose proof (NoDup_remove_1 _ _ _ H) as H1.
  assert (D : forall l1 l2 : list A, NoDup (l1 ++ l2) -> NoDup l1 /\ NoDup l2 /\ forall y, In y l1 -> ~ In y l2).
  { clear. induction l1 as [|z l1 IH]; cbn [app]; intros l2 H.
    - repeat split; auto. constructor.
    - inversion H as [|? ? Hz Ht]; subst. destruct (IH l2 Ht) as (I1 & I2 & I3). repeat split; auto.
      + constructor; auto. intros Hi. apply Hz, in_or_app. auto.
      + intros y [<-|Hy]; auto. intros Hi. apply Hz, in_or_app. auto. }
  destruct (D a b H1) as (D1 & D2 & D3). repeat split; auto.
  - intros Hi. apply H2, in_or_app; auto.
  - intros Hi. apply H2, in_or_app; auto.
Qed.

(* ---- the operations ---- *)
Lemma dequeue_rep s a t b : Rep s (a ++ t :: b) -> Rep (dequeue s t) (a ++ b).
Proof.
  intros [HN Hh Ht Hs].
  destruct (NoDup_mid a b t HN) as (Na & Nb & Ta & Tb & Dj).
  apply seg_app in Hs. destruct Hs as [Hsa (Hp & Hn & Hsb)]. cbn [first] in Hsa.
  rewrite first_app in Hh. rewrite lastp_app in Ht. cbn [lastp] in Ht. cbn [first] in Hh.
  pose proof (NoDup_remove_1 _ _ _ HN) as Nab.
  unfold dequeue. rewrite Hp.
  (* predecessor side *)
  assert (S1 : exists s1, match lastp a None with
      | Some p => set_next s p (next s t) | None => set_head s (next s t) end = s1 /\
      head s1 = first a (first b None) /\ tail s1 = tail s /\
      seg s1 None a (first b None) /\ seg s1 (Some t) b None /\ next s1 t = next s t /\ prev s1 = prev s).
  { destruct (lastp a None) as [p|] eqn:El.
    - destruct (lastp_split a p El) as (a' & ->).
      eexists. split; [reflexivity|]. rewrite Hn. cbn [head tail set_next next prev].
      split; [rewrite Hh; rewrite !first_app; now destruct a'|]. split; auto.
      split; [apply seg_out with (Some t); auto|].
      assert (PT : p <> t) by (intros ->; apply Ta, in_or_app; right; now left).
      assert (PB : ~ In p b) by (apply Dj, in_or_app; right; now left).
      split; [|split; auto].
      + apply seg_frame with s; auto. intros y Hy. cbn. split; auto.
        apply upd_other. congruence.
      + rewrite upd_other; auto.
    - apply lastp_none in El. destruct El as [-> _].
      eexists. split; [reflexivity|]. cbn. repeat split; auto.
      apply seg_frame with s; auto. }
  destruct S1 as (s1 & -> & Sh & St & Ssa & Ssb & Snt & Spv).
  rewrite Snt, Hn, Spv, Hp.
  destruct b as [|y b]; cbn [first] in *.
  - (* last *)
    rewrite app_nil_r in *. constructor; auto; cbn [set_tail head tail].
    apply seg_frame with s1; auto.
  - constructor; auto; cbn [set_prev head tail].
    + rewrite Sh, first_app. reflexivity.
    + rewrite St, Ht, lastp_app. cbn [lastp]. reflexivity.
    + apply seg_app. split.
      * apply seg_frame with s1; auto. intros z Hz. cbn. split; auto. apply upd_other.
        intros ->. apply (Dj y); auto. now left.
      * apply seg_in with (Some t); auto.
Qed.

Lemma enqueue_rep s l t : Rep s l -> ~ In t l -> Rep (enqueue s t) (l ++ [t]).
Proof.
  intros [HN Hh Ht Hs] Ti. unfold enqueue. rewrite Ht.
  assert (HN' : NoDup (l ++ [t])).
  { apply NoDup_Add with t l; [|auto]. replace l with (l ++ []) at 1 by apply app_nil_r. apply Add_app. }
  destruct (lastp l None) as [x|] eqn:El.
  - destruct (lastp_split l x El) as (a & ->).
    assert (XT : x <> t) by (intros ->; apply Ti, in_or_app; right; now left).
    constructor; auto.
    + cbn. rewrite Hh, !first_app. now destruct a.
    + cbn. now rewrite lastp_app.
    + apply seg_app. cbn [first seg]. split.
      * apply seg_frame with (set_next s x (Some t)).
        -- intros y Hy. cbn. assert (y <> t) by (intros ->; contradiction). now rewrite (upd_other (prev s) t), (upd_other (upd (next s) x (Some t)) t) by auto.
        -- apply seg_out with None; auto.
      * rewrite El. cbn. rewrite !upd_same. auto.
  - apply lastp_none in El. destruct El as [-> _]. constructor; auto.
    cbn [app seg first]. cbn. now rewrite !upd_same.
Qed.

Lemma task_dequeue_rep s l : Rep s l ->
  fst (task_dequeue s) = first l None /\ Rep (snd (task_dequeue s)) (tl l).
Proof.
  intros R. pose proof R as [_ Hh _ _]. unfold task_dequeue. rewrite Hh.
  destruct l as [|x l]; cbn [first fst snd tl]; split; auto.
  exact (dequeue_rep s [] x l R).
Qed.

Lemma link_before_rep s a b x : Rep s (a ++ b) -> ~ In x (a ++ b) ->
  Rep (link_before s x (first b None)) (a ++ x :: b).
Proof.
  intros [HN Hh Ht Hs] Hx.
  assert (HN' : NoDup (a ++ x :: b)) by (apply NoDup_Add with x (a ++ b); [apply Add_app|auto]).
  destruct (NoDup_mid a b x HN') as (Na & Nb & Xa & Xb & Dj).
  apply seg_app in Hs. destruct Hs as [Hsa Hsb].
  rewrite first_app in Hh. rewrite lastp_app in Ht.
  unfold link_before.
  (* first two assignments: links of x *)
  set (s1 := match first b None with
             | Some y => set_next (set_prev s x (prev s y)) x (Some y)
             | None => set_next (set_prev s x (tail s)) x None end).
  assert (P1 : prev s1 x = lastp a None /\ next s1 x = first b None /\ head s1 = head s /\ tail s1 = tail s /\
     forall y, y <> x -> prev s1 y = prev s y /\ next s1 y = next s y).
  { unfold s1. destruct b as [|y b]; cbn [first] in *; cbn; rewrite !upd_same; repeat split; auto;
      try (intros; now rewrite !upd_other).
    now destruct Hsb. }
  destruct P1 as (P1 & P2 & P3 & P4 & P5). clearbody s1.
  assert (Ssa : seg s1 None a (first b None)).
  { apply seg_frame with s; auto. intros y Hy. apply P5. intros ->. contradiction. }
  assert (Ssb : seg s1 (lastp a None) b None).
  { apply seg_frame with s; auto. intros y Hy. apply P5. intros ->. contradiction. }
  rewrite P1.
  set (s2 := match lastp a None with Some p => set_next s1 p (Some x) | None => set_head s1 (Some x) end).
  assert (P6 : head s2 = first a (Some x) /\ tail s2 = tail s1 /\ prev s2 = prev s1 /\ next s2 x = first b None /\
     seg s2 None a (Some x) /\ seg s2 (lastp a None) b None).
  { unfold s2. destruct (lastp a None) as [p|] eqn:El.
    - destruct (lastp_split a p El) as (a' & ->). cbn [head tail set_next prev next].
      split; [rewrite P3, Hh, !first_app; now destruct a'|]. split; auto. split; auto.
      split; [rewrite upd_other; auto; intros ->; apply Xa, in_or_app; right; now left|].
      split; [apply seg_out with (first b None); auto|].
      apply seg_frame with s1; auto. intros y Hy. cbn. split; auto. apply upd_other. intros ->.
      apply (Dj p); auto. apply in_or_app. right. now left.
    - apply lastp_none in El. destruct El as [-> _]. cbn. repeat split; auto.
      apply seg_frame with s1; auto. }
  destruct P6 as (Q1 & Q2 & Q3 & Q4 & Q5 & Q6). clearbody s2.
  rewrite Q4. destruct b as [|y b]; cbn [first] in *.
  - constructor; auto; cbn [set_tail head tail].
    + now rewrite Q1, first_app.
    + now rewrite lastp_app.
    + apply seg_app. split; [apply seg_frame with s2; auto|]. cbn [seg first]. cbn. rewrite Q3. auto.
  - assert (YX : x <> y) by (intros ->; apply Xb; now left).
    constructor; auto; cbn [set_prev head tail].
    + now rewrite Q1, first_app.
    + rewrite Q2, P4, Ht, lastp_app. reflexivity.
    + apply seg_app. cbn [first]. split; [|cbn [seg first]; split; [|split]].
      * apply seg_frame with s2; auto. intros z Hz. cbn. split; auto. apply upd_other. intros ->.
        apply (Dj y); auto. now left.
      * cbn. rewrite upd_other by auto. now rewrite Q3.
      * exact Q4.
      * apply seg_in with (lastp a None); auto.
Qed.

Lemma empty_rep nx pv : Rep (dll_empty nx pv) [].
Proof. constructor; cbn; auto. constructor. Qed.

(* ---- walking ---- *)
Lemma walk_seg s l : forall p fuel, seg s p l None -> length l <= fuel -> walk fuel (next s) (first l None) = Ok l.
Proof.
  induction l as [|x l IH]; intros p fuel H L; cbn [first].
  - destruct fuel; reflexivity.
  - destruct H as (_ & Hn & H). destruct fuel as [|fuel]; [cbn in L; lia|]. cbn [walk].
    rewrite Hn, (IH (Some x) fuel); auto. cbn in L; lia.
Qed.

Lemma walk_rep s l fuel : Rep s l -> length l <= fuel -> walk fuel (next s) (head s) = Ok l.
Proof. intros [_ -> _ Hs] L. eapply walk_seg; eauto. Qed.

(* ---- sorted insertion position ---- *)
Lemma find_ge_seg s key when l : forall p fuel, seg s p l None -> length l <= fuel ->
  exists a b, l = a ++ b /\ find_ge fuel (next s) key when (first l None) = Ok (first b None) /\
    Forall (fun x => (key x < when)%Z) a /\ (forall y, first b None = Some y -> (when <= key y)%Z).
Proof.
  induction l as [|x l IH]; intros p fuel H L; cbn [first].
  - exists [], []. destruct fuel; repeat split; auto; discriminate.
  - destruct H as (_ & Hn & H). destruct fuel as [|fuel]; [cbn in L; lia|]. cbn [find_ge].
    destruct (Z.ltb_spec (key x) when) as [K|K].
    + rewrite Hn. destruct (IH (Some x) fuel H ltac:(cbn in L; lia)) as (a & b & -> & E & F & G).
      exists (x :: a), b. repeat split; auto.
    + exists [], (x :: l). repeat split; auto. cbn. intros y [= <-]. auto.
Qed.

Lemma find_ge_rep s key when l fuel : Rep s l -> length l <= fuel ->
  exists a b, l = a ++ b /\ find_ge fuel (next s) key when (head s) = Ok (first b None) /\
    Forall (fun x => (key x < when)%Z) a /\ (forall y, first b None = Some y -> (when <= key y)%Z).
Proof. intros [_ -> _ Hs] L. eapply find_ge_seg; eauto. Qed.

(* ---- what the operations leave alone ---- *)
Lemma rep_frame s s' l : Rep s l -> head s' = head s -> tail s' = tail s ->
  (forall x, In x l -> prev s' x = prev s x /\ next s' x = next s x) -> Rep s' l.
Proof. intros [H1 H2 H3 H4] E1 E2 H. constructor; try congruence. eapply seg_frame; eauto. Qed.

Lemma enqueue_frame s l t x : Rep s l -> x <> t -> ~ In x l ->
  prev (enqueue s t) x = prev s x /\ next (enqueue s t) x = next s x.
Proof.
  intros [_ _ Ht _] Ne Ni. unfold enqueue. rewrite Ht. destruct (lastp l None) as [y|] eqn:E; cbn.
  - apply lastp_in in E. destruct E as [E|E]; [|discriminate].
    rewrite !upd_other by (try assumption; intros ->; contradiction). auto.
  - now rewrite !upd_other by assumption.
Qed.

Lemma seg_prev_in s l : forall p n x q, seg s p l n -> In x l -> prev s x = Some q -> In q l \/ p = Some q.
Proof.
  induction l as [|y l IH]; intros p n x q H Hi E; [contradiction|]. destruct H as (H1 & H2 & H3).
  destruct Hi as [->|Hi]; [right; congruence|].
  destruct (IH _ _ _ _ H3 Hi E) as [H|[= ->]]; left; [now right|now left].
Qed.
Lemma seg_next_in s l : forall p n x q, seg s p l n -> In x l -> next s x = Some q -> In q l \/ n = Some q.
Proof.
  induction l as [|y l IH]; intros p n x q H Hi E; [contradiction|]. destruct H as (H1 & H2 & H3).
  destruct Hi as [->|Hi].
  - rewrite H2 in E. destruct l as [|z l]; cbn in E; [now right|]. injection E as ->. left. right. now left.
  - destruct (IH _ _ _ _ H3 Hi E) as [H|H]; [left; now right|now right].
Qed.

Lemma dequeue_frame s l t x : Rep s l -> In t l -> ~ In x l ->
  prev (dequeue s t) x = prev s x /\ next (dequeue s t) x = next s x.
Proof.
  intros [_ _ _ Hs] Ti Ni. unfold dequeue.
  assert (A : forall p, prev s t = Some p -> x <> p).
  { intros p E ->. destruct (seg_prev_in _ _ _ _ _ _ Hs Ti E) as [H|H]; [contradiction|discriminate]. }
  assert (B : forall p, next s t = Some p -> x <> p).
  { intros p E ->. destruct (seg_next_in _ _ _ _ _ _ Hs Ti E) as [H|H]; [contradiction|discriminate]. }
  destruct (prev s t) as [p|] eqn:Ep.
  - specialize (A p eq_refl). cbn. change (upd (next s) p (next s t) t) with (if Nat.eqb t p then next s t else next s t).
    destruct (next s t) as [n|] eqn:En; [specialize (B n eq_refl)|]; destruct (Nat.eqb t p); cbn; rewrite ?upd_other by assumption; auto;
      rewrite En; cbn; rewrite ?upd_other by assumption; auto.
  - cbn. destruct (next s t) as [n|] eqn:En; [specialize (B n eq_refl)|]; cbn; rewrite ?upd_other by assumption; auto.
Qed.

Lemma link_before_frame s a b t x : Rep s (a ++ b) -> ~ In t (a ++ b) -> x <> t -> ~ In x (a ++ b) ->
  prev (link_before s t (first b None)) x = prev s x /\ next (link_before s t (first b None)) x = next s x.
Proof.
  intros [_ _ Htl Hs] Ti Ne Ni. unfold link_before.
  destruct b as [|y b]; cbn [first].
  - cbn. rewrite upd_same. destruct (tail s) as [p|] eqn:Et; cbn.
    + assert (x <> p). { intros ->. symmetry in Htl. apply lastp_in in Htl. destruct Htl as [H|H]; [contradiction|discriminate]. }
      assert (t <> p). { intros ->. symmetry in Htl. apply lastp_in in Htl. destruct Htl as [H0|H0]; [contradiction|discriminate]. }
      rewrite (upd_other _ p) by auto. rewrite upd_same. cbn. rewrite !upd_other by auto. auto.
    + rewrite upd_same. cbn. rewrite !upd_other by auto. auto.
  - assert (Iy : In y (a ++ y :: b)) by (apply in_or_app; right; now left).
    assert (x <> y) by (intros ->; contradiction). assert (t <> y) by (intros ->; contradiction).
    cbn. rewrite upd_same. destruct (prev s y) as [p|] eqn:Ep; cbn.
    + destruct (seg_prev_in _ _ _ _ _ _ Hs Iy Ep) as [H1|H1]; [|discriminate].
      assert (x <> p) by (intros ->; contradiction). assert (t <> p) by (intros ->; contradiction).
      rewrite (upd_other _ p) by auto. rewrite upd_same. cbn. rewrite !upd_other by auto. auto.
    + rewrite upd_same. cbn. rewrite !upd_other by auto. auto.
Qed.
