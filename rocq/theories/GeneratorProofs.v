(* Specification and proofs for GeneratorModel. *)
From Verif Require Import Base DllModel DllProofs SchedModel SchedProofs GeneratorModel.

Definition pending (s : gen) : list Z := if ready s then [value s] else [].
Definition ginv (vals : list Z) (s : gen) : Prop := map snd (out s) ++ pending s ++ left_ s = vals.
Lemma gstep_inv stops vals s w s' : ginv vals s -> gstep stops s w = Ok s' -> ginv vals s'.
Proof.
  unfold ginv, pending. intros I H. destruct w as [|k]; cbn [gstep] in H.
  - destruct (gone s); [injection H as <-; exact I|]. destruct (left_ s) as [|v r] eqn:L.
    + injection H as <-. cbn. exact I.
    + destruct (ready s) eqn:R; injection H as <-; [rewrite R, L; exact I|]. cbn. exact I.
  - destruct (gone s); [discriminate|]. destruct (ready s) eqn:R; injection H as <-; [|rewrite R; exact I]. cbn. rewrite map_app, <- app_assoc. exact I.
Qed.
Lemma grun_inv stops vals l : forall s s', ginv vals s -> grun stops s l = Ok s' -> ginv vals s'.
Proof.
  induction l as [|w l IH]; intros s s' I H; cbn [grun] in H; [injection H as <-; exact I|].
  destruct (gstep stops s w) as [s1| | |] eqn:E; cbn [bind] in H; try discriminate. eapply IH; [|exact H]. eapply gstep_inv; eauto.
Qed.
(* whatever completes: consumers together received a prefix of the values, in order *)
Lemma generator_prefix stops vals l s : grun stops (gen0 vals) l = Ok s -> exists rest, vals = map snd (out s) ++ rest.
Proof. intros H. assert (I : ginv vals s) by (eapply grun_inv; [|exact H]; reflexivity). exists (pending s ++ left_ s). symmetry. exact I. Qed.
Lemma gone_stays l : forall s, gone s = false -> exists s', grun false s l = Ok s' /\ gone s' = false.
Proof.
  induction l as [|w l IH]; intros s G; cbn [grun]; [eauto|]. destruct w as [|k]; cbn [gstep]; rewrite G.
  - destruct (left_ s); [cbn [bind]; apply IH; reflexivity|]. destruct (ready s); cbn [bind]; apply IH; [exact G|reflexivity].
  - destruct (ready s); cbn [bind]; apply IH; [reflexivity|exact G].
Qed.
(* a producer that never returns: every schedule is safe *)
Lemma generator_safe vals l : exists s, grun false (gen0 vals) l = Ok s /\ exists rest, vals = map snd (out s) ++ rest.
Proof. destruct (gone_stays l (gen0 vals) eq_refl) as (s & R & _). exists s. split; [exact R|]. eapply generator_prefix; eauto. Qed.
(* alternating delivers one value per turn *)
Fixpoint turns (k n : nat) : list who := match n with 0 => [] | S m => P :: C k :: turns k m end.
Lemma turns_deliver stops k vals : forall o r x, exists y, grun stops {| ready := false; value := x; gone := false; left_ := vals ++ r; out := o |} (turns k (length vals)) =
  Ok {| ready := false; value := y; gone := false; left_ := r; out := o ++ map (fun v => (k, v)) vals |}.
Proof.
  induction vals as [|v vals IH]; intros o r x; cbn [length turns grun gstep app gone left_ ready bind map].
  - exists x. now rewrite app_nil_r.
  - cbn [value out]. destruct (IH (o ++ [(k, v)]) r v) as (y & E). exists y. rewrite E, <- app_assoc. reflexivity.
Qed.
Lemma generator_delivers stops k vals : exists s, grun stops (gen0 vals) (turns k (length vals)) = Ok s /\ out s = map (fun v => (k, v)) vals.
Proof.
  destruct (turns_deliver stops k vals [] [] 0%Z) as (y & H). rewrite app_nil_r in H. eexists. split; [exact H|]. reflexivity.
Qed.
Lemma grun_app stops l1 : forall l2 s, grun stops s (l1 ++ l2) = do s' <- grun stops s l1; grun stops s' l2.
Proof. induction l1 as [|w l1 IH]; intros l2 s; [reflexivity|]. cbn [app grun]. destruct (gstep stops s w); cbn [bind]; try reflexivity. apply IH. Qed.
(* the call after the end, which should give the empty value, reads a freed object *)
Lemma after_end vals k j : grun true (gen0 vals) (turns k (length vals) ++ [P; C j]) = UB.
Proof. rewrite grun_app. destruct (turns_deliver true k vals [] [] 0%Z) as (y & H). rewrite app_nil_r in H. unfold gen0. rewrite H. reflexivity. Qed.
(* and the last value is lost when the producer returns before it is collected *)
Lemma last_lost vals v k j : exists s, grun true (gen0 (vals ++ [v])) (turns k (length vals) ++ [P; P]) = Ok s /\ map snd (out s) = vals /\ grun true s [C j] = UB.
Proof.
  rewrite grun_app. destruct (turns_deliver true k vals [] [v] 0%Z) as (y & H). unfold gen0. rewrite H. cbn. eexists. split; [reflexivity|].
  cbn. split; [|reflexivity]. rewrite map_map. cbn. apply map_id.
Qed.
(* a consumer call fails only once the producer has returned *)
Lemma fails_only_gone stops vals l : grun stops (gen0 vals) l = UB -> exists a k b s, l = a ++ C k :: b /\ grun stops (gen0 vals) a = Ok s /\ gone s = true.
Proof.
  enough (G : forall l s0, grun stops s0 l = UB -> exists a k b s, l = a ++ C k :: b /\ grun stops s0 a = Ok s /\ gone s = true) by (intros H; apply G; exact H).
  clear. induction l as [|w l IH]; intros s0 H; cbn [grun] in H; [discriminate|].
  destruct (gstep stops s0 w) as [s1| | |] eqn:E; cbn [bind] in H; try discriminate.
  - destruct (IH s1 H) as (a & k & b & s & -> & R & G). exists (w :: a), k, b, s. cbn [app grun]. rewrite E. auto.
  - destruct w as [|k]; cbn [gstep] in E.
    + destruct (gone s0); [discriminate|]. destruct (left_ s0); [discriminate|]. destruct (ready s0); discriminate.
    + destruct (gone s0) eqn:G; [|destruct (ready s0); discriminate]. exists [], k, l, s0. auto.
Qed.

(* ---- the first collection and the run queue ---- *)
Lemma walk_more g c nx l : forall fuel p, ~ In g l -> ~ In c l -> c <> g -> walk fuel nx p = Ok (l ++ [g]) ->
  walk (S fuel) (upd (upd nx g (Some c)) c None) p = Ok (l ++ [g; c]).
Proof.
  induction l as [|y l IH]; intros fuel p G Ci N H; destruct fuel as [|f], p as [x|]; cbn [walk app] in H; try discriminate.
  - destruct (walk f nx (nx x)) as [r| | |] eqn:W; cbn [bind] in H; try discriminate. injection H as -> ->.
    cbn [walk app]. rewrite upd_other by auto. rewrite upd_same. cbn [walk]. rewrite upd_same. destruct f; reflexivity.
  - destruct (walk f nx (nx x)) as [r| | |] eqn:W; cbn [bind] in H; try discriminate. injection H as -> ->.
    change (walk (S (S f)) (upd (upd nx g (Some c)) c None) (Some y)) with (do r <- walk (S f) (upd (upd nx g (Some c)) c None) (upd (upd nx g (Some c)) c None y); Ok (y :: r)).
    rewrite !upd_other by (intros ->; cbn in G, Ci; tauto). rewrite (IH f (nx y)); [reflexivity| | |exact N|exact W]; cbn in G, Ci; tauto.
Qed.
Lemma first_loses q a g b c : Rep q (a ++ g :: b) -> ~ In c (a ++ g :: b) ->
  walk (S (length (a ++ g :: b))) (next (first_yielded q g c)) (head (first_yielded q g c)) = Ok (a ++ [g; c]).
Proof.
  intros R NI. pose proof (enqueue_twice_loses q a g b R) as W. destruct R as [ND _ _ _]. destruct (NoDup_mid a b g ND) as (_ & _ & Ga & _ & _).
  assert (T : tail (enqueue q g) = Some g) by (unfold enqueue; destruct (tail q); reflexivity).
  unfold first_yielded. set (q1 := enqueue q g) in *. clearbody q1. unfold enqueue. rewrite T. cbn [next head set_next set_tail set_prev].
  apply walk_more; [exact Ga| | |exact W].
  - intros I. apply NI. apply in_or_app. auto.
  - intros ->. apply NI. apply in_or_app. right. now left.
Qed.
(* run the queue: take the first task; it runs and yields *)
Fixpoint rounds (n : nat) (q : dll) : list (option nat) :=
  match n with 0 => [] | S m => match task_dequeue q with (Some t, q') => Some t :: rounds m (enqueue q' t) | (None, q') => None :: rounds m q' end end.
Lemma first_starves q g c n : Rep q [g] -> c <> g -> rounds n (first_yielded q g c) = repeat (Some g) n.
Proof.
  intros [_ Hh Ht _] N. cbn [first lastp] in *.
  assert (H : forall n q, head q = Some g -> (exists p, prev q g = Some p) -> (exists z, tail q = Some z) -> rounds n q = repeat (Some g) n).
  { clear. induction n as [|n IH]; intros q H1 (p & H2) (z & H3); cbn [rounds repeat]; auto.
    unfold task_dequeue. rewrite H1. f_equal.
    unfold dequeue. rewrite H2. cbn. unfold enqueue. destruct (upd (next q) p (next q g) g) as [m|] eqn:E; cbn.
    - rewrite H3. apply IH; cbn; [exact H1|exists z; now rewrite upd_same|eauto].
    - rewrite H2. cbn. apply IH; cbn; [exact H1|exists p; now rewrite upd_same|eauto]. }
  apply H; unfold first_yielded, enqueue; rewrite Ht; cbn; rewrite ?upd_same; cbn; [exact Hh| |eauto]. exists g. rewrite upd_other by auto. now rewrite upd_same.
Qed.
