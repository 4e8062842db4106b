(* Specification and proofs for PsModel: threads made by any history of calls, and the set-up of all cores. *)
From Verif Require Import Base PsModel.

(* a thread of that kind runs, has the place i of the table, and works with the loop h *)
Definition runs (s : st) (i : nat) (o : own) (h : nat) : Prop :=
  nth_error (local s) i = Some (Some {| qown := o; qthr := TRun; qloop := h |}).

Record inv (cores : nat) (s : st) : Prop := {
  i_len : length (local s) = S cores;
  i_num : numl s = length (loops s);
  i_id : forall h o, nth_error (loops s) h = Some o -> lid o = S h;
  i_0 : exists q, nth_error (local s) 0 = Some (Some q) /\ qown q = QMain;
  i_q : forall i q, nth_error (local s) (S i) = Some (Some q) ->
        qloop q = i /\ i < length (loops s) /\ qown q <> QMain /\ (qthr q = TRun -> qown q = QFuture \/ qown q = QTasks);
  i_f : forall i, In i (fidx s) <-> exists h, runs s i QFuture h;
  i_t : forall i, In i (tidx s) <-> exists h, runs s i QTasks h;
  i_fn : NoDup (fidx s);
  i_tn : NoDup (tidx s);
  i_p : forall i, mpool s = Some i -> In i (fidx s) }.

Lemma nodup_snoc {A} (l : list A) x : NoDup l -> ~ In x l -> NoDup (l ++ [x]).
Proof.
  intros H N. induction H; simpl; [repeat constructor; auto|].
  constructor; [rewrite in_app_iff; simpl in *; intuition (subst; auto)|apply IHNoDup; simpl in *; tauto].
Qed.
Lemma bind_ok {A B} (e : outcome A) (f : A -> outcome B) y : bind e f = Ok y -> exists x, e = Ok x /\ f x = Ok y.
Proof. destruct e; simpl; intros; try discriminate; eauto. Qed.

Lemma nth_repeat_none {A} n i (o : option A) : nth_error (repeat None n) i = Some o -> o = None.
Proof. intros H. apply nth_error_In in H. now apply repeat_spec in H. Qed.

Lemma init_none cores i q : nth_error (local (init cores)) (S i) = Some (Some q) -> False.
Proof. simpl. intros H. apply nth_repeat_none in H. discriminate. Qed.
Lemma init_runs cores i o h : o <> QMain -> runs (init cores) i o h -> False.
Proof. intros N H. destruct i; [injection H; congruence|]. eapply init_none, H. Qed.
Lemma inv_init cores : inv cores (init cores).
Proof.
  constructor.
  - simpl. now rewrite repeat_length.
  - reflexivity.
  - intros [|h] o H; discriminate.
  - exists {| qown := QMain; qthr := TUnset; qloop := 0 |}; auto.
  - intros i q H. destruct (init_none _ _ _ H).
  - intros i. split; [intros []|]. intros (h & H). eapply init_runs; [|exact H]. discriminate.
  - intros i. split; [intros []|]. intros (h & H). eapply init_runs; [|exact H]. discriminate.
  - constructor.
  - constructor.
  - discriminate.
Qed.

(* only the fields that matter *)
Lemma inv_same cores s s' : inv cores s -> local s' = local s -> loops s' = loops s -> numl s' = numl s -> fidx s' = fidx s ->
  tidx s' = tidx s -> mpool s' = mpool s -> inv cores s'.
Proof.
  intros [] E1 E2 E3 E4 E5 E6. constructor; unfold runs in *; rewrite ?E1, ?E2, ?E3, ?E4, ?E5, ?E6; auto.
Qed.

(* a free place is filled *)
Lemma inv_fill cores s i q s' : inv cores s -> nth_error (local s) (S i) = Some None ->
  qloop q = i -> i < length (loops s) -> qown q <> QMain -> (qthr q = TRun -> qown q = QFuture \/ qown q = QTasks) ->
  local s' = set_nth (S i) (Some q) (local s) -> loops s' = loops s -> numl s' = numl s ->
  fidx s' = (match qthr q, qown q with TRun, QFuture => fidx s ++ [S i] | _, _ => fidx s end) ->
  tidx s' = (match qthr q, qown q with TRun, QTasks => tidx s ++ [S i] | _, _ => tidx s end) ->
  mpool s' = mpool s -> inv cores s'.
Proof.
  intros J H Hl Hi Ho Ht E1 E2 E3 E4 E5 E6. pose proof J as J0. destruct J.
  assert (Hlt : S i < length (local s)) by (apply nth_error_Some; congruence).
  assert (NF : ~ In (S i) (fidx s)). { intros N. apply i_f0 in N. destruct N as (h & N). unfold runs in N. congruence. }
  assert (NT : ~ In (S i) (tidx s)). { intros N. apply i_t0 in N. destruct N as (h & N). unfold runs in N. congruence. }
  constructor; rewrite ?E1, ?E2, ?E3, ?E6; auto.
  - rewrite set_nth_length; auto.
  - destruct (i_0 _ _ J0) as (q0 & A & B). exists q0. split; auto. rewrite set_nth_other; auto.
  - intros j q' Hj. destruct (Nat.eq_dec i j) as [->|N].
    + rewrite set_nth_same in Hj by auto. injection Hj as <-. auto.
    + rewrite set_nth_other in Hj by auto. eauto.
  - intros j. unfold runs. rewrite E4, E1. destruct (Nat.eq_dec (S i) j) as [<-|N].
    + rewrite set_nth_same by auto. split.
      * intros HI. destruct q as [o t h]; simpl in *. destruct t, o; try contradiction. exists h. auto.
      * intros (h & Q). injection Q as ->. simpl. apply in_or_app; simpl; auto.
    + rewrite set_nth_other by auto. fold (runs s j QFuture). rewrite <- (i_f0 j).
      destruct (qthr q), (qown q); try tauto. rewrite in_app_iff; simpl. intuition congruence.
  - intros j. unfold runs. rewrite E5, E1. destruct (Nat.eq_dec (S i) j) as [<-|N].
    + rewrite set_nth_same by auto. split.
      * intros HI. destruct q as [o t h]; simpl in *. destruct t, o; try contradiction. exists h. auto.
      * intros (h & Q). injection Q as ->. simpl. apply in_or_app; simpl; auto.
    + rewrite set_nth_other by auto. rewrite <- (i_t0 j).
      destruct (qthr q), (qown q); try tauto. rewrite in_app_iff; simpl. intuition congruence.
  - rewrite E4. destruct (qthr q), (qown q); auto using nodup_snoc.
  - rewrite E5. destruct (qthr q), (qown q); auto using nodup_snoc.
  - rewrite E4. intros j Hj. apply i_p0 in Hj. destruct (qthr q), (qown q); auto. apply in_or_app; auto.
Qed.

Lemma set_nth_twice {A} n (a b : A) l : set_nth n a (set_nth n b l) = set_nth n a l.
Proof. revert n. induction l; intros [|n]; simpl; auto. f_equal. auto. Qed.

Definition rest (s s' : st) : Prop :=
  loops s' = loops s /\ numl s' = numl s /\ fidx s' = fidx s /\ tidx s' = tidx s /\ mloop s' = mloop s /\ mpool s' = mpool s.

Lemma start_spec ok s i h o s' d : start ok s i h o = Ok (s', d) ->
  rest s s' /\
  ((d = true /\ local s' = set_nth i (Some {| qown := o; qthr := TRun; qloop := h |}) (local s)) \/
   (d = false /\ (local s' = local s \/
     exists q, qthr q <> TRun /\ qloop q = h /\ (qown q = o \/ qown q = QBare) /\ local s' = set_nth i (Some q) (local s)))).
Proof.
  unfold start, ask. simpl. destruct (ok (tick s)).
  2:{ intros H; injection H as <- <-. split; [repeat split|]. right; auto. }
  destruct (ok (S (tick s))); [|discriminate].
  unfold wr at 1. destruct (i <? length (local s)) eqn:L; [|discriminate]. simpl.
  destruct (ok (S (S (tick s)))).
  - unfold wr. rewrite set_nth_length, L. simpl. rewrite set_nth_twice.
    intros H; injection H as <- <-. split; [repeat split|]. simpl.
    destruct (ok (S (S (S (tick s))))); [left; auto|right]. split; auto. right.
    eexists; split; [|split; [|split; [|reflexivity]]]; simpl; auto; discriminate.
  - intros H; injection H as <- <-. split; [repeat split|]. right. split; auto. right.
    eexists; split; [|split; [|split; [|reflexivity]]]; simpl; auto; discriminate.
Qed.

Lemma start_all ok s i h o : (forall n, ok n = true) -> i < length (local s) ->
  exists s', start ok s i h o = Ok (s', true) /\ rest s s' /\
    local s' = set_nth i (Some {| qown := o; qthr := TRun; qloop := h |}) (local s).
Proof.
  intros K L. unfold start, ask. simpl. rewrite ?K. unfold wr at 1. rewrite (proj2 (Nat.ltb_lt _ _) L). simpl. rewrite ?K.
  unfold wr. rewrite set_nth_length, (proj2 (Nat.ltb_lt _ _) L). simpl. rewrite set_nth_twice, ?K.
  eexists. split; [reflexivity|]. split; [repeat split|]. reflexivity.
Qed.

Lemma loop_at_ok cores s h i : inv cores s -> loop_at s h = Ok i ->
  exists k, h = Some k /\ i = S k /\ k < length (loops s) /\ nth_error (loops s) k = Some {| lid := S k; lalive := true |}.
Proof.
  intros I. unfold loop_at. destruct h as [k|]; [|discriminate]. intros H. apply bind_ok in H. destruct H as (o & R & H).
  apply rd_inv in R. destruct (lalive o) eqn:E; [|discriminate]. injection H as <-.
  pose proof (i_id _ _ I _ _ R) as E2. exists k. split; auto. split; auto. split; [apply nth_error_Some; congruence|].
  destruct o; simpl in *; congruence.
Qed.

Section H.
Variables (cores : nat) (ok : nat -> bool).

(* registering keeps the invariant, and the loops and the main thread's fields *)
Definition kept (s s' : st) : Prop := loops s' = loops s /\ numl s' = numl s /\ mloop s' = mloop s /\ mpool s' = mpool s.

Lemma start_inv s k o s' d : inv cores s -> nth_error (local s) (S k) = Some None -> k < length (loops s) ->
  (o = QFuture \/ o = QTasks) -> start ok s (S k) k o = Ok (s', d) ->
  inv cores (match o with QFuture => if d then with_fidx s' (fidx s' ++ [S k]) else s'
                        | _ => if d then with_tidx s' (tidx s' ++ [S k]) else s' end) /\ kept s s'.
Proof.
  intros I N L Ho H. apply start_spec in H. destruct H as ((E1 & E2 & E3 & E4 & E5 & E6) & H).
  split; [|repeat split; auto].
  destruct H as [(-> & E)|(-> & [E|(q & Q1 & Q2 & Q3 & E)])].
  - destruct Ho as [-> | ->].
    + apply (inv_fill cores s k {| qown := QFuture; qthr := TRun; qloop := k |}); simpl; auto; try discriminate; congruence.
    + apply (inv_fill cores s k {| qown := QTasks; qthr := TRun; qloop := k |}); simpl; auto; try discriminate; congruence.
  - assert (inv cores s') by (eapply inv_same; eauto). destruct o; auto.
  - assert (inv cores s').
    { eapply (inv_fill cores s k) with (q := q); eauto.
      - destruct Q3 as [-> | ->]; [destruct Ho as [-> | ->]|]; discriminate.
      - intros; contradiction.
      - destruct (qthr q); auto; congruence.
      - destruct (qthr q); auto; congruence. }
    destruct o; auto.
Qed.

Lemma create_future_inv s h s' f : inv cores s -> create_future cores ok s h = Ok (s', f) ->
  inv cores s' /\ kept s s' /\ (forall i, f = Some i -> In i (fidx s')).
Proof.
  intros I H. unfold create_future in H. apply bind_ok in H. destruct H as (i & R & H).
  destruct (loop_at_ok _ _ _ _ I R) as (k & -> & -> & L & _).
  apply bind_ok in H. destruct H as ((s1 & f1) & R1 & H).
  assert (X : inv cores s1 /\ kept s s1 /\ (forall i, f1 = Some i -> In i (fidx s1))).
  { destruct (S k <=? cores) eqn:C; [|injection R1 as <- <-; (split; [exact I|split; [repeat split|discriminate]])].
    apply bind_ok in R1. destruct R1 as (q & Rq & R1). apply rd_inv in Rq.
    destruct q as [q|]; [injection R1 as <- <-; (split; [exact I|split; [repeat split|discriminate]])|].
    apply bind_ok in R1. destruct R1 as ((s2 & d) & R2 & R1).
    destruct (start_inv _ _ QFuture _ _ I Rq L (or_introl eq_refl) R2) as (I2 & K2).
    destruct d; injection R1 as <- <-; (split; [exact I2|split; [exact K2|]]); intros j E; [injection E as <-|discriminate].
    simpl. apply in_or_app; simpl; auto. }
  destruct X as (X1 & X2 & X3). destruct f1; injection H as <- <-; split; auto; split; auto.
  intros i Hi. eapply i_p; eauto.
Qed.

Lemma create_pool_inv s h s' b : inv cores s -> create_pool cores ok s h = Ok (s', b) -> inv cores s' /\ kept s s'.
Proof.
  intros I H. unfold create_pool in H. apply bind_ok in H. destruct H as (i & R & H).
  destruct (loop_at_ok _ _ _ _ I R) as (k & -> & -> & L & _).
  apply bind_ok in H. destruct H as (fr & R1 & H).
  destruct fr.
  - destruct (S k <=? cores); [|discriminate]. apply bind_ok in R1. destruct R1 as (q & Rq & R1). apply rd_inv in Rq.
    destruct q; [discriminate|]. apply bind_ok in H. destruct H as ((s2 & d) & R2 & H).
    destruct (start_inv _ _ QTasks _ _ I Rq L (or_intror eq_refl) R2) as (I2 & K2).
    destruct d; injection H as <- <-; split; auto.
  - apply bind_ok in H. destruct H as (q & Rq & H). destruct q; injection H as <- <-; (split; [exact I|repeat split]).
Qed.

Lemma inv_grow s n : inv cores s -> inv cores (with_loops s (loops s ++ [{| lid := numl s + 1; lalive := n |}]) (numl s + 1)).
Proof.
  intros []. constructor; simpl; auto.
  - rewrite app_length; simpl; lia.
  - intros h o H. destruct (Nat.lt_ge_cases h (length (loops s))) as [L|L].
    + rewrite nth_error_app1 in H by auto. auto.
    + rewrite nth_error_app2 in H by auto. destruct (h - length (loops s)) as [|m] eqn:E; [|destruct m; discriminate].
      injection H as <-. simpl. lia.
  - intros i q H. destruct (i_q0 _ _ H) as (A & B & C). rewrite app_length. split; auto. split; [lia|auto].
Qed.

Lemma inv_free s k s' : inv cores s -> free_loop s k = Ok s' -> inv cores s' /\ k < length (loops s).
Proof.
  intros I H. unfold free_loop in H. apply bind_ok in H. destruct H as (o & R & H). apply rd_inv in R.
  assert (L : k < length (loops s)) by (apply nth_error_Some; congruence).
  unfold wr in H. rewrite (proj2 (Nat.ltb_lt _ _) L) in H. simpl in H. injection H as <-. split; auto.
  pose proof (i_id _ _ I _ _ R). destruct I. constructor; simpl; auto.
  - rewrite set_nth_length; auto.
  - intros h o' H'. destruct (Nat.eq_dec k h) as [->|N].
    + rewrite set_nth_same in H' by auto. injection H' as <-. auto.
    + rewrite set_nth_other in H' by auto. auto.
  - intros i q H'. rewrite set_nth_length. auto.
Qed.

Lemma create_inv s s' h : inv cores s -> create cores ok s = Ok (s', h) -> inv cores s'.
Proof.
  intros I H. unfold create, ask in H. simpl in H.
  destruct (ok (tick s)); [|injection H as <- <-; eapply inv_same; eauto].
  destruct (ok (S (tick s))); [|injection H as <- <-; eapply inv_same; eauto].
  apply bind_ok in H. destruct H as (s1 & R & H).
  assert (I1 : inv cores s1).
  { match type of R with (match mpool ?x with _ => _ end) = _ => set (s2 := x) in R end.
    assert (I2 : inv cores s2).
    { apply (inv_grow s true) in I. unfold s2. destruct (mloop s); (eapply inv_same; [exact I|..]; reflexivity). }
    clearbody s2. destruct (mpool s2) eqn:P; [injection R as <-; exact I2|].
    apply bind_ok in R. destruct R as ((s3 & f) & R & H1). injection H1 as <-.
    destruct (create_future_inv _ _ _ _ I2 R) as (I3 & K & F). simpl. destruct I3. constructor; auto. }
  destruct (ok (tick s1)).
  - injection H as <- <-. eapply inv_same; eauto.
  - apply bind_ok in H. destruct H as (s2 & R2 & H). injection H as <- <-.
    eapply inv_free; [|exact R2]. eapply inv_same; eauto.
Qed.

Lemma futures_inv n s s' : inv cores s -> futures cores ok n s = Ok s' -> inv cores s'.
Proof.
  revert s. induction n as [|n IH]; intros s I H; simpl in H; [injection H as <-; auto|].
  apply bind_ok in H. destruct H as ((s1 & h) & R & H). apply bind_ok in H. destruct H as ((s2 & f) & R2 & H).
  apply create_inv in R; auto. apply create_future_inv in R2; auto. eapply IH; [|exact H]. tauto.
Qed.
Lemma pools_inv n s s' : inv cores s -> pools cores ok n s = Ok s' -> inv cores s'.
Proof.
  revert s. induction n as [|n IH]; intros s I H; simpl in H; [injection H as <-; auto|].
  apply bind_ok in H. destruct H as ((s1 & h) & R & H). apply bind_ok in H. destruct H as ((s2 & f) & R2 & H).
  apply create_inv in R; auto. apply create_pool_inv in R2; auto. eapply IH; [|exact H]. tauto.
Qed.
Lemma init_pool_inv n s s' h : inv cores s -> init_pool cores ok s n = Ok (s', h) -> inv cores s'.
Proof.
  intros I H. unfold init_pool in H. apply bind_ok in H. destruct H as (s1 & R & H).
  assert (I1 : inv cores s1).
  { destruct (mloop s); [injection R as <-; auto|]. apply bind_ok in R. destruct R as ((s2 & h2) & R & H2).
    apply bind_ok in H2. destruct H2 as ((s3 & f) & R2 & H2). injection H2 as <-.
    apply create_inv in R; auto. apply create_future_inv in R2; auto. tauto. }
  cbv zeta in H. apply bind_ok in H. destruct H as (s2 & R2 & H).
  assert (I2 : inv cores s2).
  { destruct (0 <? n); [|injection R2 as <-; auto]. eapply futures_inv; eauto. }
  apply bind_ok in H. destruct H as (s3 & R3 & H). injection H as <- <-. eapply pools_inv; eauto.
Qed.
Lemma destroy_inv s h s' b : inv cores s -> destroy s h = Ok (s', b) -> inv cores s'.
Proof.
  intros I H. unfold destroy in H. assert (I0 : inv cores (with_mloop s None)) by (eapply inv_same; [exact I|..]; reflexivity).
  destruct h as [k|]; [|injection H as <- <-; auto].
  apply bind_ok in H. destruct H as (i & R & H). apply bind_ok in H. destruct H as (s2 & R2 & H). injection H as <- <-.
  eapply inv_free; eauto.
Qed.
Lemma accept_inv s c s' b : inv cores s -> accept cores ok s c = Ok (s', b) -> inv cores s'.
Proof.
  intros I H. unfold accept in H. apply bind_ok in H. destruct H as ((s1 & g) & R & H).
  assert (I1 : inv cores s1).
  { destruct (tidx s); [|injection R as <- <-; auto]. apply bind_ok in R. destruct R as ((s2 & h) & R & R2).
    apply create_inv in R; auto. apply create_pool_inv in R2; auto. tauto. }
  destruct g; [|injection H as <- <-; auto]. destruct (tidx s1); [discriminate|].
  apply bind_ok in H. destruct H as (i & R1 & H). apply bind_ok in H. destruct H as (q & R2 & H).
  destruct q; [injection H as <- <-; auto|discriminate].
Qed.
Lemma run_inv l s s' : inv cores s -> run cores ok s l = Ok s' -> inv cores s'.
Proof.
  revert s. induction l as [|o l IH]; intros s I H; simpl in H; [injection H as <-; auto|].
  apply bind_ok in H. destruct H as (s1 & R & H). apply IH in H; auto.
  destruct o; simpl in R; apply bind_ok in R; destruct R as ((s2 & x) & R & E); injection E as <-; simpl.
  - eapply create_inv; eauto.
  - eapply create_future_inv in R; tauto.
  - eapply create_pool_inv in R; tauto.
  - eapply init_pool_inv; eauto.
  - eapply destroy_inv; eauto.
  - eapply accept_inv; eauto.
Qed.
End H.

(* ---- what every history gives ---- *)
Lemma nodup_both cores s : inv cores s -> NoDup (fidx s ++ tidx s).
Proof.
  intros []. assert (D : forall i, In i (fidx s) -> In i (tidx s) -> False).
  { intros i A B. apply i_f0 in A. apply i_t0 in B. destruct A as (h & A), B as (h' & B). unfold runs in *. congruence. }
  clear -D i_fn0 i_tn0. induction (fidx s) as [|x l IH]; simpl; auto. inversion i_fn0; subst. constructor.
  - rewrite in_app_iff. intros [A|A]; [auto|]. eapply D; [left; reflexivity|exact A].
  - apply IH; auto. intros i A B. eapply D; [right; exact A|exact B].
Qed.
Lemma runs_at cores s i o h : inv cores s -> o = QFuture \/ o = QTasks -> runs s i o h ->
  h = i - 1 /\ 1 <= i <= cores /\ exists b, nth_error (loops s) h = Some {| lid := i; lalive := b |}.
Proof.
  intros I Ho R. destruct i as [|i].
  { destruct (i_0 _ _ I) as (q & A & B). unfold runs in R. rewrite A in R. injection R as ->. simpl in B. destruct Ho; congruence. }
  destruct (i_q _ _ I _ _ R) as (A & B & C). simpl in A. subst h. split; [lia|].
  assert (S i < length (local s)) by (apply nth_error_Some; unfold runs in R; congruence). rewrite (i_len _ _ I) in H. split; [lia|].
  destruct (nth_error (loops s) i) as [o'|] eqn:E; [|apply nth_error_None in E; lia].
  pose proof (i_id _ _ I _ _ E). exists (lalive o'). f_equal. destruct o'; simpl in *; congruence.
Qed.
Lemma pick_in {A} (l : list A) c : l <> [] -> exists x, rd l (c mod length l) = Ok x /\ In x l.
Proof.
  intros N. assert (0 < length l) by (destruct l; simpl; [congruence|lia]).
  destruct (nth_error l (c mod length l)) as [x|] eqn:E.
  - exists x. split; [now apply rd_ok|eapply nth_error_In; eauto].
  - apply nth_error_None in E. pose proof (Nat.mod_upper_bound c (length l)). lia.
Qed.
Lemma pick_all {A} (l : list A) x : In x l -> exists c, rd l (c mod length l) = Ok x.
Proof.
  intros H. apply In_nth_error in H. destruct H as (n & H). exists n.
  assert (n < length l) by (apply nth_error_Some; congruence). rewrite Nat.mod_small by auto. now apply rd_ok.
Qed.

Lemma go_inv cores s : inv cores s ->
  (forall c i, go s c = Ok i -> runs s i QTasks (i - 1)) /\
  (forall i h, runs s i QTasks h -> exists c, go s c = Ok i) /\
  (forall c, go s c <> UB /\ go s c <> Fuel) /\
  (forall c, go s c = Exn <-> forall i h, ~ runs s i QTasks h).
Proof.
  intros I.
  assert (E : forall c, tidx s <> [] -> exists i, go s c = Ok i /\ rd (tidx s) (c mod length (tidx s)) = Ok i /\ In i (tidx s) /\ runs s i QTasks (i - 1)).
  { intros c N. destruct (pick_in (tidx s) c N) as (i & R & M). exists i.
    destruct (proj1 (i_t _ _ I i) M) as (h & Q). destruct (runs_at _ _ _ _ _ I (or_intror eq_refl) Q) as (-> & _ & _).
    split; [|auto]. unfold go. destruct (tidx s) eqn:T; [congruence|]. rewrite R. simpl. unfold runs in Q. rewrite (rd_ok _ _ _ Q). reflexivity. }
  assert (Z : tidx s = [] -> forall c, go s c = Exn) by (unfold go; intros ->; auto).
  split; [|split; [|split]].
  - intros c i H. destruct (list_eq_dec Nat.eq_dec (tidx s) []) as [T|T]; [rewrite Z in H by auto; discriminate|].
    destruct (E c T) as (j & A & _ & _ & B). rewrite H in A. injection A as <-. auto.
  - intros i h R. assert (M : In i (tidx s)) by (apply (i_t _ _ I); eauto).
    destruct (pick_all _ _ M) as (c & P). exists c.
    destruct (list_eq_dec Nat.eq_dec (tidx s) []) as [T|T]; [rewrite T in M; destruct M|].
    destruct (E c T) as (j & A & B & _). congruence.
  - intros c. destruct (list_eq_dec Nat.eq_dec (tidx s) []) as [T|T]; [rewrite Z by auto; split; discriminate|].
    destruct (E c T) as (j & A & _). rewrite A. split; discriminate.
  - intros c. destruct (list_eq_dec Nat.eq_dec (tidx s) []) as [T|T].
    + rewrite Z by auto. split; auto. intros _ i h R. assert (M : In i (tidx s)) by (apply (i_t _ _ I); eauto). rewrite T in M. destruct M.
    + destruct (E c T) as (j & A & _ & _ & B). rewrite A. split; [discriminate|]. intros X. destruct (X _ _ B).
Qed.
Lemma futures_pool_inv cores s : inv cores s ->
  (forall c i, futures_pool s c = Ok i -> runs s i QFuture (i - 1)) /\
  (forall i h, runs s i QFuture h -> exists c, futures_pool s c = Ok i) /\
  (forall i h c, runs s i QFuture h -> exists j, futures_pool s c = Ok j).
Proof.
  intros I.
  assert (E : forall c, fidx s <> [] -> exists i, futures_pool s c = Ok i /\ rd (fidx s) (c mod length (fidx s)) = Ok i /\ In i (fidx s) /\ runs s i QFuture (i - 1)).
  { intros c N. destruct (pick_in (fidx s) c N) as (i & R & M). exists i.
    destruct (proj1 (i_f _ _ I i) M) as (h & Q). destruct (runs_at _ _ _ _ _ I (or_introl eq_refl) Q) as (-> & _ & _).
    split; [|auto]. unfold futures_pool. destruct (fidx s) eqn:T; [congruence|]. rewrite R. simpl. unfold runs in Q. rewrite (rd_ok _ _ _ Q). reflexivity. }
  assert (Z : fidx s = [] -> forall c, futures_pool s c = UB) by (unfold futures_pool; intros ->; auto).
  split; [|split].
  - intros c i H. destruct (list_eq_dec Nat.eq_dec (fidx s) []) as [T|T]; [rewrite Z in H by auto; discriminate|].
    destruct (E c T) as (j & A & _ & _ & B). rewrite H in A. injection A as <-. auto.
  - intros i h R. assert (M : In i (fidx s)) by (apply (i_f _ _ I); eauto).
    destruct (pick_all _ _ M) as (c & P). exists c.
    destruct (list_eq_dec Nat.eq_dec (fidx s) []) as [T|T]; [rewrite T in M; destruct M|].
    destruct (E c T) as (j & A & B & _). congruence.
  - intros i h c R. assert (M : In i (fidx s)) by (apply (i_f _ _ I); eauto).
    destruct (list_eq_dec Nat.eq_dec (fidx s) []) as [T|T]; [rewrite T in M; destruct M|].
    destruct (E c T) as (j & A & _). eauto.
Qed.

(* C164.  Every history of calls by the main thread, whatever fails on the way *)
Theorem threads_ok cores ok l s : run cores ok (init cores) l = Ok s ->
  (* threads have the places 1 to the number of cores, each the loop of that number *)
  (forall i o h, o = QFuture \/ o = QTasks -> runs s i o h ->
     h = i - 1 /\ 1 <= i <= cores /\ exists b, nth_error (loops s) h = Some {| lid := i; lalive := b |}) /\
  (* a task goes to a running thread of tasks; each such thread gets some; with none, there is a panic *)
  (forall c i, go s c = Ok i -> runs s i QTasks (i - 1)) /\
  (forall i h, runs s i QTasks h -> exists c, go s c = Ok i) /\
  (forall c, go s c <> UB /\ go s c <> Fuel) /\
  (forall c, go s c = Exn <-> forall i h, ~ runs s i QTasks h) /\
  (* the same for futures *)
  (forall c i, futures_pool s c = Ok i -> runs s i QFuture (i - 1)) /\
  (forall i h, runs s i QFuture h -> exists c, futures_pool s c = Ok i) /\
  (forall i h c, runs s i QFuture h -> exists j, futures_pool s c = Ok j) /\
  (forall i, mpool s = Some i -> runs s i QFuture (i - 1)).
Proof.
  intros H. assert (I : inv cores s) by (eapply run_inv; [apply inv_init|exact H]).
  destruct (go_inv _ _ I) as (A & B & C & D). destruct (futures_pool_inv _ _ I) as (E & F & G).
  split; [intros; eapply runs_at; eauto|]. repeat (split; [assumption|]).
  intros i P. destruct (proj1 (i_f _ _ I i) (i_p _ _ I _ P)) as (h & R).
  destruct (runs_at _ _ _ _ _ I (or_introl eq_refl) R) as (-> & _). auto.
Qed.

(* a round of starts spreads evenly: as many counters as threads reach each thread once *)
Theorem threads_round cores ok l s : run cores ok (init cores) l = Ok s ->
  NoDup (fidx s ++ tidx s) /\ length (fidx s ++ tidx s) <= cores /\
  (forall i, In i (fidx s) <-> exists h, runs s i QFuture h) /\ (forall i, In i (tidx s) <-> exists h, runs s i QTasks h).
Proof.
  intros H. assert (I : inv cores s) by (eapply run_inv; [apply inv_init|exact H]).
  split; [eapply nodup_both; eauto|]. split; [|split; [apply (i_f _ _ I)|apply (i_t _ _ I)]].
  rewrite <- (seq_length cores 1). apply NoDup_incl_length; [eapply nodup_both; eauto|].
  intros i Hi. apply in_seq. apply in_app_or in Hi.
  destruct Hi as [Hi|Hi]; [apply (i_f _ _ I) in Hi|apply (i_t _ _ I) in Hi]; destruct Hi as (h & R);
    [apply (runs_at cores) in R|apply (runs_at cores) in R]; auto; lia.
Qed.
