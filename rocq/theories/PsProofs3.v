(* PsModel: the set-up stated on its own, the end, and refutations. *)
From Verif Require Import Base PsModel PsProofs PsProofs2.

Lemma nth_seq a n i : i < n -> nth_error (seq a n) i = Some (a + i).
Proof. revert a i. induction n; intros a [|i] H; simpl; try lia; auto. rewrite IHn by lia. f_equal. lia. Qed.

Lemma setup_runs cores s f t : setup cores s f t -> f + t = cores -> 1 <= f ->
  (forall i, 1 <= i <= f -> runs s i QFuture (i - 1)) /\ (forall i, f < i <= cores -> runs s i QTasks (i - 1)) /\
  (forall c, futures_pool s c = Ok (1 + c mod f)) /\
  (f < cores -> forall c, go s c = Ok (S f + c mod (cores - f))) /\ (f = cores -> forall c, go s c = Exn).
Proof.
  intros S0 E F.
  assert (R1 : forall i, 1 <= i <= f -> runs s i QFuture (i - 1)).
  { intros i Hi. unfold runs. rewrite (s_q _ _ _ _ S0) by lia. rewrite (proj2 (Nat.leb_le _ _)) by lia. reflexivity. }
  assert (R2 : forall i, f < i <= cores -> runs s i QTasks (i - 1)).
  { intros i Hi. unfold runs. rewrite (s_q _ _ _ _ S0) by lia. rewrite (proj2 (Nat.leb_gt _ _)), (proj2 (Nat.leb_le _ _)) by lia. reflexivity. }
  split; [auto|]. split; [auto|]. split; [|split].
  - intros c. unfold futures_pool. rewrite (s_f _ _ _ _ S0). destruct f as [|f']; [lia|]. cbn [seq].
    change (1 :: seq 2 f') with (seq 1 (S f')). rewrite seq_length. assert (c mod S f' < S f') by (apply Nat.mod_upper_bound; lia).
    rewrite (rd_ok _ _ _ (nth_seq 1 (S f') (c mod S f') ltac:(lia))). cbn [bind].
    rewrite (rd_ok _ _ _ (R1 (1 + c mod S f') ltac:(lia))). reflexivity.
  - intros L c. unfold go. rewrite (s_t _ _ _ _ S0). replace t with (cores - f) by lia.
    destruct (cores - f) as [|t'] eqn:T; [lia|]. cbn [seq].
    change (S f :: seq (S (S f)) t') with (seq (S f) (S t')). rewrite seq_length. assert (c mod S t' < S t') by (apply Nat.mod_upper_bound; lia).
    rewrite (rd_ok _ _ _ (nth_seq (S f) (S t') (c mod S t') ltac:(lia))). cbn [bind].
    rewrite (rd_ok _ _ _ (R2 (S f + c mod S t') ltac:(lia))). reflexivity.
  - intros L c. unfold go. rewrite (s_t _ _ _ _ S0). replace t with 0 by lia. reflexivity.
Qed.

(* C165.  From the start, or after the main thread made its loop *)
Theorem init_pool_ok cores ok count s0 : 1 <= cores -> (forall n, ok n = true) ->
  (s0 = init cores \/ create cores ok (init cores) = Ok (s0, Some 0)) ->
  let f := Nat.max 1 (Nat.min count cores) in
  exists s, init_pool cores ok s0 count = Ok (s, Some 0) /\ mloop s = Some 0 /\
    (forall i, 1 <= i <= f -> runs s i QFuture (i - 1)) /\ (forall i, f < i <= cores -> runs s i QTasks (i - 1)) /\
    loops s = map (fun i => {| lid := i; lalive := true |}) (seq 1 cores) /\
    (forall c, futures_pool s c = Ok (1 + c mod f)) /\
    (f < cores -> forall c, go s c = Ok (S f + c mod (cores - f)) /\ accept cores ok s c = Ok (s, Some (S f + c mod (cores - f)))) /\
    (f = cores -> forall c, go s c = Exn).
Proof.
  intros C K H0 f.
  assert (X : exists s, init_pool cores ok s0 count = Ok (s, Some 0) /\ setup cores s f (cores - f)).
  { destruct H0 as [->|H0]; [apply init_pool_init; auto|].
    destruct (setup_first cores ok K C) as (s1 & H1 & S1). rewrite H0 in H1. injection H1 as ->. apply init_pool_first; auto. }
  assert (F : 1 <= f <= cores) by (unfold f; lia). clearbody f.
  destruct X as (s & H & S0). exists s. split; auto. split; [apply (s_ml _ _ _ _ S0)|].
  destruct (setup_runs _ _ _ _ S0) as (A & B & D & E & G); [lia|lia|].
  split; [auto|]. split; [auto|]. split.
  { rewrite (s_loops _ _ _ _ S0). now replace (f + (cores - f)) with cores by lia. }
  split; [auto|]. split; [|auto].
  intros L c. split; [auto|]. unfold accept. rewrite (s_t _ _ _ _ S0).
  specialize (E L c). unfold go in E. rewrite (s_t _ _ _ _ S0) in E.
  destruct (cores - f) as [|t'] eqn:T; [lia|]. cbn [seq] in *.
  change (S f :: seq (S (S f)) t') with (seq (S f) (S t')) in *. cbn [bind]. rewrite (s_t _ _ _ _ S0). cbn [seq].
  change (S f :: seq (S (S f)) t') with (seq (S f) (S t')) in *.
  apply bind_ok in E. destruct E as (i & R1 & E). rewrite R1. cbn [bind]. apply bind_ok in E. destruct E as (q & R2 & E).
  rewrite R2. cbn [bind]. destruct q; [|discriminate]. injection E as ->. reflexivity.
Qed.

(* ---- C166: the end ---- *)
Definition full (s : st) : Prop :=
  (forall h o, nth_error (loops s) h = Some o -> lalive o = true) /\
  (forall i q, nth_error (local s) (S i) = Some (Some q) -> qthr q = TRun).

Section F.
Variables (cores : nat) (ok : nat -> bool).
Hypothesis K : all_ok ok.

Lemma full_same s s' : full s -> local s' = local s -> loops s' = loops s -> full s'.
Proof. intros (A & B) E1 E2. split; rewrite ?E1, ?E2; auto. Qed.
Lemma start_full s i h o s' d : full s -> i < length (local s) -> start ok s i h o = Ok (s', d) -> full s' /\ d = true /\ rest s s'.
Proof.
  intros (A & B) L H. destruct (start_all ok s i h o K L) as (s1 & H1 & R & E). rewrite H in H1. injection H1 as <- ->.
  destruct R as (E1 & E2 & E3 & E4 & E5 & E6).
  split; [|split; [auto|repeat split; auto]]. split; rewrite ?E1, ?E; auto.
  intros j q Hj. destruct (Nat.eq_dec i (S j)) as [->|N].
  - rewrite set_nth_same in Hj by auto. injection Hj as <-. reflexivity.
  - rewrite set_nth_other in Hj by auto. eauto.
Qed.
Lemma create_future_full s h s' f : full s -> create_future cores ok s h = Ok (s', f) -> full s'.
Proof.
  intros I H. unfold create_future in H. apply bind_ok in H. destruct H as (i & R & H).
  apply bind_ok in H. destruct H as ((s1 & f1) & R1 & H).
  assert (X : full s1).
  { destruct (i <=? cores) eqn:C; [|injection R1 as <- <-; auto].
    apply bind_ok in R1. destruct R1 as (q & Rq & R1). apply rd_inv in Rq.
    destruct q as [q|]; [injection R1 as <- <-; auto|].
    apply bind_ok in R1. destruct R1 as ((s2 & d) & R2 & R1).
    apply start_full in R2; auto; [|apply nth_error_Some; congruence]. destruct R2 as (F2 & -> & _).
    injection R1 as <- <-. eapply full_same; [exact F2|..]; reflexivity. }
  destruct f1; injection H as <- <-; auto.
Qed.
Lemma create_pool_full s h s' b : full s -> create_pool cores ok s h = Ok (s', b) -> full s'.
Proof.
  intros I H. unfold create_pool in H. apply bind_ok in H. destruct H as (i & R & H).
  apply bind_ok in H. destruct H as (fr & R1 & H).
  destruct fr.
  - destruct (i <=? cores); [|discriminate]. apply bind_ok in R1. destruct R1 as (q & Rq & R1). apply rd_inv in Rq.
    destruct q; [discriminate|]. apply bind_ok in H. destruct H as ((s2 & d) & R2 & H).
    apply start_full in R2; auto; [|apply nth_error_Some; congruence]. destruct R2 as (F2 & -> & _).
    injection H as <- <-. eapply full_same; [exact F2|..]; reflexivity.
  - apply bind_ok in H. destruct H as (q & Rq & H). destruct q; injection H as <- <-; auto.
Qed.
Lemma create_full s s' h : full s -> create cores ok s = Ok (s', h) -> full s'.
Proof.
  intros I H. unfold create, ask in H. simpl in H. rewrite !K in H.
  apply bind_ok in H. destruct H as (s1 & R & H).
  assert (I1 : full s1).
  { match type of R with (match mpool ?x with _ => _ end) = _ => set (s2 := x) in R end.
    assert (I2 : full s2).
    { destruct I as (A & B). unfold s2. destruct (mloop s); split; simpl; auto; intros k o Ho;
        apply nth_error_In, in_app_or in Ho; destruct Ho as [Ho|[<-|[]]]; auto;
        apply In_nth_error in Ho; destruct Ho as (? & Ho); eauto. }
    clearbody s2. destruct (mpool s2) eqn:P; [injection R as <-; exact I2|].
    apply bind_ok in R. destruct R as ((s3 & f) & R & H1). injection H1 as <-.
    apply create_future_full in R; auto. }
  rewrite K in H. injection H as <- <-. exact I1.
Qed.
Lemma futures_full n s s' : full s -> futures cores ok n s = Ok s' -> full s'.
Proof.
  revert s. induction n as [|n IH]; intros s I H; simpl in H; [injection H as <-; auto|].
  apply bind_ok in H. destruct H as ((s1 & h) & R & H). apply bind_ok in H. destruct H as ((s2 & f) & R2 & H).
  apply create_full in R; auto. apply create_future_full in R2; auto. eapply IH; [|exact H]. auto.
Qed.
Lemma pools_full n s s' : full s -> pools cores ok n s = Ok s' -> full s'.
Proof.
  revert s. induction n as [|n IH]; intros s I H; simpl in H; [injection H as <-; auto|].
  apply bind_ok in H. destruct H as ((s1 & h) & R & H). apply bind_ok in H. destruct H as ((s2 & f) & R2 & H).
  apply create_full in R; auto. apply create_pool_full in R2; auto. eapply IH; [|exact H]. auto.
Qed.
Lemma init_pool_full n s s' h : full s -> init_pool cores ok s n = Ok (s', h) -> full s'.
Proof.
  intros I H. unfold init_pool in H. apply bind_ok in H. destruct H as (s1 & R & H).
  assert (I1 : full s1).
  { destruct (mloop s); [injection R as <-; auto|]. apply bind_ok in R. destruct R as ((s2 & h2) & R & H2).
    apply bind_ok in H2. destruct H2 as ((s3 & f) & R2 & H2). injection H2 as <-.
    apply create_full in R; auto. apply create_future_full in R2; auto. }
  cbv zeta in H. apply bind_ok in H. destruct H as (s2 & R2 & H).
  assert (I2 : full s2). { destruct (0 <? n); [|injection R2 as <-; auto]. eapply futures_full; eauto. }
  apply bind_ok in H. destruct H as (s3 & R3 & H). injection H as <- <-. eapply pools_full; eauto.
Qed.
Lemma accept_full s c s' b : full s -> accept cores ok s c = Ok (s', b) -> full s'.
Proof.
  intros I H. unfold accept in H. apply bind_ok in H. destruct H as ((s1 & g) & R & H).
  assert (I1 : full s1).
  { destruct (tidx s); [|injection R as <- <-; auto]. apply bind_ok in R. destruct R as ((s2 & h) & R & R2).
    apply create_full in R; auto. apply create_pool_full in R2; auto. }
  destruct g; [|injection H as <- <-; auto]. destruct (tidx s1); [discriminate|].
  apply bind_ok in H. destruct H as (i & R1 & H). apply bind_ok in H. destruct H as (q & R2 & H).
  destruct q; [injection H as <- <-; auto|discriminate].
Qed.
Definition no_destroy (o : op) : Prop := match o with ODestroy _ => False | _ => True end.
Lemma run_full l s s' : full s -> Forall no_destroy l -> run cores ok s l = Ok s' -> full s'.
Proof.
  revert s. induction l as [|o l IH]; intros s I N H; simpl in H; [injection H as <-; auto|].
  inversion N; subst. apply bind_ok in H. destruct H as (s1 & R & H). apply IH in H; auto.
  destruct o; simpl in R; apply bind_ok in R; destruct R as ((s2 & x) & R & E); injection E as <-; simpl.
  - eapply create_full; eauto.
  - eapply create_future_full; eauto.
  - eapply create_pool_full; eauto.
  - eapply init_pool_full; eauto.
  - contradiction.
  - eapply accept_full; eauto.
Qed.
Lemma full_init : full (init cores).
Proof. split; [intros [|h] o H; discriminate|]. intros i q H. destruct (init_none _ _ _ H). Qed.
End F.

(* the places from i on that have a queue *)
Definition used (s : st) (i : nat) : bool := match nth_error (local s) i with Some (Some _) => true | _ => false end.

Definition ready (cores i : nat) (s : st) : Prop := length (local s) = S cores /\
  forall j q, i <= j -> nth_error (local s) j = Some (Some q) ->
    qthr q = TRun /\ qloop q = j - 1 /\ exists n, nth_error (loops s) (j - 1) = Some {| lid := n; lalive := true |}.

Lemma join_ok cores n : forall i s, ready cores i s -> i + n = S cores -> 1 <= i ->
  exists s', join n i s = Ok (s', filter (used s) (seq i n)) /\ length (local s') = S cores /\ length (loops s') = length (loops s) /\
    (forall j, nth_error (local s') j = if (i <=? j) && (j <=? cores) then Some None else nth_error (local s) j) /\
    (forall h o, nth_error (loops s) h = Some o -> nth_error (loops s') h =
       Some {| lid := lid o; lalive := if (i <=? S h) && used s (S h) then false else lalive o |}).
Proof.
  induction n as [|n IH]; intros i s (I & T) E L.
  - exists s. simpl. split; auto. split; auto. split; auto. split.
    + intros j. destruct (Nat.leb_spec i j), (Nat.leb_spec j cores); simpl; auto; lia.
    + intros h o H. rewrite H. destruct (Nat.leb_spec i (S h)); simpl; [|destruct o; auto].
      unfold used. replace (nth_error (local s) (S h)) with (@None (option que)); [destruct o; auto|].
      symmetry. apply nth_error_None. lia.
  - cbn [join]. assert (LL : i < length (local s)) by lia.
    destruct (nth_error (local s) i) as [q|] eqn:Q; [|apply nth_error_None in Q; lia].
    rewrite (rd_ok _ _ _ Q). cbn [bind]. destruct q as [q|].
    + destruct (T i q (le_n i) Q) as (T1 & T2 & m & T3). rewrite T1, T2.
      assert (Q2 : i - 1 < length (loops s)) by (apply nth_error_Some; congruence).
      unfold loop_at. rewrite (rd_ok _ _ _ T3). cbn [bind lalive]. unfold free_loop. rewrite (rd_ok _ _ _ T3). cbn [bind lid].
      rewrite (wr_ok _ _ _ Q2). cbn [bind]. cbn [local with_loops]. rewrite (wr_ok _ _ _ LL). cbn [bind].
      match goal with |- context [join n (S i) ?x] => set (s1 := x) end.
      assert (R1 : ready cores (S i) s1).
      { split; [simpl; rewrite set_nth_length; auto|]. intros j q' Hj Hq. unfold s1 in Hq. simpl in Hq.
        rewrite set_nth_other in Hq by lia. destruct (T j q' ltac:(lia) Hq) as (U1 & U2 & m' & U3). split; auto. split; auto.
        exists m'. unfold s1. simpl. rewrite set_nth_other by lia. auto. }
      destruct (IH (S i) s1 R1) as (s' & J & J1 & J2 & J3 & J4); [lia|lia|].
      rewrite J. cbn [bind fst snd]. exists s'. split.
      { f_equal. f_equal. cbn [seq filter]. unfold used at 2. rewrite Q. f_equal. apply filter_ext_in.
        intros j Hj. apply in_seq in Hj. unfold used, s1. simpl. rewrite set_nth_other by lia. reflexivity. }
      split; auto. split; [rewrite J2; unfold s1; simpl; now rewrite set_nth_length|]. split.
      * intros j. rewrite J3. unfold s1. simpl local. destruct (Nat.eq_dec j i) as [->|N].
        -- rewrite (proj2 (Nat.leb_gt (S i) i)) by lia. rewrite Nat.leb_refl, (proj2 (Nat.leb_le i cores)) by lia.
           cbn [andb]. now rewrite set_nth_same.
        -- rewrite set_nth_other by auto. destruct (Nat.leb_spec (S i) j), (Nat.leb_spec i j); try lia; reflexivity.
      * intros h o Ho. destruct (Nat.eq_dec (S h) i) as [X|N].
        -- subst i. replace (S h - 1) with h in * by lia. rewrite Ho in T3. injection T3 as ->.
           rewrite (J4 h {| lid := m; lalive := false |}); [|unfold s1; simpl; rewrite Nat.sub_0_r; rewrite set_nth_same; auto; lia].
           rewrite Nat.leb_refl. unfold used at 2. rewrite Q. cbn [andb lid lalive].
           rewrite (proj2 (Nat.leb_gt _ _)) by lia. reflexivity.
        -- rewrite (J4 h o); [|unfold s1; simpl; rewrite set_nth_other by lia; auto].
           f_equal. f_equal. unfold used, s1. simpl local. rewrite set_nth_other by auto.
           destruct (Nat.leb_spec (S i) (S h)), (Nat.leb_spec i (S h)); try lia; reflexivity.
    + assert (R1 : ready cores (S i) s) by (split; auto; intros; apply T; auto; lia).
      destruct (IH (S i) s R1) as (s' & J & J1 & J2 & J3 & J4); [lia|lia|].
      exists s'. split; [|split; [auto|split; [auto|split]]].
      * rewrite J. cbn [seq filter]. unfold used at 2. rewrite Q. reflexivity.
      * intros j. rewrite J3. destruct (Nat.eq_dec j i) as [->|N].
        -- rewrite (proj2 (Nat.leb_gt (S i) i)) by lia. rewrite Nat.leb_refl, (proj2 (Nat.leb_le i cores)) by lia. auto.
        -- destruct (Nat.leb_spec (S i) j), (Nat.leb_spec i j); try lia; reflexivity.
      * intros h o Ho. rewrite (J4 h o Ho). f_equal. f_equal.
        destruct (Nat.eq_dec (S h) i) as [X|N].
        -- rewrite X. unfold used. rewrite Q. rewrite !andb_false_r. reflexivity.
        -- destruct (Nat.leb_spec (S i) (S h)), (Nat.leb_spec i (S h)); try lia; reflexivity.
Qed.

(* C166 *)
Theorem deinit_ok cores ok l s : (forall n, ok n = true) -> Forall no_destroy l -> run cores ok (init cores) l = Ok s ->
  exists s' js, deinit cores s = Ok (s', js) /\
    (* every thread is joined, once; nothing else is *)
    NoDup js /\ (forall i, In i js <-> exists o h, (o = QFuture \/ o = QTasks) /\ runs s i o h) /\
    (* no queue is left *)
    (forall i q, nth_error (local s') i <> Some (Some q)) /\
    (* the loops of threads are gone, the others are as before *)
    (forall h n b, nth_error (loops s') h = Some {| lid := n; lalive := b |} ->
       (b = false <-> exists i o, (o = QFuture \/ o = QTasks) /\ runs s i o h)).
Proof.
  intros K N H. assert (I : inv cores s) by (eapply run_inv; [apply inv_init|exact H]).
  assert (F : full s) by (eapply run_full; [exact K|apply full_init|exact N|exact H]).
  assert (R : ready cores 1 s).
  { split; [apply (i_len _ _ I)|]. intros j q Hj Hq. destruct j as [|j]; [lia|].
    destruct (i_q _ _ I _ _ Hq) as (Q1 & Q2 & _ & _). split; [eapply (proj2 F); eauto|]. split; [lia|].
    replace (S j - 1) with j by lia. destruct (nth_error (loops s) j) as [o|] eqn:O; [|apply nth_error_None in O; lia].
    exists (lid o). pose proof (proj1 F _ _ O). destruct o; simpl in *; congruence. }
  destruct (join_ok cores cores 1 s R) as (s1 & J & J1 & J2 & J3 & J4); [lia|lia|].
  assert (U : forall i, used s i = true -> 1 <= i -> exists o, (o = QFuture \/ o = QTasks) /\ runs s i o (i - 1)).
  { intros i Hu Hi. unfold used in Hu. destruct i as [|i]; [lia|].
    destruct (nth_error (local s) (S i)) as [[q|]|] eqn:Q; try discriminate.
    destruct (i_q _ _ I _ _ Q) as (Q1 & Q2 & Q3 & Q4). pose proof (proj2 F _ _ Q) as Q5. exists (qown q). split; auto.
    unfold runs. rewrite Q. f_equal. f_equal. destruct q; simpl in *. f_equal; auto; lia. }
  assert (U' : forall i o h, (o = QFuture \/ o = QTasks) -> runs s i o h -> used s i = true /\ 1 <= i <= cores /\ h = i - 1).
  { intros i o h Ho Hr. destruct (runs_at _ _ _ _ _ I Ho Hr) as (A & B & _). split; auto. unfold used. unfold runs in Hr. now rewrite Hr. }
  unfold deinit. rewrite J. cbn [bind fst snd]. rewrite (wr_ok (local s1) 0) by lia. cbn [bind].
  eexists _, _. split; [reflexivity|]. split; [apply NoDup_filter, seq_NoDup|]. split; [|split].
  - intros i. rewrite filter_In, in_seq. split.
    + intros (A & B). destruct (U i B) as (o & Ho & Hr); [lia|]. eauto.
    + intros (o & h & Ho & Hr). destruct (U' _ _ _ Ho Hr) as (A & B & _). split; auto; lia.
  - intros i q. cbn [local with_local]. destruct (Nat.eq_dec 0 i) as [<-|D].
    + rewrite set_nth_same by lia. discriminate.
    + rewrite set_nth_other by auto. rewrite J3. destruct (Nat.leb_spec 1 i); [|lia]. destruct (Nat.leb_spec i cores); simpl; [discriminate|].
      intros X. assert (i < length (local s)) by (apply nth_error_Some; congruence). rewrite (i_len _ _ I) in *. lia.
  - intros h n b. cbn [loops with_local]. intros Hn.
    destruct (nth_error (loops s) h) as [o|] eqn:O; [|apply nth_error_None in O; assert (h < length (loops s1)) by (apply nth_error_Some; congruence); lia].
    rewrite (J4 _ _ O) in Hn. injection Hn as <- <-. simpl (1 <=? S h). cbn [andb].
    pose proof (proj1 F _ _ O) as AL. rewrite AL. split.
    + destruct (used s (S h)) eqn:Hu; [|discriminate]. intros _. destruct (U _ Hu) as (o' & Ho & Hr); [lia|].
      exists (S h), o'. replace h with (S h - 1) at 2 by lia. auto.
    + intros (i & o' & Ho & Hr). destruct (U' _ _ _ Ho Hr) as (A & B & C). replace (S h) with i by lia. now rewrite A.
Qed.

(* stopping by the number of loops: the places told *)
Lemma tell_ok n : forall i (l : list (option que)), i + n <= length l ->
  tell n i l = Ok (filter (fun j => match nth_error l j with Some (Some _) => true | _ => false end) (seq i n)).
Proof.
  induction n as [|n IH]; intros i l H; cbn [tell]; auto.
  destruct (nth_error l i) as [q|] eqn:Q; [|apply nth_error_None in Q; lia].
  rewrite (rd_ok _ _ _ Q). cbn [bind]. rewrite IH by lia. cbn [bind seq filter]. rewrite Q. destruct q; reflexivity.
Qed.
Theorem shutdown_ok cores ok l s : run cores ok (init cores) l = Ok s -> length (loops s) <= cores ->
  exists js, shutdown s = Ok js /\ (forall i, In i js <-> exists q, nth_error (local s) i = Some (Some q)).
Proof.
  intros H L. assert (I : inv cores s) by (eapply run_inv; [apply inv_init|exact H]).
  unfold shutdown. rewrite tell_ok; [|rewrite (i_len _ _ I), (i_num _ _ I); lia]. eexists. split; [reflexivity|].
  intros i. rewrite filter_In, in_seq. split.
  - intros (A & B). destruct (nth_error (local s) i) as [[q|]|]; try discriminate. eauto.
  - intros (q & Q). rewrite Q. split; auto. split; [lia|]. destruct i as [|i]; [lia|].
    destruct (i_q _ _ I _ _ Q) as (_ & B & _). rewrite (i_num _ _ I). lia.
Qed.
