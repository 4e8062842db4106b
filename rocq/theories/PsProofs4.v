(* PsModel: what goes wrong. *)
From Verif Require Import Base PsModel PsProofs PsProofs2 PsProofs3.

Section R.
Variables (cores : nat) (ok : nat -> bool).
Hypothesis K : all_ok ok.

(* n loops, f futures, the places above n free *)
Record many (s : st) (n f : nat) : Prop := {
  m_len : length (local s) = S cores;
  m_num : numl s = n;
  m_loops : length (loops s) = n;
  m_f : length (fidx s) = f;
  m_ml : mloop s = Some 0;
  m_mp : mpool s = Some 1;
  m_q : forall i, n < i <= cores -> nth_error (local s) i = Some None }.

Lemma many_create s n f : many s n f -> exists s', create cores ok s = Ok (s', Some n) /\ many s' (S n) f /\
  loop_at s' (Some n) = Ok (S n) /\ nth_error (local s') (S n) = nth_error (local s) (S n).
Proof.
  intros M. destruct (create_all cores ok K s 1 (m_mp _ _ _ M)) as (s' & H & E1 & E2 & E3 & E4 & E5 & E6 & E7).
  rewrite (m_loops _ _ _ M), (m_num _ _ _ M), (m_ml _ _ _ M) in *. exists s'. split; auto. split; [|split].
  - constructor; auto; try congruence.
    + rewrite E3. apply (m_len _ _ _ M).
    + rewrite E1, app_length, (m_loops _ _ _ M). simpl. lia.
    + rewrite E4. apply (m_f _ _ _ M).
    + intros i Hi. rewrite E3. apply (m_q _ _ _ M). lia.
  - rewrite <- (m_loops _ _ _ M). eapply loop_last'. rewrite E1, (m_loops _ _ _ M). reflexivity.
  - now rewrite E3.
Qed.

Lemma many_fill s n f h o s' : many s n f -> start ok s n h o = Ok (s', true) -> n <= cores ->
  many (with_fidx s' (fidx s' ++ [n])) n (S f) /\ many (with_tidx s' (tidx s' ++ [n])) n f.
Proof.
  intros M H L. assert (LL : n < length (local s)) by (rewrite (m_len _ _ _ M); lia).
  destruct (start_all ok s n h o K LL) as (s1 & H1 & (A1 & A2 & A3 & A4 & A5 & A6) & A7). rewrite H in H1. injection H1 as <-.
  split; constructor; simpl; rewrite ?A1, ?A2, ?A3, ?A5, ?A6, ?A7, ?set_nth_length, ?app_length; try apply M; simpl.
  - rewrite (m_f _ _ _ M). lia.
  - intros i Hi. rewrite set_nth_other by lia. apply M; auto.
  - intros i Hi. rewrite set_nth_other by lia. apply M; auto.
Qed.

Lemma many_futures n : forall s k f, many s k f -> f + 1 <= k -> f + 1 <= cores ->
  exists s' k' f', futures cores ok n s = Ok s' /\ many s' k' f' /\ f' + 1 <= k' /\ f' + 1 <= cores.
Proof.
  induction n as [|n IH]; intros s k f M L1 L2.
  - exists s, k, f. auto.
  - destruct (many_create s k f M) as (s1 & H & M1 & H1 & Q). cbn [futures]. rewrite H. cbn [bind fst snd].
    unfold create_future. rewrite H1. cbn [bind]. destruct (Nat.leb_spec (S k) cores) as [C|C].
    + rewrite (m_q _ _ _ M) in Q by lia. rewrite (rd_ok _ _ _ Q). cbn [bind].
      assert (LL : S k < length (local s1)) by (apply nth_error_Some; congruence).
      destruct (start_all ok s1 (S k) (handle (Some k)) QFuture K LL) as (s2 & R & _). rewrite R. cbn [bind fst snd].
      destruct (many_fill _ _ _ _ _ _ M1 R C) as (M2 & _). eapply IH in M2; [|lia|lia]. exact M2.
    + cbn [bind fst snd]. eapply IH; eauto; lia.
Qed.
Lemma many_pools n : forall s k f, many s k f -> 1 <= n -> k + n > cores -> pools cores ok n s = UB.
Proof.
  induction n as [|n IH]; intros s k f M L1 L2; [lia|].
  destruct (many_create s k f M) as (s1 & H & M1 & H1 & Q). cbn [pools]. rewrite H. cbn [bind fst snd].
  unfold create_pool. rewrite H1. cbn [bind]. destruct (Nat.leb_spec (S k) cores) as [C|C].
  - rewrite (m_q _ _ _ M) in Q by lia. rewrite (rd_ok _ _ _ Q). cbn [bind].
    assert (LL : S k < length (local s1)) by (apply nth_error_Some; congruence).
    destruct (start_all ok s1 (S k) (handle (Some k)) QTasks K LL) as (s2 & R & _). rewrite R. cbn [bind fst snd].
    destruct (many_fill _ _ _ _ _ _ M1 R C) as (_ & M2). eapply IH; [exact M2|lia|lia].
  - cbn [bind]. unfold rd. replace (nth_error (local s1) (S k)) with (@None (option que)); [reflexivity|].
    symmetry. apply nth_error_None. rewrite (m_len _ _ _ M1). lia.
Qed.

Lemma many_first : 1 <= cores -> exists s, create cores ok (init cores) = Ok (s, Some 0) /\ many s 1 1 /\ setup cores s 1 0.
Proof.
  intros C. destruct (setup_first cores ok K C) as (s & H & S0). exists s. split; auto. split; auto. constructor; try apply S0.
  - rewrite (s_loops _ _ _ _ S0). reflexivity.
  - rewrite (s_f _ _ _ _ S0). reflexivity.
  - intros i Hi. rewrite (s_q _ _ _ _ S0) by lia. rewrite !(proj2 (Nat.leb_gt _ _)) by lia. reflexivity.
Qed.
Lemma many_creates k : forall s n f, many s n f -> exists s', run cores ok s (repeat OCreate k) = Ok s' /\ many s' (n + k) f.
Proof.
  induction k as [|k IH]; intros s n f M.
  - exists s. rewrite Nat.add_0_r. auto.
  - destruct (many_create s n f M) as (s1 & H & M1 & _). destruct (IH _ _ _ M1) as (s' & H' & M').
    exists s'. cbn [repeat run step]. rewrite H. cbn [bind fst]. split; auto. now replace (n + S k) with (S n + k) by lia.
Qed.
Lemma run_app a : forall s b, run cores ok s (a ++ b) = do s1 <- run cores ok s a; run cores ok s1 b.
Proof. induction a as [|o a IH]; intros s b; simpl; auto. destruct (step cores ok s o); simpl; auto. Qed.
Lemma creates k : 1 <= cores -> 1 <= k -> exists s, run cores ok (init cores) (repeat OCreate k) = Ok s /\ many s k 1.
Proof.
  intros C L. destruct (many_first C) as (s & H & M & _). destruct k as [|k]; [lia|].
  destruct (many_creates k _ _ _ M) as (s' & H' & M'). exists s'. cbn [repeat run step]. rewrite H. cbn [bind fst]. auto.
Qed.

(* two loops or more before the set-up *)
Lemma init_pool_many k count : 2 <= cores -> 2 <= k -> run cores ok (init cores) (repeat OCreate k ++ [OInit count]) = UB.
Proof.
  intros C L. destruct (creates k) as (s & H & M); [lia|lia|]. rewrite run_app, H. cbn [bind run step].
  unfold init_pool. rewrite (m_ml _ _ _ M). cbn [bind].
  assert (X : exists s2 k' f', (if 0 <? count then futures cores ok (if cores <=? count then cores - length (fidx s) else count - length (fidx s)) s else Ok s) = Ok s2
    /\ many s2 k' f' /\ f' + 1 <= k' /\ f' + 1 <= cores).
  { destruct (0 <? count); [eapply many_futures; eauto; lia|]. exists s, k, 1. auto. }
  destruct X as (s2 & k' & f' & H2 & M2 & L2 & L3). rewrite H2. cbn [bind]. rewrite (m_f _ _ _ M2).
  rewrite (many_pools _ _ _ _ M2) by lia. reflexivity.
Qed.

Lemma tell_ub n : forall i (l : list (option que)), i <= length l -> length l < i + n -> tell n i l = UB.
Proof.
  induction n as [|n IH]; intros i l H L; [lia|]. cbn [tell].
  destruct (nth_error l i) as [q|] eqn:Q.
  - rewrite (rd_ok _ _ _ Q). cbn [bind]. assert (i < length l) by (apply nth_error_Some; congruence). rewrite IH by lia. reflexivity.
  - unfold rd. rewrite Q. reflexivity.
Qed.
Lemma shutdown_many k : 1 <= cores -> cores < k ->
  exists s, run cores ok (init cores) (repeat OCreate k) = Ok s /\ shutdown s = UB.
Proof.
  intros C L. destruct (creates k) as (s & H & M); [lia|lia|]. exists s. split; auto.
  unfold shutdown. apply tell_ub; rewrite (m_len _ _ _ M); [|rewrite (m_num _ _ _ M)]; lia.
Qed.

(* the main thread's own loop is taken for a thread of tasks *)
Lemma own_loop : 1 <= cores -> exists s, create cores ok (init cores) = Ok (s, Some 0) /\
  create_pool cores ok s (Some 0) = Ok (s, true) /\ forall c, go s c = Exn.
Proof.
  intros C. destruct (many_first C) as (s & H & _ & S0). exists s. split; auto. split.
  - assert (Lp : loop_at s (Some 0) = Ok 1) by (unfold loop_at; rewrite (s_loops _ _ _ _ S0); reflexivity).
    unfold create_pool. rewrite Lp. cbn [bind]. destruct (Nat.leb_spec 1 cores); [|lia].
    rewrite (rd_ok _ _ _ (s_q _ _ _ _ S0 1 ltac:(lia))). reflexivity.
  - intros c. unfold go. rewrite (s_t _ _ _ _ S0). reflexivity.
Qed.

(* the usual end of a program: the loop that was returned is destroyed, then the library is left *)
Lemma end_twice count : 1 <= cores -> exists s s1, init_pool cores ok (init cores) count = Ok (s, Some 0) /\
  destroy s (Some 0) = Ok (s1, true) /\ deinit cores s1 = UB.
Proof.
  intros C. destruct (init_pool_init cores ok K count C) as (s & H & S0). exists s.
  assert (F : 1 <= nfut cores count <= cores) by (unfold nfut; lia).
  set (f := nfut cores count) in *. clearbody f.
  assert (E : exists r, loops s = {| lid := 1; lalive := true |} :: r).
  { rewrite (s_loops _ _ _ _ S0). replace (f + (cores - f)) with (S (cores - 1)) by lia. cbn [seq map]. eauto. }
  destruct E as (r & E).
  eexists. split; [exact H|]. unfold destroy, loop_at, free_loop. cbn [loops with_mloop]. rewrite E. cbn. split; [reflexivity|].
  unfold deinit. destruct cores as [|c]; [lia|]. cbn [join local with_loops with_mloop].
  rewrite (rd_ok _ _ _ (s_q _ _ _ _ S0 1 ltac:(lia))). rewrite (proj2 (Nat.leb_le 1 f)) by lia. reflexivity.
Qed.

(* every core a future: a server's first connection *)
Lemma accept_full_pool count c : 1 <= cores -> cores <= Nat.max 1 count ->
  exists s, init_pool cores ok (init cores) count = Ok (s, Some 0) /\ accept cores ok s c = UB.
Proof.
  intros C L. destruct (init_pool_init cores ok K count C) as (s & H & S0). exists s. split; auto.
  assert (F : nfut cores count = cores) by (unfold nfut; lia). rewrite F, Nat.sub_diag in S0.
  unfold accept. rewrite (s_t _ _ _ _ S0). cbn [seq].
  assert (M : many s cores cores).
  { constructor; try apply S0.
    - rewrite (s_num _ _ _ _ S0). lia.
    - rewrite (s_loops _ _ _ _ S0), map_length, seq_length. lia.
    - rewrite (s_f _ _ _ _ S0), seq_length. auto.
    - intros; lia. }
  destruct (many_create s _ _ M) as (s1 & H1 & M1 & Lp & _). rewrite H1. cbn [bind fst snd].
  unfold create_pool. rewrite Lp. cbn [bind]. rewrite (proj2 (Nat.leb_gt _ _)) by lia. cbn [bind].
  unfold rd. replace (nth_error (local s1) (S cores)) with (@None (option que)); [reflexivity|].
  symmetry. apply nth_error_None. rewrite (m_len _ _ _ M1). lia.
Qed.
End R.

(* a single failure at the given question *)
Definition fails_at (k : nat) : nat -> bool := fun n => negb (n =? k).

(* the kernel gives no poller (question 6): the main thread keeps the loop that was freed, and so does its thread *)
Lemma poller_fails cores : 1 <= cores -> exists s, create cores (fails_at 6) (init cores) = Ok (s, None) /\
  mloop s = Some 0 /\ loop_at s (mloop s) = UB /\ deinit cores s = UB.
Proof. intros C. destruct cores as [|c]; [lia|]. eexists. split; [cbv; reflexivity|]. split; [reflexivity|]. split; reflexivity. Qed.

(* the thread does not start (question 5): it is joined nevertheless *)
Lemma thread_fails cores : 1 <= cores -> exists s, create cores (fails_at 5) (init cores) = Ok (s, Some 0) /\ deinit cores s = UB.
Proof. intros C. destruct cores as [|c]; [lia|]. eexists. split; [cbv; reflexivity|reflexivity]. Qed.

(* a thread of tasks does not start (question 13): asked again for the same loop, the library answers that all is well *)
Lemma retry cores : 2 <= cores -> exists s1 s2 s3, create cores (fails_at 13) (init cores) = Ok (s1, Some 0) /\
  create cores (fails_at 13) s1 = Ok (s2, Some 1) /\ create_pool cores (fails_at 13) s2 (Some 1) = Ok (s3, false) /\
  create_pool cores (fails_at 13) s3 (Some 1) = Ok (s3, true) /\ forall c, go s3 c = Exn.
Proof.
  intros C. destruct cores as [|[|c]]; [lia|lia|]. eexists _, _, _. split; [cbv; reflexivity|]. split; [cbv; reflexivity|].
  split; [cbv; reflexivity|]. split; reflexivity.
Qed.

(* no memory for a loop (question 7) when a server gets its first connection *)
Lemma accept_no_memory cores c : 2 <= cores -> exists s, create cores (fails_at 7) (init cores) = Ok (s, Some 0) /\
  accept cores (fails_at 7) s c = UB.
Proof. intros C. destruct cores as [|[|k]]; [lia|lia|]. eexists. split; [cbv; reflexivity|reflexivity]. Qed.

(* at a place that is free, the answer tells whether the thread runs; the other places stay as they are *)
Lemma create_pool_new cores ok l s h i s' b : run cores ok (init cores) l = Ok s -> loop_at s (Some h) = Ok i -> i <= cores ->
  nth_error (local s) i = Some None -> create_pool cores ok s (Some h) = Ok (s', b) ->
  (b = true <-> runs s' i QTasks h) /\ (b = false -> forall o h', ~ runs s' i o h') /\
  (forall j, j <> i -> nth_error (local s') j = nth_error (local s) j) /\ loops s' = loops s.
Proof.
  intros H0 L C N H. assert (LL : i < length (local s)) by (apply nth_error_Some; congruence).
  unfold create_pool in H. rewrite L in H. cbn [bind] in H. rewrite (proj2 (Nat.leb_le _ _) C), (rd_ok _ _ _ N) in H. cbn [bind] in H.
  apply bind_ok in H. destruct H as ((s2 & d) & R & H). apply start_spec in R.
  destruct R as ((E1 & E2 & E3 & E4 & E5 & E6) & [(-> & E)|(-> & E)]); injection H as <- <-.
  - unfold runs. cbn [local with_tidx loops]. rewrite E, set_nth_same by auto. repeat split; auto; try discriminate.
    intros j Hj. rewrite set_nth_other by auto. reflexivity.
  - assert (X : forall o h', ~ runs s2 i o h').
    { intros o h' Q. unfold runs in Q. destruct E as [E|(q & Q1 & Q2 & Q3 & E)]; rewrite E in Q; [congruence|].
      rewrite set_nth_same in Q by auto. injection Q as ->. apply Q1. reflexivity. }
    split; [split; [discriminate|intros Q; destruct (X _ _ Q)]|]. split; [auto|]. split; auto.
    intros j Hj. destruct E as [E|(q & Q1 & Q2 & Q3 & E)]; rewrite E; auto. rewrite set_nth_other by auto. reflexivity.
Qed.
Lemma create_future_new cores ok l s h i s' f : run cores ok (init cores) l = Ok s -> loop_at s (Some h) = Ok i -> i <= cores ->
  nth_error (local s) i = Some None -> create_future cores ok s (Some h) = Ok (s', f) ->
  (f = Some i <-> runs s' i QFuture h) /\ (f <> Some i -> f = mpool s /\ forall o h', ~ runs s' i o h') /\
  (forall j, j <> i -> nth_error (local s') j = nth_error (local s) j) /\ loops s' = loops s.
Proof.
  intros H0 L C N H. assert (LL : i < length (local s)) by (apply nth_error_Some; congruence).
  assert (I : inv cores s) by (eapply run_inv; [apply inv_init|exact H0]).
  assert (NP : mpool s <> Some i).
  { intros P. apply (i_p _ _ I) in P. apply (i_f _ _ I) in P. destruct P as (h' & P). unfold runs in P. congruence. }
  unfold create_future in H. rewrite L in H. cbn [bind] in H. rewrite (proj2 (Nat.leb_le _ _) C), (rd_ok _ _ _ N) in H. cbn [bind] in H.
  apply bind_ok in H. destruct H as ((s2 & g) & R & H). apply bind_ok in R. destruct R as ((s3 & d) & R & R2). apply start_spec in R.
  destruct R as ((E1 & E2 & E3 & E4 & E5 & E6) & [(-> & E)|(-> & E)]); injection R2 as <- <-; injection H as <- <-.
  - unfold runs. cbn [local with_fidx loops]. rewrite E, set_nth_same by auto. split; [tauto|]. split; [congruence|]. split; auto.
    intros j Hj. rewrite set_nth_other by auto. reflexivity.
  - assert (X : forall o h', ~ runs s3 i o h').
    { intros o h' Q. unfold runs in Q. destruct E as [E|(q & Q1 & Q2 & Q3 & E)]; rewrite E in Q; [congruence|].
      rewrite set_nth_same in Q by auto. injection Q as ->. apply Q1. reflexivity. }
    rewrite E6. split; [split; [congruence|intros Q; destruct (X _ _ Q)]|]. split; [auto|]. split; auto.
    intros j Hj. destruct E as [E|(q & Q1 & Q2 & Q3 & E)]; rewrite E; auto. rewrite set_nth_other by auto. reflexivity.
Qed.
