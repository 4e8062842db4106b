(* Set-up of all cores when nothing fails, the end of the threads, and what goes wrong. *)
From Verif Require Import Base PsModel PsProofs.

Definition all_ok (ok : nat -> bool) : Prop := forall n, ok n = true.

Section A.
Variables (cores : nat) (ok : nat -> bool).
Hypothesis K : all_ok ok.

Lemma create_all s p : mpool s = Some p -> exists s', create cores ok s = Ok (s', Some (length (loops s))) /\
  loops s' = loops s ++ [{| lid := S (numl s); lalive := true |}] /\ numl s' = S (numl s) /\ local s' = local s /\
  fidx s' = fidx s /\ tidx s' = tidx s /\ mpool s' = Some p /\
  mloop s' = (match mloop s with None => Some (length (loops s)) | Some h => Some h end).
Proof.
  intros P. unfold create, ask. simpl. rewrite !K, Nat.add_1_r.
  destruct (mloop s) eqn:M; simpl; rewrite P; simpl; rewrite ?K;
    (eexists; split; [reflexivity|]); simpl; repeat split; auto.
Qed.

Lemma loop_last s n : loop_at (with_loops s (loops s ++ [{| lid := n; lalive := true |}]) n) (Some (length (loops s))) = Ok n.
Proof. unfold loop_at. simpl. unfold rd. rewrite nth_error_app2, Nat.sub_diag by lia. reflexivity. Qed.
Lemma loop_last' s l n : loops s = l ++ [{| lid := n; lalive := true |}] -> loop_at s (Some (length l)) = Ok n.
Proof. intros E. unfold loop_at, rd. rewrite E, nth_error_app2, Nat.sub_diag by lia. reflexivity. Qed.

(* the first loop of the main thread brings a future with it *)
Lemma create_first s : mpool s = None -> S (numl s) <= cores -> nth_error (local s) (S (numl s)) = Some None ->
  exists s', create cores ok s = Ok (s', Some (length (loops s))) /\
  loops s' = loops s ++ [{| lid := S (numl s); lalive := true |}] /\ numl s' = S (numl s) /\
  local s' = set_nth (S (numl s)) (Some {| qown := QFuture; qthr := TRun; qloop := length (loops s) |}) (local s) /\
  fidx s' = fidx s ++ [S (numl s)] /\ tidx s' = tidx s /\ mpool s' = Some (S (numl s)) /\
  mloop s' = (match mloop s with None => Some (length (loops s)) | Some h => Some h end).
Proof.
  intros P L N. unfold create, ask. simpl. rewrite !K, Nat.add_1_r.
  match goal with |- context [match mpool ?x with _ => _ end] => set (s2 := x) end.
  assert (E : mpool s2 = None /\ loops s2 = loops s ++ [{| lid := S (numl s); lalive := true |}] /\ numl s2 = S (numl s) /\
    local s2 = local s /\ fidx s2 = fidx s /\ tidx s2 = tidx s /\ mloop s2 = (match mloop s with None => Some (length (loops s)) | Some h => Some h end)).
  { unfold s2. simpl. destruct (mloop s) eqn:M; simpl; repeat split; auto. }
  clearbody s2. destruct E as (E1 & E2 & E3 & E4 & E5 & E6 & E7). rewrite E1.
  unfold create_future. rewrite (loop_last' _ _ _ E2). cbn [bind]. rewrite (proj2 (Nat.leb_le _ _) L).
  rewrite E4, (rd_ok _ _ _ N). cbn [bind].
  assert (LL : S (numl s) < length (local s2)) by (rewrite E4; apply nth_error_Some; congruence).
  destruct (start_all ok s2 (S (numl s)) (handle (Some (length (loops s)))) QFuture K LL) as (s3 & R & (A1 & A2 & A3 & A4 & A5 & A6) & A7).
  rewrite R. simpl. rewrite K. eexists. split; [reflexivity|]. simpl.
  rewrite A1, A2, A3, A4, A5, A7, E4, E5, E6, E7, E2, E3. repeat split; auto.
Qed.

(* f futures and then t threads of tasks *)
Record setup (s : st) (f t : nat) : Prop := {
  s_len : length (local s) = S cores;
  s_num : numl s = f + t;
  s_loops : loops s = map (fun i => {| lid := i; lalive := true |}) (seq 1 (f + t));
  s_f : fidx s = seq 1 f;
  s_t : tidx s = seq (S f) t;
  s_ml : mloop s = Some 0;
  s_mp : mpool s = Some 1;
  s_q : forall i, 1 <= i <= cores -> nth_error (local s) i =
        Some (if i <=? f then Some {| qown := QFuture; qthr := TRun; qloop := i - 1 |}
              else if i <=? f + t then Some {| qown := QTasks; qthr := TRun; qloop := i - 1 |} else None) }.

Lemma setup_first : 1 <= cores -> exists s, create cores ok (init cores) = Ok (s, Some 0) /\ setup s 1 0.
Proof.
  intros C. destruct (create_first (init cores)) as (s & H & E1 & E2 & E3 & E4 & E5 & E6 & E7); try reflexivity; simpl; try lia.
  { destruct cores; [lia|reflexivity]. }
  exists s. split; auto. constructor; auto.
  - rewrite E3, set_nth_length. simpl. now rewrite repeat_length.
  - intros i Hi. rewrite E3. simpl numl. destruct (Nat.eq_dec i 1) as [->|N].
    + rewrite set_nth_same; [reflexivity|]. simpl. rewrite repeat_length. lia.
    + rewrite set_nth_other by auto. destruct i as [|i]; [lia|].
      rewrite (proj2 (Nat.leb_gt _ _)) by lia. rewrite (proj2 (Nat.leb_gt _ _)) by lia.
      simpl. apply nth_error_repeat. lia.
Qed.

Lemma step_future s f : setup s f 0 -> 1 <= f -> f < cores ->
  exists s1 h s' g, create cores ok s = Ok (s1, Some h) /\ create_future cores ok s1 (Some h) = Ok (s', g) /\ setup s' (S f) 0.
Proof.
  intros S0 F L. destruct (create_all s 1 (s_mp _ _ _ S0)) as (s1 & H & E1 & E2 & E3 & E4 & E5 & E6 & E7).
  exists s1, (length (loops s)).
  assert (HL : length (loops s) = f) by (rewrite (s_loops _ _ _ S0), map_length, seq_length; lia).
  assert (HN : numl s = f) by (rewrite (s_num _ _ _ S0); lia). rewrite HN in *.
  unfold create_future. rewrite (loop_last' _ _ _ E1). cbn [bind]. rewrite (proj2 (Nat.leb_le _ _)) by lia.
  assert (Q : nth_error (local s1) (S f) = Some None).
  { rewrite E3, (s_q _ _ _ S0) by lia. rewrite !(proj2 (Nat.leb_gt _ _)) by lia. reflexivity. }
  rewrite (rd_ok _ _ _ Q). cbn [bind].
  assert (LL : S f < length (local s1)) by (apply nth_error_Some; congruence).
  destruct (start_all ok s1 (S f) (handle (Some (length (loops s)))) QFuture K LL) as (s3 & R & (A1 & A2 & A3 & A4 & A5 & A6) & A7).
  rewrite R. simpl. eexists _, _. split; [exact H|]. split; [reflexivity|].
  constructor; cbn [local numl loops fidx tidx mloop mpool with_fidx with_tidx].
  - rewrite A7, set_nth_length, E3. apply s_len with (1 := S0).
  - rewrite A2, E2. lia.
  - rewrite A1, E1, (s_loops _ _ _ S0), !Nat.add_0_r.
    rewrite (seq_S f 1), map_app. reflexivity.
  - rewrite A3, E4, (s_f _ _ _ S0).  symmetry. apply (seq_S f 1).
  - rewrite A4, E5, (s_t _ _ _ S0). reflexivity.
  - rewrite A5, E7, (s_ml _ _ _ S0). reflexivity.
  - rewrite A6. auto.
  - intros i Hi. rewrite A7. destruct (Nat.eq_dec i (S f)) as [->|N].
    + rewrite set_nth_same by auto. rewrite Nat.leb_refl. simpl. rewrite HL, Nat.sub_0_r. reflexivity.
    + rewrite set_nth_other by auto. rewrite E3, (s_q _ _ _ S0) by auto. rewrite Nat.add_0_r.
      destruct (Nat.leb_spec i f).
      * rewrite !(proj2 (Nat.leb_le _ _)) by lia. reflexivity.
      * rewrite !(proj2 (Nat.leb_gt _ _)) by lia. reflexivity.
Qed.

Lemma step_pool s f t : setup s f t -> 1 <= f -> f + t < cores ->
  exists s1 h s', create cores ok s = Ok (s1, Some h) /\ create_pool cores ok s1 (Some h) = Ok (s', true) /\ setup s' f (S t).
Proof.
  intros S0 F L. destruct (create_all s 1 (s_mp _ _ _ S0)) as (s1 & H & E1 & E2 & E3 & E4 & E5 & E6 & E7).
  exists s1, (length (loops s)).
  assert (HL : length (loops s) = f + t) by (rewrite (s_loops _ _ _ S0), map_length, seq_length; lia).
  assert (HN : numl s = f + t) by (rewrite (s_num _ _ _ S0); lia). rewrite HN in *.
  unfold create_pool. rewrite (loop_last' _ _ _ E1). cbn [bind]. rewrite (proj2 (Nat.leb_le _ _)) by lia.
  assert (Q : nth_error (local s1) (S (f + t)) = Some None).
  { rewrite E3, (s_q _ _ _ S0) by lia. rewrite !(proj2 (Nat.leb_gt _ _)) by lia. reflexivity. }
  rewrite (rd_ok _ _ _ Q). cbn [bind].
  assert (LL : S (f + t) < length (local s1)) by (apply nth_error_Some; congruence).
  destruct (start_all ok s1 (S (f + t)) (handle (Some (length (loops s)))) QTasks K LL) as (s3 & R & (A1 & A2 & A3 & A4 & A5 & A6) & A7).
  rewrite R. simpl. eexists _. split; [exact H|]. split; [reflexivity|].
  constructor; cbn [local numl loops fidx tidx mloop mpool with_fidx with_tidx].
  - rewrite A7, set_nth_length, E3. apply s_len with (1 := S0).
  - rewrite A2, E2. lia.
  - rewrite A1, E1, (s_loops _ _ _ S0). replace (f + S t) with (f + t + 1) by lia. rewrite (seq_app (f + t) 1), map_app. reflexivity.
  - rewrite A3, E4, (s_f _ _ _ S0). reflexivity.
  - rewrite A4, E5, (s_t _ _ _ S0). symmetry. apply (seq_S t (S f)).
  - rewrite A5, E7, (s_ml _ _ _ S0). reflexivity.
  - rewrite A6. auto.
  - intros i Hi. rewrite A7. destruct (Nat.eq_dec i (S (f + t))) as [->|N].
    + rewrite set_nth_same by auto. rewrite (proj2 (Nat.leb_gt _ _)), (proj2 (Nat.leb_le _ _)) by lia. simpl. rewrite HL, Nat.sub_0_r. reflexivity.
    + rewrite set_nth_other by auto. rewrite E3, (s_q _ _ _ S0) by auto.
      destruct (Nat.leb_spec i f); [reflexivity|]. destruct (Nat.leb_spec i (f + t)).
      * rewrite (proj2 (Nat.leb_le _ _)) by lia. reflexivity.
      * rewrite (proj2 (Nat.leb_gt _ _)) by lia. reflexivity.
Qed.

Lemma futures_all n : forall s f, setup s f 0 -> 1 <= f -> f + n <= cores -> exists s', futures cores ok n s = Ok s' /\ setup s' (f + n) 0.
Proof.
  induction n as [|n IH]; intros s f S0 F L.
  - exists s. rewrite Nat.add_0_r. auto.
  - destruct (step_future s f S0 F) as (s1 & h & s' & g & H1 & H2 & S1); [lia|].
    destruct (IH s' (S f) S1) as (s'' & H3 & S2); [lia|lia|]. exists s''. split; [|now replace (f + S n) with (S f + n) by lia].
    cbn [futures]. rewrite H1. cbn [bind fst snd]. rewrite H2. cbn [bind fst snd]. exact H3.
Qed.
Lemma pools_all n : forall s f t, setup s f t -> 1 <= f -> f + t + n <= cores -> exists s', pools cores ok n s = Ok s' /\ setup s' f (t + n).
Proof.
  induction n as [|n IH]; intros s f t S0 F L.
  - exists s. rewrite Nat.add_0_r. auto.
  - destruct (step_pool s f t S0 F) as (s1 & h & s' & H1 & H2 & S1); [lia|].
    destruct (IH s' f (S t) S1) as (s'' & H3 & S2); [lia|lia|]. exists s''. split; [|now replace (t + S n) with (S t + n) by lia].
    cbn [pools]. rewrite H1. cbn [bind fst snd]. rewrite H2. cbn [bind fst snd]. exact H3.
Qed.

Definition nfut (count : nat) : nat := Nat.max 1 (Nat.min count cores).

Lemma init_pool_first s count : setup s 1 0 -> 1 <= cores ->
  exists s', init_pool cores ok s count = Ok (s', Some 0) /\ setup s' (nfut count) (cores - nfut count).
Proof.
  intros S0 C. unfold init_pool. rewrite (s_ml _ _ _ S0). cbn [bind]. rewrite (s_f _ _ _ S0), seq_length.
  assert (X : exists s2, (if 0 <? count then futures cores ok (if cores <=? count then cores - 1 else count - 1) s else Ok s) = Ok s2
                         /\ setup s2 (nfut count) 0).
  { unfold nfut. destruct (Nat.ltb_spec 0 count).
    - destruct (futures_all (if cores <=? count then cores - 1 else count - 1) s 1 S0) as (s2 & H2 & S2); auto.
      { destruct (Nat.leb_spec cores count); lia. }
      exists s2. split; auto. replace (Nat.max 1 (Nat.min count cores)) with (1 + (if cores <=? count then cores - 1 else count - 1)); auto.
      destruct (Nat.leb_spec cores count); lia.
    - exists s. split; auto. replace (Nat.max 1 (Nat.min count cores)) with 1 by lia. auto. }
  destruct X as (s2 & H2 & S2). rewrite H2. cbn [bind]. rewrite (s_f _ _ _ S2), seq_length.
  destruct (pools_all (cores - nfut count) s2 (nfut count) 0 S2) as (s3 & H3 & S3); [unfold nfut; lia|unfold nfut; lia|].
  rewrite H3. cbn [bind]. exists s3. rewrite (s_ml _ _ _ S3). auto.
Qed.
Lemma init_pool_init count : 1 <= cores ->
  exists s', init_pool cores ok (init cores) count = Ok (s', Some 0) /\ setup s' (nfut count) (cores - nfut count).
Proof.
  intros C. destruct (setup_first C) as (s & H & S0). destruct (init_pool_first s count S0 C) as (s' & H' & S').
  exists s'. split; auto. unfold init_pool in *. rewrite (s_ml _ _ _ S0) in H'.
  cbn [init mloop]. fold (init cores). rewrite H. cbn [bind fst snd].
  assert (E : create_future cores ok s (Some 0) = Ok (s, Some 1)).
  { assert (Lp : loop_at s (Some 0) = Ok 1) by (unfold loop_at; rewrite (s_loops _ _ _ S0); reflexivity).
    unfold create_future. rewrite Lp. cbn [bind]. destruct (Nat.leb_spec 1 cores); [|lia].
    rewrite (rd_ok _ _ _ (s_q _ _ _ S0 1 ltac:(lia))). cbn. now rewrite (s_mp _ _ _ S0). }
  rewrite E. cbn [bind fst snd]. exact H'.
Qed.
End A.
