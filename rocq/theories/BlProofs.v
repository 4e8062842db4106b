(* Limits, sleeping and blocking. *)
From Coq Require Import ZArith List Bool Lia.
From Verif Require Import Base BlModel.
Import ListNotations.
Local Open Scope Z_scope.

(* 2147483 milliseconds: 35 minutes and 47.483 seconds *)
Lemma in_range ms : -2147483 <= ms <= 2147483 -> (ms * 1000 <? - 2 ^ 31) || (2 ^ 31 <=? ms * 1000) = false.
Proof. intros. change (2 ^ 31) with 2147483648. apply orb_false_iff. split; lia. Qed.
Lemma usec_eq ms : Z.rem (ms * 1000) 1000000 = Z.rem ms 1000 * 1000.
Proof.
  pose proof (Z.quot_rem' ms 1000). change 1000000 with (1000 * 1000). rewrite Z.mul_rem_distr_r by lia. reflexivity.
Qed.

Definition limit_of (ms : Z) : limit := if ms =? 0 then Endless else Micros (ms * 1000).

Lemma opt_ok able ms old : 0 <= ms -> sockopt able (Z.quot ms 1000) (Z.rem (ms * 1000) 1000000) old = if able then (0, limit_of ms) else (-1, old).
Proof.
  intros P. unfold sockopt. rewrite usec_eq. destruct able; auto. cbn [negb]. pose proof (Z.quot_rem' ms 1000). pose proof (Z.rem_bound_pos ms 1000 P ltac:(lia)).
  assert (0 <= Z.quot ms 1000) by (apply Z.quot_pos; lia).
  replace ((Z.rem ms 1000 * 1000 <? 0) || (1000000 <=? Z.rem ms 1000 * 1000)) with false by (symmetry; apply orb_false_iff; split; lia).
  replace (Z.quot ms 1000 <? 0) with false by lia. unfold limit_of. destruct (Z.eqb_spec ms 0) as [->|N]; [reflexivity|].
  replace ((Z.quot ms 1000 =? 0) && (Z.rem ms 1000 * 1000 =? 0)) with false; [do 2 f_equal; lia|].
  symmetry. apply andb_false_iff. destruct (Z.eq_dec (Z.quot ms 1000) 0); [right|left]; lia.
Qed.

Lemma timeout_ok a b ms s : 0 <= ms <= 2147483 ->
  tcp_timeout a b ms s = Ok (if a && b then 0 else 1, mkS (if a then limit_of ms else rcv s) (if b then limit_of ms else snd_ s)).
Proof.
  intros B. unfold tcp_timeout. rewrite in_range, !opt_ok by lia. destruct a, b; reflexivity.
Qed.
Lemma timeout_long a b ms s : 2147483 < ms \/ ms < -2147483 -> tcp_timeout a b ms s = UB.
Proof.
  intros H. unfold tcp_timeout. replace ((ms * 1000 <? - 2 ^ 31) || (2 ^ 31 <=? ms * 1000)) with true; auto.
  change (2 ^ 31) with 2147483648. symmetry. apply orb_true_iff. destruct H; [right|left]; lia.
Qed.
Lemma timeout_neg a b ms s : -2147483 <= ms < 0 ->
  tcp_timeout a b ms s =
    if Z.rem ms 1000 =? 0 then Ok (if a && b then 0 else 1, mkS (if a then Micros 0 else rcv s) (if b then Micros 0 else snd_ s))
    else Ok (1, s).
Proof.
  intros B. unfold tcp_timeout. rewrite in_range, usec_eq by lia. unfold sockopt. pose proof (Z.quot_rem' ms 1000).
  assert (R : -1000 < Z.rem ms 1000 <= 0) by (Z.to_euclidean_division_equations; lia). destruct (Z.eqb_spec (Z.rem ms 1000) 0) as [E|N].
  - rewrite E. change (0 * 1000) with 0. change ((0 <? 0) || (1000000 <=? 0)) with false. cbv iota. replace (Z.quot ms 1000 <? 0) with true by lia. destruct a, b; reflexivity.
  - replace (Z.rem ms 1000 * 1000 <? 0) with true by lia. cbn [orb]. destruct a, b, s; reflexivity.
Qed.
Lemma win_ok a b ms s : - 2 ^ 31 <= ms < 2 ^ 31 ->
  let l := if ms <? 0 then Micros ((ms + 2 ^ 32) * 1000) else limit_of ms in
  win_timeout a b ms s = (if a && b then 0 else 1, mkS (if a then l else rcv s) (if b then l else snd_ s)).
Proof.
  change (2 ^ 31) with 2147483648. intros B l. unfold win_timeout. set (dw := ms mod 2 ^ 32).
  assert (E : (if dw =? 0 then Endless else Micros (dw * 1000)) = l).
  { unfold l, dw, limit_of. change (2 ^ 32) with 4294967296. destruct (Z.ltb_spec ms 0) as [N|N].
    - replace (ms mod 4294967296) with (ms + 4294967296).
      + replace (ms + 4294967296 =? 0) with false by lia. reflexivity.
      + symmetry. rewrite <- (Z.mod_add ms 1 4294967296) by lia. rewrite Z.mod_small; lia.
    - rewrite Z.mod_small by lia. reflexivity. }
  unfold win_opt. rewrite E. destruct a, b; reflexivity.
Qed.

Lemma sleep_ok sig ms : 0 <= ms -> (forall t, sig = Some t -> ms * 1000000 <= t) -> os_sleep sig ms = (0, ms * 1000000).
Proof.
  intros P H. unfold os_sleep. pose proof (Z.div_mod ms 1000 ltac:(lia)). pose proof (Z.mod_pos_bound ms 1000 ltac:(lia)).
  assert (0 <= ms / 1000) by (apply Z.div_pos; lia).
  replace ((ms mod 1000 * 1000000 <? 0) || (1000000000 <=? ms mod 1000 * 1000000) || (ms / 1000 <? 0)) with false
    by (symmetry; rewrite !orb_false_iff; lia).
  replace (ms / 1000 * 1000000000 + ms mod 1000 * 1000000) with (ms * 1000000) by lia.
  destruct sig as [t|]; auto. specialize (H t eq_refl). replace (t <? ms * 1000000) with false by lia. reflexivity.
Qed.
Lemma sleep_sig t ms : 0 <= ms -> t < ms * 1000000 -> os_sleep (Some t) ms = (-1, t).
Proof.
  intros P H. unfold os_sleep. pose proof (Z.div_mod ms 1000 ltac:(lia)). pose proof (Z.mod_pos_bound ms 1000 ltac:(lia)).
  assert (0 <= ms / 1000) by (apply Z.div_pos; lia).
  replace ((ms mod 1000 * 1000000 <? 0) || (1000000000 <=? ms mod 1000 * 1000000) || (ms / 1000 <? 0)) with false
    by (symmetry; rewrite !orb_false_iff; lia).
  replace (ms / 1000 * 1000000000 + ms mod 1000 * 1000000) with (ms * 1000000) by lia.
  replace (t <? ms * 1000000) with true by lia. reflexivity.
Qed.

(* the flags of the file behind a descriptor *)
Definition shows (f : files) (fd : Z) (v : Z) : Prop := exists k, of_fd f fd = Some k /\ nth_error (flags f) k = Some v.

(* only the bit nb of the file of fd, and of the descriptors that share it, is now b *)
Definition only_bit (f g : files) (fd nb : Z) (b : bool) : Prop :=
  (forall e v, shows f e v -> exists w, shows g e w /\
     forall j, 0 <= j -> Z.testbit w j = if (j =? nb) && (match of_fd f e, of_fd f fd with Some x, Some y => Nat.eqb x y | _, _ => false end)
                                          then b else Z.testbit v j) /\
  forall e w, shows g e w -> exists v, shows f e v.

Lemma set_at {A} (l : list A) k x y j : nth_error l k = Some y -> nth_error (set_nth k x l) j = if Nat.eqb j k then Some x else nth_error l j.
Proof. revert k j. induction l as [|a l IH]; intros [|k] [|j] E; simpl in *; try discriminate; auto. Qed.

Lemma setfl_bit mask nb f fd v b u : shows f fd v -> Z.testbit mask nb = true ->
  (forall j, 0 <= j -> Z.testbit u j = if j =? nb then b else Z.testbit v j) ->
  exists g, setfl mask f fd u = (0, g) /\ only_bit f g fd nb b.
Proof.
  intros (k & K1 & K2) M U. unfold setfl. rewrite K1, K2. eexists. split; [reflexivity|].
  set (x := Z.lor _ _). assert (X : forall j, 0 <= j -> Z.testbit x j = if j =? nb then b else Z.testbit v j).
  { intros j J. unfold x. rewrite Z.lor_spec, !Z.land_spec, Z.lnot_spec, U by auto. destruct (Z.eqb_spec j nb) as [->|N].
    - rewrite M. cbn [negb]. rewrite andb_true_r, andb_false_r, orb_false_r. reflexivity.
    - destruct (Z.testbit v j), (Z.testbit mask j); reflexivity. }
  split.
  - intros e y (q & Q1 & Q2). rewrite K1, Q1. unfold shows. cbn [of_fd flags]. destruct (Nat.eqb_spec q k) as [->|N].
    + exists x. split; [exists k; split; auto; rewrite (set_at _ _ _ _ _ K2), Nat.eqb_refl; auto|].
      intros j J. rewrite X, andb_true_r by auto. assert (y = v) as -> by congruence. reflexivity.
    + exists y. split; [exists q; split; auto; rewrite (set_at _ _ _ _ _ K2), (proj2 (Nat.eqb_neq q k) N); auto|].
      intros j J. rewrite andb_false_r. reflexivity.
  - intros e w (q & Q1 & Q2). cbn [of_fd flags] in *. rewrite (set_at _ _ _ _ _ K2) in Q2. destruct (Nat.eqb_spec q k) as [->|N].
    + exists v, k. auto.
    + exists w, q. auto.
Qed.
Lemma getfl_shows f fd v : shows f fd v -> getfl f fd = v.
Proof. intros (k & A & B). unfold getfl. rewrite A. apply nth_error_nth. auto. Qed.

Lemma nonblocking_ok mask nb f fd v : shows f fd v -> 0 <= nb -> Z.testbit mask nb = true ->
  exists g, set_nonblocking mask nb f fd = (0, g) /\ only_bit f g fd nb true.
Proof.
  intros H P M. unfold set_nonblocking. rewrite (getfl_shows _ _ _ H). apply setfl_bit with (v := v); auto.
  intros j J. rewrite Z.lor_spec, Z.pow2_bits_eqb by auto. rewrite Z.eqb_sym. destruct (j =? nb); [apply orb_true_r|apply orb_false_r].
Qed.
Lemma blocking_ok mask nb f fd v : shows f fd v -> 0 <= nb -> Z.testbit mask nb = true ->
  exists g, set_blocking mask nb f fd = (0, g) /\ only_bit f g fd nb false.
Proof.
  intros H P M. unfold set_blocking. rewrite (getfl_shows _ _ _ H). apply setfl_bit with (v := v); auto.
  intros j J. rewrite Z.land_spec, Z.lnot_spec, Z.pow2_bits_eqb by auto. rewrite Z.eqb_sym.
  destruct (j =? nb); [apply andb_false_r|apply andb_true_r].
Qed.
Lemma bad_fd mask nb f fd : (forall v, ~ shows f fd v) ->
  set_nonblocking mask nb f fd = (-1, f) /\ set_blocking mask nb f fd = (-1, f).
Proof.
  intros N. unfold set_nonblocking, set_blocking, setfl. destruct (of_fd f fd) as [k|] eqn:A; auto.
  destruct (nth_error (flags f) k) as [v|] eqn:B; auto. destruct (N v). exists k. auto.
Qed.
