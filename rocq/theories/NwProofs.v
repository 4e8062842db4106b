(* The clocks. *)
From Verif Require Import Base NwModel.
From Coq Require Import Lia ZArith.
Open Scope Z_scope.

Lemma p64 : 2 ^ 64 = 18446744073709551616. Proof. reflexivity. Qed.
Lemma p63 : 2 ^ 63 = 9223372036854775808. Proof. reflexivity. Qed.
Lemma p32 : 2 ^ 32 = 4294967296. Proof. reflexivity. Qed.
Lemma p31 : 2 ^ 31 = 2147483648. Proof. reflexivity. Qed.

Lemma signed_ok b v : - 2 ^ (b - 1) <= v < 2 ^ (b - 1) -> signed b v = Ok v.
Proof. intros H. unfold signed. destruct (Z.leb_spec (- 2 ^ (b - 1)) v), (Z.ltb_spec v (2 ^ (b - 1))); cbn; auto; lia. Qed.
Lemma signed_ub b v : 2 ^ (b - 1) <= v -> signed b v = UB.
Proof. intros H. unfold signed. destruct (Z.leb_spec (- 2 ^ (b - 1)) v), (Z.ltb_spec v (2 ^ (b - 1))); cbn; auto; lia. Qed.

Lemma u64_id v : 0 <= v < 2 ^ 64 -> u64 v = v.
Proof. intros H. apply Z.mod_small; auto. Qed.

(* a moment of the clock: seconds and nanoseconds, and the text of it *)
Definition clock_of (s n : Z) : Prop := 0 <= s /\ 0 <= n < 1000000000.

Lemma nanos_iff tw s n : clock_of s n -> 1 <= tw <= 64 ->
  nanos tw s n = if s * 1000000000 + n <? 2 ^ (tw - 1) then Ok (s * 1000000000 + n) else UB.
Proof.
  intros [Hs Hn] Ht. unfold nanos.
  assert (P : 2 ^ (tw - 1) <= 2 ^ 63) by (apply Z.pow_le_mono_r; lia).
  assert (P0 : 0 < 2 ^ (tw - 1)) by (apply Z.pow_pos_nonneg; lia). rewrite p63 in P.
  destruct (Z.ltb_spec (s * 1000000000 + n) (2 ^ (tw - 1))) as [L|L].
  - rewrite signed_ok by lia. cbn. rewrite signed_ok by lia. cbn. rewrite u64_id; [reflexivity|]. rewrite p64. lia.
  - unfold signed at 1. destruct (Z.leb_spec (- 2 ^ (tw - 1)) (s * 1000000000)), (Z.ltb_spec (s * 1000000000) (2 ^ (tw - 1))); cbn; auto.
    rewrite signed_ub by lia. reflexivity.
Qed.

Lemma now_unix_64 s n tod lw : clock_of s n -> 0 < s * 1000000000 + n < 9223372036854775808 ->
  now_unix 64 lw (Some (s, n)) tod = Ok (s * 1000000000 + n).
Proof.
  intros C B. unfold now_unix. rewrite nanos_iff by (auto; lia). change (2 ^ (64 - 1)) with (2 ^ 63). rewrite p63.
  destruct (Z.ltb_spec (s * 1000000000 + n) 9223372036854775808); [|lia]. cbn.
  destruct (Z.eqb_spec (s * 1000000000 + n) 0); [lia|reflexivity].
Qed.

Lemma now_unix_64_mono s n tod lw s' n' tod' : clock_of s n -> clock_of s' n' ->
  0 < s * 1000000000 + n -> s' * 1000000000 + n' < 9223372036854775808 ->
  (s < s' \/ s = s' /\ n <= n') ->
  exists a b, now_unix 64 lw (Some (s, n)) tod = Ok a /\ now_unix 64 lw (Some (s', n')) tod' = Ok b /\ a <= b /\
    b - a = (s' - s) * 1000000000 + (n' - n).
Proof.
  intros C C' L L' O. unfold clock_of in *.
  exists (s * 1000000000 + n), (s' * 1000000000 + n'). rewrite !now_unix_64; unfold clock_of; repeat split; try lia.
Qed.

Lemma now_unix_32 s n tod : clock_of s n -> 3 <= s -> now_unix 32 32 (Some (s, n)) tod = UB.
Proof.
  intros C B. unfold now_unix. rewrite nanos_iff by (auto; lia). change (2 ^ (32 - 1)) with (2 ^ 31). rewrite p31.
  destruct C. destruct (Z.ltb_spec (s * 1000000000 + n) 2147483648); [lia|reflexivity].
Qed.

Lemma fallback_64 s us lw : clock_of s (us * 1000) -> 32 <= lw -> s * 1000000000 + us * 1000 < 9223372036854775808 ->
  fallback 64 lw (Some (s, us)) = Ok (s * 1000000000 + us * 1000).
Proof.
  intros C Hl B. unfold fallback.
  assert (P : 2 ^ 31 <= 2 ^ (lw - 1)) by (apply Z.pow_le_mono_r; lia). rewrite p31 in P.
  destruct C as [C1 C2]. rewrite signed_ok by lia. cbn. rewrite nanos_iff by (unfold clock_of; lia).
  change (2 ^ (64 - 1)) with (2 ^ 63). rewrite p63. destruct (Z.ltb_spec (s * 1000000000 + us * 1000) 9223372036854775808); [reflexivity|lia].
Qed.

Lemma now_unix_failed s us lw : clock_of s (us * 1000) -> 32 <= lw -> s * 1000000000 + us * 1000 < 9223372036854775808 ->
  now_unix 64 lw None (Some (s, us)) = Ok (s * 1000000000 + us * 1000).
Proof. intros. unfold now_unix. cbn. apply fallback_64; auto. Qed.

Lemma now_unix_back : exists c1 t1 c2 t2 a b, now_unix 64 64 c1 t1 = Ok a /\ now_unix 64 64 c2 t2 = Ok b /\
  c1 = None /\ c2 = Some (5, 0) /\ t1 = Some (1700000000, 0) /\ t2 = Some (1700000001, 0) /\ b < a.
Proof.
  exists None, (Some (1700000000, 0)), (Some (5, 0)), (Some (1700000001, 0)). do 2 eexists.
  repeat split; try reflexivity.
Qed.

Lemma now_win_ok c f tod : 0 <= c -> 0 < f <= c * 1000000000 -> c * 1000000000 < 9223372036854775808 ->
  now_win (Some c) f tod = Ok (c * 1000000000 / f).
Proof.
  intros Hc Hf B. unfold now_win. rewrite signed_ok by (change (64 - 1) with 63; rewrite p63; lia). cbn.
  destruct (Z.eqb_spec f 0); [lia|]. rewrite Z.quot_div_nonneg by lia. cbn.
  assert (D1 : 1 <= c * 1000000000 / f) by (apply Z.div_le_lower_bound; lia).
  assert (D2 : c * 1000000000 / f <= c * 1000000000) by (apply Z.div_le_upper_bound; nia).
  rewrite u64_id by (rewrite p64; lia). destruct (Z.eqb_spec (c * 1000000000 / f) 0); [lia|reflexivity].
Qed.

Lemma now_win_mono c c' f tod tod' : 0 < f <= c * 1000000000 -> 0 <= c <= c' -> c' * 1000000000 < 9223372036854775808 ->
  exists a b, now_win (Some c) f tod = Ok a /\ now_win (Some c') f tod' = Ok b /\ a <= b.
Proof.
  intros Hf Hc B. exists (c * 1000000000 / f), (c' * 1000000000 / f).
  rewrite !now_win_ok by lia. repeat split. apply Z.div_le_mono; lia.
Qed.

(* the counter counts 10^7 a second: undefined from the 923rd second on *)
Lemma now_win_late c f tod : 9223372037 <= c -> now_win (Some c) f tod = UB.
Proof. intros Hc. unfold now_win. rewrite signed_ub by (change (64 - 1) with 63; rewrite p63; lia). reflexivity. Qed.

Lemma now_win_early c tod : now_win (Some c) 0 tod = UB.
Proof. unfold now_win. unfold signed. destruct (_ && _); reflexivity. Qed.

Lemma now_win_failed s us f : 3 <= s -> 0 <= us < 1000000 -> now_win None f (Some (s, us)) = UB.
Proof.
  intros Hs Hu. unfold now_win, fallback. cbn [bind]. cbn.
  rewrite signed_ok by (change (32 - 1) with 31; rewrite p31; lia). cbn.
  rewrite nanos_iff by (unfold clock_of; lia). change (2 ^ (32 - 1)) with (2 ^ 31). rewrite p31.
  destruct (Z.ltb_spec (s * 1000000000 + us * 1000) 2147483648); [lia|reflexivity].
Qed.

(* the time of day on Windows: ms milliseconds after the start of 1970 *)
Lemma timeofday_ok ms : 0 <= ms < 2147483648000 ->
  let (s, us) := timeofday_win (ms + 11644473600000) in s * 1000000 + us = ms * 1000 /\ 0 <= us < 1000000.
Proof.
  intros H. unfold timeofday_win.
  set (ft := (ms + 11644473600000) * 10000).
  assert (F : 0 <= ft < 2 ^ 64) by (unfold ft; rewrite p64; lia).
  assert (T : u64 (ft mod 2 ^ 32 + u64 (ft / 2 ^ 32 * 2 ^ 32)) = ft).
  { assert (D : 0 <= ft / 2 ^ 32 * 2 ^ 32 <= ft).
    { pose proof (Z.div_pos ft (2 ^ 32) ltac:(lia) ltac:(rewrite p32; lia)). pose proof (Z.mul_div_le ft (2 ^ 32) ltac:(rewrite p32; lia)). rewrite p32 in *. lia. }
    rewrite (u64_id (ft / 2 ^ 32 * 2 ^ 32)) by lia.
    rewrite <- (u64_id ft) at 3 by lia. f_equal. pose proof (Z.div_mod ft (2 ^ 32) ltac:(rewrite p32; lia)). lia. }
  rewrite T.
  assert (E : ft - 116444736000000000 = ms * 10000) by (unfold ft; lia).
  rewrite E, u64_id by (rewrite p64; lia).
  assert (E2 : ms * 10000 / 10000000 = ms / 1000).
  { replace 10000000 with (1000 * 10000) by lia. rewrite Z.div_mul_cancel_r by lia. reflexivity. }
  rewrite E2.
  pose proof (Z.div_mod ms 1000 ltac:(lia)) as DM. pose proof (Z.mod_pos_bound ms 1000 ltac:(lia)) as MB.
  assert (M : (ms + 11644473600000) mod 1000 = ms mod 1000).
  { replace 11644473600000 with (11644473600 * 1000) by lia. apply Z.mod_add. lia. }
  rewrite M.
  assert (C : cast 32 (ms / 1000) = ms / 1000).
  { unfold cast. change (32 - 1) with 31. rewrite p31, p32. rewrite Z.mod_small by lia. lia. }
  rewrite C. lia.
Qed.

(* from 19 January 2038 on the seconds are negative *)
Lemma timeofday_late ms : 2147483648000 <= ms < 4294967296000 -> fst (timeofday_win (ms + 11644473600000)) < 0.
Proof.
  intros H. unfold timeofday_win. cbn [fst].
  set (ft := (ms + 11644473600000) * 10000).
  assert (F : 0 <= ft < 2 ^ 64) by (unfold ft; rewrite p64; lia).
  assert (T : u64 (ft mod 2 ^ 32 + u64 (ft / 2 ^ 32 * 2 ^ 32)) = ft).
  { assert (D : 0 <= ft / 2 ^ 32 * 2 ^ 32 <= ft).
    { pose proof (Z.div_pos ft (2 ^ 32) ltac:(lia) ltac:(rewrite p32; lia)). pose proof (Z.mul_div_le ft (2 ^ 32) ltac:(rewrite p32; lia)). rewrite p32 in *. lia. }
    rewrite (u64_id (ft / 2 ^ 32 * 2 ^ 32)) by lia.
    rewrite <- (u64_id ft) at 3 by lia. f_equal. pose proof (Z.div_mod ft (2 ^ 32) ltac:(rewrite p32; lia)). lia. }
  rewrite T.
  assert (E : ft - 116444736000000000 = ms * 10000) by (unfold ft; lia).
  rewrite E, u64_id by (rewrite p64; lia).
  assert (E2 : ms * 10000 / 10000000 = ms / 1000).
  { replace 10000000 with (1000 * 10000) by lia. rewrite Z.div_mul_cancel_r by lia. reflexivity. }
  rewrite E2. pose proof (Z.div_mod ms 1000 ltac:(lia)) as DM. pose proof (Z.mod_pos_bound ms 1000 ltac:(lia)) as MB.
  unfold cast. change (32 - 1) with 31. rewrite p31, p32.
  rewrite (Z.mod_eq _ 4294967296) by lia.
  replace ((ms / 1000 + 2147483648) / 4294967296) with 1; [lia|].
  apply Z.div_unique with (r := ms / 1000 + 2147483648 - 4294967296); lia.
Qed.

Lemma nsec_ok lw s us : 32 <= lw -> 0 <= s -> 0 <= us < 1000000 -> s * 1000000000 + us * 1000 < 18446744073709551616 ->
  nsec lw (Some (s, us)) = Ok (s * 1000000000 + us * 1000).
Proof.
  intros Hl Hs Hu B. unfold nsec.
  assert (P : 2 ^ 31 <= 2 ^ (lw - 1)) by (apply Z.pow_le_mono_r; lia). rewrite p31 in P.
  rewrite signed_ok by lia. cbn [bind]. cbn.
  rewrite (u64_id s) by (rewrite p64; lia). rewrite (u64_id (s * 1000)) by (rewrite p64; lia).
  rewrite (u64_id (s * 1000 * 1000)) by (rewrite p64; lia). rewrite (u64_id (s * 1000 * 1000 * 1000)) by (rewrite p64; lia).
  rewrite (u64_id (us * 1000)) by (rewrite p64; lia). rewrite u64_id by (rewrite p64; lia). f_equal. lia.
Qed.
