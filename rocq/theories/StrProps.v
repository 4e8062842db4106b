(* Properties C06-C10, C15, C16, C61-C64: string helpers. *)
From Verif Require Import Base StrModel StrProofs StrProofs2.

(* C06 *)
Theorem C06_search_finds_first_occurrence : forall text pattern,
  (Z.of_nat (length text) < 2 ^ 31)%Z ->
  (exists i, mempos text pattern = Ok (Z.of_nat i) /\ first_occ pattern text i) \/
  (mempos text pattern = Ok (-1)%Z /\ forall i, ~ occurs pattern text i).
Proof. exact mempos_spec. Qed.
Print Assumptions C06_search_finds_first_occurrence.

Theorem C06_empty_pattern_is_found_at_zero : forall text,
  (Z.of_nat (length text) < 2 ^ 31)%Z -> mempos text [] = Ok 0%Z.
Proof. exact mempos_empty. Qed.
Print Assumptions C06_empty_pattern_is_found_at_zero.

Theorem C06_has_iff_occurs : forall text pattern,
  (Z.of_nat (length text) < 2 ^ 31)%Z ->
  exists b, str_has text pattern = Ok b /\ (b = true <-> exists i, occurs pattern text i).
Proof. exact str_has_spec. Qed.
Print Assumptions C06_has_iff_occurs.

(* the pointer search: next occurrence at or after an offset *)
Theorem C06_pointer_search_finds_next_occurrence : forall hay needle p,
  p <= length hay ->
  exists r, memnstr hay needle p = Ok r /\
    match r with
    | Some q => p <= q /\ occurs needle hay q /\ forall j, p <= j < q -> ~ occurs needle hay j
    | None => forall j, p <= j -> ~ occurs needle hay j
    end.
Proof. exact memnstr_spec. Qed.
Print Assumptions C06_pointer_search_finds_next_occurrence.

Example ex_mempos : mempos [97;97;98;97;97;99]%Z [97;97;99]%Z = Ok 3%Z.
Proof. reflexivity. Qed.
Example ex_memnstr : memnstr [97;97;98;97;97;99]%Z [97;97;99]%Z 1 = Ok (Some 3).
Proof. reflexivity. Qed.

(* C07 *)
Theorem C07_split_parts_and_count : forall delim s,
  delim <> [] -> s <> [] -> nul_free s ->
  exists parts r,
    splits delim s parts /\ str_split delim s = Ok (Some r) /\
    words r = parts /\ snd r = length parts /\
    subcount s delim = Ok (length parts - 1) /\
    join delim parts = s /\ Forall (fun p => forall i, ~ occurs delim p i) parts.
Proof.
  intros d s Hd Hs Hn. destruct (splits_exists d s Hd) as [ps H].
  destruct (str_split_spec d s ps Hd Hs Hn H) as (r & A & B & C).
  exists ps, r. repeat split; auto.
  - exact (subcount_spec s d ps Hd H).
  - exact (splits_join d s ps H).
  - exact (splits_parts d s ps Hd H).
Qed.
Print Assumptions C07_split_parts_and_count.

Theorem C07_split_is_unique : forall delim s ps1 ps2,
  splits delim s ps1 -> splits delim s ps2 -> ps1 = ps2.
Proof. exact splits_det. Qed.
Print Assumptions C07_split_is_unique.

Example ex_split :
  match str_split [44;44]%Z [97;44;44;44;98]%Z with
  | Ok (Some r) => words r = [[97]; [44; 98]]%Z
  | _ => False end.
Proof. reflexivity. Qed.
Example ex_subcount : subcount [97;97;97;97;97]%Z [97;97]%Z = Ok 2.
Proof. reflexivity. Qed.

(* C08 *)
Theorem C08_replace_leftmost_nonoverlapping : forall needle swap s parts,
  needle <> [] -> splits needle s parts ->
  (Z.of_nat (length (join swap parts)) + 1 < 2 ^ 64)%Z ->
  str_swap needle swap s =
  Ok (if Nat.eqb (length parts) 1 then None else Some (join swap parts ++ [0%Z])).
Proof. exact str_swap_spec. Qed.
Print Assumptions C08_replace_leftmost_nonoverlapping.

(* every text has such a decomposition, and joining it with the needle is the text *)
Theorem C08_decomposition_exists : forall needle s,
  needle <> [] -> exists parts, splits needle s parts /\ join needle parts = s.
Proof.
  intros n s H. destruct (splits_exists n s H) as [ps Hp].
  exact (ex_intro _ ps (conj Hp (splits_join _ _ _ Hp))).
Qed.
Print Assumptions C08_decomposition_exists.

Example ex_swap : str_swap [97;97]%Z [98]%Z [97;97;97]%Z = Ok (Some [98;97;0]%Z).
Proof. reflexivity. Qed.
Example ex_swap_empty_needle_loops : str_swap [] [98]%Z [97]%Z = Fuel.
Proof. reflexivity. Qed.

(* C09 *)
Theorem C09_repeat_is_n_copies : forall s n,
  (0 <= n)%Z -> str_repeat s n = Ok (concat (repeat s (Z.to_nat n))).
Proof. exact str_repeat_spec. Qed.
Print Assumptions C09_repeat_is_n_copies.

Theorem C09_negative_count_panics : forall s n, (n < 0)%Z -> str_repeat s n = Exn.
Proof. exact str_repeat_negative. Qed.
Print Assumptions C09_negative_count_panics.

Example ex_repeat : str_repeat [1;2]%Z 5 = Ok [1;2;1;2;1;2;1;2;1;2]%Z.
Proof. reflexivity. Qed.

(* C10 *)
Theorem C10_pad_reaches_width : forall s len pad ty,
  pad <> [] -> (Z.of_nat (length s) < len)%Z ->
  exists left right out,
    str_pad s len pad ty = Ok out /\ out = left ++ s ++ right /\
    Z.of_nat (length out) = len /\
    length left = match ty with
                  | PAD_LEFT => Z.to_nat len - length s
                  | PAD_RIGHT => 0
                  | PAD_BOTH => Nat.div (Z.to_nat len - length s) 2
                  end /\
    (forall i, i < length left -> nth_error left i = Some (nth (Nat.modulo i (length pad)) pad 0%Z)) /\
    (forall i, i < length right -> nth_error right i = Some (nth (Nat.modulo i (length pad)) pad 0%Z)).
Proof.
  intros s len pad ty Hp Hl. pose proof (str_pad_spec s len pad ty Hp Hl) as E. cbv zeta in E.
  set (num := Z.to_nat len - length s) in *.
  assert (HL : left_share ty num <= num) by (destruct ty; unfold left_share; lia).
  eexists _, _, _. split; [exact E|]. split; [reflexivity|].
  rewrite !app_length, !cycle_length.
  split; [lia|]. split; [destruct ty; reflexivity|].
  split; intros i Hi; now apply cycle_nth.
Qed.
Print Assumptions C10_pad_reaches_width.

Theorem C10_wide_enough_is_unchanged : forall s len pad ty,
  (len <= Z.of_nat (length s))%Z -> str_pad s len pad ty = Ok s.
Proof. exact str_pad_short. Qed.
Print Assumptions C10_wide_enough_is_unchanged.

Example ex_pad : str_pad [1;2]%Z 7 [8;9]%Z PAD_BOTH = Ok [8;9;1;2;8;9;8]%Z.
Proof. reflexivity. Qed.

(* C15 *)
Theorem C15_bounded_copy : forall dest src len,
  1 <= len -> len <= length dest ->
  exists dest', str_lcpy dest src len = Ok dest' /\
    length dest' = length dest /\
    dest' = firstn (len - 1) src ++ 0%Z :: skipn (S (length (firstn (len - 1) src))) dest /\
    (nul_free src -> cstr dest' 0 = firstn (len - 1) src) /\
    skipn len dest' = skipn len dest.
Proof.
  intros dest src len H1 H2. eexists. split; [exact (str_lcpy_spec dest src len H1 H2)|].
  split; [|split; [reflexivity|split]].
  - rewrite app_length. cbn [length]. rewrite skipn_length, firstn_length. lia.
  - intros Hn. apply (cstr_app []). rewrite <- (firstn_skipn (len - 1) src) in Hn.
    apply Forall_app in Hn. tauto.
  - apply nth_error_ext. intros i. rewrite !nth_error_skipn.
    rewrite nth_error_app2 by (rewrite firstn_length; lia).
    set (m := length (firstn (len - 1) src)). assert (m <= len - 1) by (unfold m; rewrite firstn_length; lia).
    replace (len + i - m) with (S (len + i - m - 1)) by lia. cbn [nth_error].
    rewrite nth_error_skipn. f_equal; lia.
Qed.
Print Assumptions C15_bounded_copy.

Theorem C15_zero_length_writes_nothing : forall dest src, str_lcpy dest src 0 = Ok dest.
Proof. intros; exact eq_refl. Qed.
Print Assumptions C15_zero_length_writes_nothing.

Example ex_lcpy : str_lcpy [7;7;7;7;7]%Z [1;2;3;4;5;6]%Z 4 = Ok [1;2;3;0;7]%Z.
Proof. reflexivity. Qed.

(* C16 *)
Theorem C16_casecmp_decides_ascii_equality : forall s1 s2,
  Forall is_byte s1 -> Forall is_byte s2 ->
  (Z.of_nat (length s1) < 2 ^ 31)%Z -> (Z.of_nat (length s2) < 2 ^ 31)%Z ->
  exists r, strcasecmp s1 s2 = Ok r /\
    (r = 0%Z <-> map lower s1 = map lower s2) /\
    ((r < 0)%Z <-> lexlt (map lower s1) (map lower s2)) /\
    ((0 < r)%Z <-> lexlt (map lower s2) (map lower s1)).
Proof. exact strcasecmp_spec. Qed.
Print Assumptions C16_casecmp_decides_ascii_equality.

Example ex_casecmp : strcasecmp [72;84;84;80]%Z [104;116;84;112]%Z = Ok 0%Z.
Proof. reflexivity. Qed.

(* C61 *)
Theorem C61_trim_strips_both_ends : forall sp1 core sp2,
  all_space sp1 -> all_space sp2 -> tight core -> nul_free (sp1 ++ core ++ sp2) ->
  exists buf off, trim (sp1 ++ core ++ sp2) = Ok (buf, off) /\ cstr buf off = core.
Proof. exact trim_spec. Qed.
Print Assumptions C61_trim_strips_both_ends.

Theorem C61_every_string_is_blank_or_has_core : forall s, all_space s \/
  exists sp1 core sp2, s = sp1 ++ core ++ sp2 /\ all_space sp1 /\ all_space sp2 /\ tight core.
Proof. exact trim_cases. Qed.
Print Assumptions C61_every_string_is_blank_or_has_core.

Theorem C61_trim_of_blank_reads_before_buffer_refuted : forall s, all_space s -> trim s = UB.
Proof. exact trim_blank. Qed.
Print Assumptions C61_trim_of_blank_reads_before_buffer_refuted.

Example ex_trim : match trim [32;9;97;32;98;32]%Z with
  | Ok (buf, off) => cstr buf off = [97;32;98]%Z | _ => False end.
Proof. reflexivity. Qed.

(* C62 *)
Theorem C62_either_mixes_positions : forall src m1 m2,
  length m1 <= length m2 ->
  exists r, str_has_either src m1 m2 = Ok r /\
    (r = true <-> exists c, c + length m1 <= length src /\
       forall d, d < length m1 ->
         nth_error src (c + d) = nth_error m1 d \/ nth_error src (c + d) = nth_error m2 d).
Proof. exact str_has_either_spec. Qed.
Print Assumptions C62_either_mixes_positions.

(* "ad" contains neither "ab" nor "cd", yet: *)
Theorem C62_either_means_one_of_them_refuted :
  exists src m1 m2, str_has_either src m1 m2 = Ok true /\
    (forall i, ~ occurs m1 src i) /\ (forall i, ~ occurs m2 src i).
Proof.
  exact (ex_intro _ [97;100]%Z (ex_intro _ [97;98]%Z (ex_intro _ [99;100]%Z
    (conj eq_refl (conj (strstr_none [97;98]%Z [97;100]%Z eq_refl)
                        (strstr_none [99;100]%Z [97;100]%Z eq_refl)))))).
Qed.
Print Assumptions C62_either_means_one_of_them_refuted.

(* C63 *)
Theorem C63_argv_join_with_history : forall delim args t k,
  delim <> 0%Z -> args <> [] -> Forall nul_free args -> nul_free t ->
  length (join [delim] args) < k ->
  exists buf', str_cat_argv (t ++ repeat 0%Z k) delim args = Ok buf' /\
    cstr buf' 0 = firstn (length (join [delim] args)) (t ++ join [delim] args).
Proof. exact str_cat_argv_spec. Qed.
Print Assumptions C63_argv_join_with_history.

(* the first call (empty buffer) is right *)
Theorem C63_first_join_is_right : forall delim args k,
  delim <> 0%Z -> args <> [] -> Forall nul_free args ->
  length (join [delim] args) < k ->
  exists buf', str_cat_argv (repeat 0%Z k) delim args = Ok buf' /\
    cstr buf' 0 = join [delim] args.
Proof.
  intros delim args k Hd Hn Ha Hk.
  destruct (str_cat_argv_spec delim args [] k Hd Hn Ha (Forall_nil _) Hk) as (b & E & R).
  exists b. split; auto. rewrite R. exact (firstn_all _).
Qed.
Print Assumptions C63_first_join_is_right.

Theorem C63_second_join_is_right_refuted :
  exists buf, str_cat_argv (repeat 0%Z 12) 32 [[97]; [98]]%Z = Ok buf /\
  exists buf', str_cat_argv buf 32 [[99]; [100]]%Z = Ok buf' /\
    cstr buf' 0 = [97;32;98]%Z /\ cstr buf' 0 <> join [32]%Z [[99]; [100]]%Z.
Proof. exact cat_argv_stale. Qed.
Print Assumptions C63_second_join_is_right_refuted.

(* C64 *)
Theorem C64_bounded_case_equality : forall s1 s2 len,
  Forall is_byte s1 -> Forall is_byte s2 -> nul_free s1 -> nul_free s2 ->
  exists b, str_case_equal s1 s2 len = Ok b /\
    (b = true <-> 0 < len /\ firstn len (map lower s1) = firstn len (map lower s2)).
Proof. exact str_case_equal_spec. Qed.
Print Assumptions C64_bounded_case_equality.
Example ex_case_equal : str_case_equal [72;105;33]%Z [104;73;63]%Z 2 = Ok true /\
  str_case_equal [72;105]%Z [104;73;63]%Z 3 = Ok false.
Proof. split; reflexivity. Qed.
