From Verif Require Import Base StrModel StrProofs WcModel WcProofs.
#[local] Open Scope Z_scope.

(* ---- C140: command line and environment of a program started on Windows ---- *)
Theorem C140_line_partial : forall c a, short c a -> nul_free c -> nul_free a -> ~ In 44 c -> ~ named c ->
  cmdline c (Some a) = Ok (c ++ [46; 101; 120; 101] ++ [32] ++ swap1 44 32 a).
Proof. exact line_plain. Qed.
Theorem C140_line_with_extension_partial : forall c a, short c a -> nul_free c -> nul_free a -> ~ In 44 c -> named c ->
  cmdline c (Some a) = Ok (c ++ [32] ++ swap1 44 32 a).
Proof. exact line_named. Qed.
Theorem C140_no_arguments : forall c, (length c <= 255)%nat -> nul_free c -> ~ In 44 c -> named c -> cmdline c None = Ok (c ++ [32]).
Proof. exact line_none. Qed.
(* every line: commas of the name become spaces too *)
Theorem C140_commas_in_name_refuted : forall p c args, program c = Ok p -> nul_free p -> (forall a, args = Some a -> nul_free a) ->
  Z.of_nat (length p) + Z.of_nat (length (match args with None => [] | Some a => a end)) + 2 < 2 ^ 31 ->
  cmdline c args = Ok (swap1 44 32 (p ++ [44] ++ match args with None => [] | Some a => a end)).
Proof. exact cmdline_of. Qed.
(* an argument with a space inside and two arguments give the same line *)
Theorem C140_spaces_in_argument_refuted : forall c a, short c a -> nul_free c -> nul_free a -> ~ In 44 c -> ~ named c ->
  cmdline c (Some a) = cmdline c (Some (swap1 44 32 a)).
Proof. exact line_ambiguous. Qed.
Theorem C140_long_name_refuted : forall c, (259 <= length c)%nat -> Z.of_nat (length c) < 2 ^ 31 -> program c = Ok (firstn 259 c).
Proof. exact name_cut. Qed.
Theorem C140_environment_partial : forall e, nul_free e -> Z.of_nat (length e) < 2 ^ 31 -> In 61 e -> In 59 e -> ~ In [] (pieces 59 e) -> Nat.even (length e) = true ->
  environment (Some e) = Ok (Some (pieces 59 e)).
Proof. exact env_even. Qed.
(* ended by a semicolon (r is empty) all variables arrive; an empty place before hides the rest *)
Theorem C140_environment_empty_place : forall e a r, nul_free e -> Z.of_nat (length e) < 2 ^ 31 -> In 61 e -> In 59 e -> pieces 59 e = a ++ [] :: r -> ~ In [] a ->
  environment (Some e) = Ok (Some a).
Proof. exact env_empty. Qed.
(* a text of odd length not so ended: the block is read past its end *)
Theorem C140_environment_odd_refuted : forall e, nul_free e -> Z.of_nat (length e) < 2 ^ 31 -> In 61 e -> In 59 e -> ~ In [] (pieces 59 e) -> Nat.odd (length e) = true ->
  environment (Some e) = UB.
Proof. exact env_odd. Qed.
(* a single variable is not passed on: the program gets the environment of the starter *)
Theorem C140_single_variable_refuted : forall e, Z.of_nat (length e) < 2 ^ 31 -> ~ In 59 e -> environment (Some e) = Ok None.
Proof. exact env_not_given. Qed.

(* ---- C141: output and end of a program spawned on Windows ---- *)
Theorem C141_output_partial : forall l, alive l -> fits l -> in_step false l -> exists s rest, crun chl0 l = Ok s /\ told s ++ rest = reads l /\ (length rest <= 1)%nat.
Proof. exact intact. Qed.
Theorem C141_lengths : forall l s, fits l -> crun chl0 l = Ok s -> used s = true -> map (@length Z) (told s) ++ posts s = map (@length Z) (reads l).
Proof. exact lengths. Qed.
Theorem C141_overwritten_refuted : forall x a y b, Z.of_nat (length (x :: a)) <= 65536 -> Z.of_nat (length (y :: b)) <= 65536 -> (length (x :: a) <= length (y :: b))%nat ->
  exists s, crun chl0 [Read (x :: a); Read (y :: b); Take; Take] = Ok s /\ told s = [firstn (length (x :: a)) (y :: b); y :: b].
Proof. exact overwritten. Qed.
Theorem C141_end_told_once : forall l s, crun chl0 l = Ok s -> ends s = (if used s then 0 else 1)%nat.
Proof. exact end_told. Qed.
Theorem C141_end_noticed : forall l s, crun chl0 l = Ok s -> exists s', crun s [Wait true] = Ok s' /\ used s' = false /\ ends s' = 1%nat /\ told s' = told s.
Proof. exact end_noticed. Qed.
Theorem C141_last_output_refuted : forall l s s', crun chl0 l = Ok s -> used s = false -> forall k, crun s k = Ok s' -> told s' = told s /\ ends s' = ends s /\ used s' = false.
Proof. exact after_end. Qed.
Theorem C141_read_after_end_refuted : forall l s x b, crun chl0 l = Ok s -> used s = false -> Z.of_nat (length (x :: b)) <= 65536 -> cstep s (Read (x :: b)) = UB.
Proof. exact freed_read. Qed.
Theorem C141_unstarted_refuted : unstarted true true = UB.
Proof. exact unstarted_ub. Qed.

Print Assumptions C140_line_partial.
Print Assumptions C140_line_with_extension_partial.
Print Assumptions C140_no_arguments.
Print Assumptions C140_commas_in_name_refuted.
Print Assumptions C140_spaces_in_argument_refuted.
Print Assumptions C140_long_name_refuted.
Print Assumptions C140_environment_partial.
Print Assumptions C140_environment_empty_place.
Print Assumptions C140_environment_odd_refuted.
Print Assumptions C140_single_variable_refuted.
Print Assumptions C141_output_partial.
Print Assumptions C141_lengths.
Print Assumptions C141_overwritten_refuted.
Print Assumptions C141_end_told_once.
Print Assumptions C141_end_noticed.
Print Assumptions C141_last_output_refuted.
Print Assumptions C141_read_after_end_refuted.
Print Assumptions C141_unstarted_refuted.

(* tests: "ls" with "-a,-l"; the same for a name with ".exe"; "A=1;B=22" and "A=1;B=2" *)
Example line : cmdline [108; 115] (Some [45; 97; 44; 45; 108]) = Ok [108; 115; 46; 101; 120; 101; 32; 45; 97; 32; 45; 108].
Proof. reflexivity. Qed.
Example line_exe : cmdline [108; 46; 101; 120; 101] (Some [97]) = Ok [108; 46; 101; 120; 101; 32; 97].
Proof. reflexivity. Qed.
Example env_8 : environment (Some [65; 61; 49; 59; 66; 61; 50; 50]) = Ok (Some [[65; 61; 49]; [66; 61; 50; 50]]).
Proof. reflexivity. Qed.
Example env_7 : environment (Some [65; 61; 49; 59; 66; 61; 50]) = UB.
Proof. reflexivity. Qed.
Example env_closed : environment (Some [65; 61; 49; 59; 66; 61; 50; 59]) = Ok (Some [[65; 61; 49]; [66; 61; 50]]).
Proof. reflexivity. Qed.
Example steps_ok : in_step false [Read [1; 2]; Take; Read []; Wait false; Read [3]; Take] /\ alive [Read [1; 2]; Take; Read []; Wait false; Read [3]; Take].
Proof. split; [cbn; auto|]. repeat constructor; discriminate. Qed.
