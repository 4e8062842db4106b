From Verif Require Import Base FuModel FuProofs.
#[local] Open Scope Z_scope.

(* ---- C137: futures of threads ---- *)
(* threads of a scope none of which throws: every thrd_get gives what its own thread returned *)
Theorem C137_values : forall r es s aa, (forall i e, r i <> Err e) -> (forall i l, r i = Arr l -> l <> []) -> run r start es = Some (Ok (s, aa)) -> right_gets r es aa.
Proof. exact values_right. Qed.
Theorem C137_defined : forall r es, (forall i l, r i = Arr l -> l <> []) -> run r start es = None \/ exists s aa, run r start es = Some (Ok (s, aa)).
Proof. exact run_safe. Qed.
(* every answer of every run, exactly *)
Theorem C137_answers_partial : forall r es s aa, (forall i l, r i = Arr l -> l <> []) -> run r start es = Some (Ok (s, aa)) -> aa = answers r [] es /\ errn s = errno_of r (rev es).
Proof. exact run_exact. Qed.
(* an error arrives when the thread has exited and no other thread of the scope began or failed since it failed *)
Theorem C137_error_partial : forall r pre i post s aa e, (forall i l, r i = Arr l -> l <> []) -> run r start (pre ++ Get i :: post) = Some (Ok (s, aa)) -> r i = Err e ->
  stage i (rev pre) = 3%nat -> quiet_since r i (rev pre) -> nth_error aa (length pre) = Some (Thrown e).
Proof. exact error_right. Qed.
Theorem C137_errno_partial : forall r pre i s aa en, (forall i l, r i = Arr l -> l <> []) -> run r start (pre ++ [Get i]) = Some (Ok (s, aa)) ->
  r i = Val 18446744073709551615 en -> en <> 0 -> stage i (rev pre) = 3%nat -> errn s = en.
Proof. exact errno_right. Qed.
(* asked between the end of the function and the exit of its thread: no error, 0 instead, and errno ETIMEDOUT *)
Theorem C137_error_missed_refuted : forall r pre i s aa e, (forall i l, r i = Arr l -> l <> []) -> run r start (pre ++ [Get i]) = Some (Ok (s, aa)) -> r i = Err e ->
  stage i (rev pre) = 2%nat -> nth_error aa (length pre) = Some (Returned 0) /\ errn s = 110.
Proof. exact error_early. Qed.
Theorem C137_error_once_refuted : forall r pre i post s aa e, (forall i l, r i = Arr l -> l <> []) -> run r start (pre ++ Get i :: post) = Some (Ok (s, aa)) -> r i = Err e ->
  stage i (rev pre) = 4%nat -> nth_error aa (length pre) = Some (Returned 0).
Proof. exact error_again. Qed.
Theorem C137_error_of_another_refuted : forall r i j e w en, i <> j -> r i = Err e -> r j = Val w en ->
  exists s, run r start [Begin i; Begin j; End j; End i; Exit i; Exit j; Get j] = Some (Ok (s, [Nothing; Nothing; Nothing; Nothing; Nothing; Nothing; Thrown e])).
Proof. exact error_of_other. Qed.
Theorem C137_error_wiped_refuted : forall r i j e, i <> j -> r i = Err e ->
  exists s, run r start [Begin i; End i; Exit i; Begin j; Get i] = Some (Ok (s, [Nothing; Nothing; Nothing; Nothing; Returned 0])).
Proof. exact error_wiped. Qed.
(* thrd_is_done is true from the end of the function until the result is taken, and never again after *)
Theorem C137_done_partial : forall r pre i post s aa, (forall i l, r i = Arr l -> l <> []) -> run r start (pre ++ IsDone i :: post) = Some (Ok (s, aa)) ->
  nth_error aa (length pre) = Some (Done (Nat.eqb (stage i (rev pre)) 2 || Nat.eqb (stage i (rev pre)) 3)).
Proof. exact done_exact. Qed.
Theorem C137_wait_never_ends_refuted : forall r pre i post s aa, (forall i l, r i = Arr l -> l <> []) -> run r start (pre ++ Get i :: post) = Some (Ok (s, aa)) -> stage i (rev pre) = 3%nat ->
  exists a1 a a2, aa = a1 ++ a :: a2 /\ length a1 = length pre /\ Forall2 (fun e a => e = IsDone i -> a = Done false) post a2.
Proof. exact wait_never. Qed.
Theorem C137_rest_of_array_lost_refuted : forall r r' es s aa s' aa', (forall i l, r i = Arr l -> l <> []) -> other_rest r r' ->
  run r start es = Some (Ok (s, aa)) -> run r' start es = Some (Ok (s', aa')) -> aa = aa'.
Proof. exact rest_lost. Qed.
Theorem C137_empty_array_refuted : forall r i, r i = Arr [] -> run r start [Begin i; End i; Get i] = Some UB.
Proof. exact empty_array. Qed.
Example C137_ex : let r := fun i => match i with 0%nat => Val 7 0 | 1%nat => Arr [8; 9] | 2%nat => Err 5 | _ => Val 18446744073709551615 2 end in
  (exists s, run r start [Begin 0; Begin 1; End 1; IsDone 0; Get 1; End 0; Exit 0; IsDone 0; Get 0; IsDone 0; Get 0]%nat =
    Some (Ok (s, [Nothing; Nothing; Nothing; Done false; Returned 8; Nothing; Nothing; Done true; Returned 7; Done false; Returned 7]))) /\
  (exists s, run r start [Begin 2; End 2; Get 2; Exit 2; Get 2; Get 2]%nat = Some (Ok (s, [Nothing; Nothing; Returned 0; Nothing; Thrown 5; Returned 0]))) /\
  (exists s, run r start [Begin 3; End 3; Exit 3; Get 3]%nat = Some (Ok (s, [Nothing; Nothing; Nothing; Returned 18446744073709551615])) /\ errn s = 2) /\
  run r start [Begin 0; Get 0]%nat = None.
Proof. split; [eexists; reflexivity|]. split; [eexists; reflexivity|]. split; [eexists; split; reflexivity|]. reflexivity. Qed.
Print Assumptions C137_values. Print Assumptions C137_defined. Print Assumptions C137_answers_partial. Print Assumptions C137_error_partial. Print Assumptions C137_errno_partial.
Print Assumptions C137_error_missed_refuted. Print Assumptions C137_error_once_refuted. Print Assumptions C137_error_of_another_refuted. Print Assumptions C137_error_wiped_refuted.
Print Assumptions C137_done_partial. Print Assumptions C137_wait_never_ends_refuted. Print Assumptions C137_rest_of_array_lost_refuted. Print Assumptions C137_empty_array_refuted.
