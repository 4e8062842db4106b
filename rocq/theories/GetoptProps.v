(* Command-line flags: the claims. *)
From Coq Require Import String.
From Verif Require Import Base StrModel StrProofs GetoptModel GetoptProofs.

(* C54 *)
Theorem C54_found_partial s f single skipped a tl : enough s -> skipn (index s) (argv s) = skipped ++ a :: tl ->
  Forall arg_ok (argv s) -> Forall (fun b => ~ names single f b /\ ~ help_like b) skipped -> names single f a ->
  exists s' o, getopt_has s (Some f) single = Ok (s', true) /\ opt s' = o /\ gives single a tl o /\
    argv s' = argv s /\ index s' = if ordered s then index s + length skipped + (if single then 1 else 2) else index s.
Proof. exact (getopt_found s f single skipped a tl). Qed.
Theorem C54_not_found s f single : Forall arg_ok (argv s) ->
  ~ enough s \/
  (forall b, In b (skipn (index s) (argv s)) -> ~ names single f b) \/
  (exists skipped a tl, skipn (index s) (argv s) = skipped ++ a :: tl /\ Forall (fun b => ~ names single f b) skipped /\ ~ names single f a /\ help_like a) ->
  getopt_has s (Some f) single = Ok (s, false).
Proof. exact (getopt_not_found s f single). Qed.
Theorem C54_cases_exhaustive s f single :
  (enough s /\ exists skipped a tl, skipn (index s) (argv s) = skipped ++ a :: tl /\ Forall (fun b => ~ names single f b /\ ~ help_like b) skipped /\ names single f a) \/
  (~ enough s \/ (forall b, In b (skipn (index s) (argv s)) -> ~ names single f b) \/
  (exists skipped a tl, skipn (index s) (argv s) = skipped ++ a :: tl /\ Forall (fun b => ~ names single f b) skipped /\ ~ names single f a /\ help_like a)).
Proof. exact (exhaustive s f single). Qed.
Theorem C54_positional s a : enough s -> Forall arg_ok (argv s) -> nth_error (argv s) (index s) = Some a -> forall single,
  getopt_has s None single = Ok (with_found s (Some a) (index s + 1), true).
Proof. exact (getopt_positional s a). Qed.
Theorem C54_last_flag_refuted s f skipped : enough s -> skipn (index s) (argv s) = skipped ++ [f] -> Forall arg_ok (argv s) ->
  Forall (fun b => b <> f /\ ~ help_like b) skipped -> exists s', getopt_has s (Some f) false = Ok (s', true) /\ opt s' = None.
Proof. exact (getopt_last_null s f skipped). Qed.
Theorem C54_value_cut_refuted s f v w : enough s -> skipn (index s) (argv s) = [f ++ EQ ++ v ++ EQ ++ w] -> Forall arg_ok (argv s) ->
  no_eq f -> no_eq v -> exists s', getopt_has s (Some f) true = Ok (s', true) /\ opt s' = Some v.
Proof. exact (getopt_value_cut s f v w). Qed.
Theorem C54_fragment_hides_refuted s f a tl single : Forall arg_ok (argv s) -> skipn (index s) (argv s) = a :: f :: tl -> help_like a ->
  ~ names single f a -> getopt_has s (Some f) single = Ok (s, false).
Proof. exact (getopt_fragment_hides s f a tl single). Qed.
(* the first setting counts; with no more arguments than the minimum nothing is found *)
Theorem C54_first_setting s m o m' o' : set_done s = false ->
  let s1 := message_set s m o in message_set s1 m' o' = s1 /\ required s1 = m /\ ordered s1 = o /\ argv s1 = argv s /\ index s1 = index s /\
  (forall f single, (Z.of_nat (length (argv s)) <= m)%Z -> getopt_has s1 f single = Ok (s1, false)).
Proof. exact (set_first s m o m' o'). Qed.
Theorem C54_help_words t : In t ["-h"; "--h"; "?"; "help"]%string -> help_like (codes t).
Proof. exact (help_words t). Qed.
Print Assumptions C54_first_setting.
Print Assumptions C54_help_words.

Definition ex_args (l : list bytes) : gst := {| argv := [112%Z] :: l; set_done := true; ordered := true; index := 1; required := 1; opt := None |}.
(* prog x -f v : flag -f gives v, next search starts after v *)
Example C54_ex : getopt_has (ex_args [[120]; [45; 102]; [118]]%Z) (Some [45; 102]%Z) false =
  Ok ({| argv := [[112]; [120]; [45; 102]; [118]]%Z; set_done := true; ordered := true; index := 4; required := 1; opt := Some [118]%Z |}, true).
Proof. vm_compute. reflexivity. Qed.
(* prog -f=a=b *)
Example C54_ex_single : getopt_has (ex_args [[45; 102; 61; 97; 61; 98]]%Z) (Some [45; 102]%Z) true =
  Ok ({| argv := [[112]; [45; 102; 61; 97; 61; 98]]%Z; set_done := true; ordered := true; index := 2; required := 1; opt := Some [97]%Z |}, true).
Proof. vm_compute. reflexivity. Qed.
(* prog - -f v : the lone dash hides the flag *)
Example C54_ex_dash : snd (match getopt_has (ex_args [[45]; [45; 102]; [118]]%Z) (Some [45; 102]%Z) false with Ok r => r | _ => (ex_args [], true) end) = false.
Proof. vm_compute. reflexivity. Qed.

Print Assumptions C54_found_partial.
Print Assumptions C54_not_found.
Print Assumptions C54_cases_exhaustive.
Print Assumptions C54_positional.
Print Assumptions C54_last_flag_refuted.
Print Assumptions C54_value_cut_refuted.
Print Assumptions C54_fragment_hides_refuted.
