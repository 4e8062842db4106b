From Verif Require Import Base FcModel FcProofs.
Local Open Scope Z_scope.

(* An exception leaves a try block in which variables were protected and memory fenced: what each protected variable or
   fenced block holds is released, latest first, if there is at most one fence *)
Theorem C182_all_released_partial : forall word l, (fences l <= 1)%nat -> Forall (fun o => usable (word (cell_of o)) = true) l -> NoDup (map (fun o => word (cell_of o)) l) ->
  thrown word l = Ok (map (fun o => word (cell_of o)) (rev l)).
Proof. exact thrown_all. Qed.
Print Assumptions C182_all_released_partial.

(* exactly what is released, for any number of fences: from the latest back to the last fence but one, which is left out *)
Theorem C182_what_is_released_partial : forall word l, Forall (fun o => usable (word (cell_of o)) = true) l -> NoDup (map (fun o => word (cell_of o)) (visit (rev l))) ->
  thrown word l = Ok (map (fun o => word (cell_of o)) (visit (rev l))).
Proof. exact thrown_eq. Qed.
Print Assumptions C182_what_is_released_partial.

(* two fences: nothing protected before the first of them is released *)
Theorem C182_two_fences_refuted : forall word a c b d, Forall (fun o => usable (word (cell_of o)) = true) (a ++ Fence c :: b ++ [Fence d]) -> fences b = 0%nat ->
  NoDup (map (fun o => word (cell_of o)) (a ++ Fence c :: b ++ [Fence d])) ->
  exists out, thrown word (a ++ Fence c :: b ++ [Fence d]) = Ok out /\ out = word d :: map (fun o => word (cell_of o)) (rev b) /\
    forall o, In o a -> ~ In (word (cell_of o)) out.
Proof. exact thrown_lost. Qed.
Print Assumptions C182_two_fences_refuted.

Example C182_applies : let w (c : nat) := 2 ^ 30 + Z.of_nat c in
  thrown w [Protect 1; Fence 2; Protect 3] = Ok [w 3%nat; w 2%nat; w 1%nat] /\
  thrown w [Protect 1; Fence 2; Protect 3; Fence 4; Protect 5] = Ok [w 5%nat; w 4%nat; w 3%nat] /\
  thrown (fun c => if Nat.eqb c 2 then 7 else w c) [Protect 1; Protect 2; Protect 3] = Ok [w 3%nat].
Proof. repeat split; vm_compute; reflexivity. Qed.

(* Calls of trying in a row (finalFunc given or not, block, what tryFunc did), outside guards or without exceptions: each
   returns what tryFunc returned, or what catchFunc returned, or 0; finalFunc is called once with that; values are kept to the
   end of the scope, where each block is released once, latest first *)
Theorem C183_trying_partial : forall guarded l, guarded = false \/ Forall (fun x => throws (snd x) = false) l -> NoDup (map blk l) ->
  exists s', all_trying guarded l start [] = Ok (map (fun x => result (snd x)) l, s') /\
    (forall x, In x l -> value s' (blk x) = result (snd x)) /\
    finals s' = map (fun x => (blk x, result (snd x))) (filter (fun x => fst (fst x)) l) /\
    freed s' = [] /\ freed (scope_unwind s') = rev (map blk l).
Proof. exact trying_right. Qed.
Print Assumptions C183_trying_partial.

(* in a guard, an exception: the value is released before it is written or read *)
Theorem C183_in_a_guard_refuted : forall fin b c s, trying true fin b (Throw c) s = UB.
Proof. exact trying_guarded. Qed.
Print Assumptions C183_in_a_guard_refuted.

(* an exception that leaves the enclosing try block after a trying: what trying returned is released (its block is fenced,
   and holds it) *)
Theorem C183_returned_value_released_refuted : forall word a c, Forall (fun o => usable (word (cell_of o)) = true) (a ++ [Fence c]) ->
  NoDup (map (fun o => word (cell_of o)) (a ++ [Fence c])) -> exists r, thrown word (a ++ [Fence c]) = Ok (word c :: r).
Proof. exact trying_value_released. Qed.
Print Assumptions C183_returned_value_released_refuted.

Example C183_applies : exists s', all_trying false [(true, 1%nat, Ret 5); (false, 2%nat, Throw None); (true, 3%nat, Throw (Some 8))] start [] = Ok ([5; 0; 8], s') /\
  finals s' = [(1%nat, 5); (3%nat, 8)] /\ freed (scope_unwind s') = [3; 2; 1]%nat.
Proof. eexists. split; [cbv; reflexivity|]. split; reflexivity. Qed.

(* the smallest word that is taken for an address *)
Example C182_usable : usable 536870912 = false /\ usable 536870913 = true.
Proof. split; reflexivity. Qed.
