(* C34, C35: task results. *)
From Verif Require Import Base ResultModel ResultProofs.

(* C34 *)
(* every sequence that only uses ids already handed out: no access outside the table or to an unwritten slot,
   ids count 0, 1, 2, ..., answers as in the reference *)
Theorem C34_results_refine q l s rs : 0 < q -> spec_rsteps [] l = Some (s, rs) -> exists m, rsteps q rst0 l = Ok (m, rs).
Proof. exact (results_refine q l s rs). Qed.
Print Assumptions C34_results_refine.
(* created as id i, finished with v: whatever happens before, between and after, asking gives v *)
Theorem C34_value_from_then_on q pre mid post : 0 < q -> forall v s rs, (v <> 0)%Z ->
  let i := length (filter (fun o => match o with RCreate => true | _ => false end) pre) in
  (forall w, ~ In (RFinish i w) (mid ++ post)) ->
  spec_rsteps [] (pre ++ RCreate :: mid ++ RFinish i v :: post ++ [RGet i]) = Some (s, rs) ->
  exists m out, rsteps q rst0 (pre ++ RCreate :: mid ++ RFinish i v :: post ++ [RGet i]) = Ok (m, out) /\
    nth_error out (length pre) = Some (OId i) /\ last out OUnit = OVal v.
Proof. exact (value_from_then_on q pre mid post). Qed.
Print Assumptions C34_value_from_then_on.
(* the first result can never be cancelled *)
Theorem C34_first_cancel_refuted q : 0 < q -> exists m, rsteps q rst0 [RCreate; RCancel 0; RAsk 0] = Ok (m, [OId 0; OUnit; OBool false]).
Proof. exact (first_not_cancelled q). Qed.
Print Assumptions C34_first_cancel_refuted.
(* a task without a result that asks whether it was cancelled reads the slot of its own number, outside the table if that is large *)
Theorem C34_canceled_without_result_refuted q m cid : 0 < q -> length (rtab m) <= cid -> is_canceled m None cid = UB.
Proof. exact (wrong_slot_ub q m cid). Qed.
Print Assumptions C34_canceled_without_result_refuted.
Example C34_ex : exists m, rsteps 2 rst0 [RCreate; RCreate; RGet 1; RFinish 0 (7)%Z; RCreate; RCancel 2; RAsk 2; RGet 0; RReady 1; RFinish 1 0; RReady 1; RGet 1; RCreate; RCreate; RGet 0] =
  Ok (m, [OId 0; OId 1; OVal 0%Z; OUnit; OId 2; OUnit; OBool true; OVal 7%Z; OBool false; OUnit; OBool true; OVal 0%Z; OId 3; OId 4; OVal 7%Z]).
Proof. eexists. vm_compute. reflexivity. Qed.

(* C35 *)
(* ids are distinct whatever the schedule *)
Theorem C35_distinct_ids q sched s pcs done : csteps q cst0 (fun _ => C0) [] sched = Ok (s, pcs, done) -> NoDup done /\ forall i, In i done -> i < cnext s.
Proof. exact (distinct_ids q sched s pcs done). Qed.
Print Assumptions C35_distinct_ids.
(* any number of threads and any schedule: nothing is lost until the id that opens the next block is due *)
Theorem C35_within_block_partial q s sched : 0 < q -> 0 < cnext s -> quiet q s ->
  exists k s' pcs done, csteps q s (fun _ => C0) [] (firstn k sched) = Ok (s', pcs, done) /\
    (forall i, i < cnext s -> found s' i) /\ (forall i, In i done -> cnext s <= i < cnext s' /\ found s' i) /\
    (k = length sched \/ cnext s' mod q = 0 /\ exists x, nth_error sched k = Some x /\ pcs x = C0).
Proof. exact (block_creation q s sched). Qed.
Print Assumptions C35_within_block_partial.
(* one thread alone: any number of results, all found *)
Theorem C35_alone_partial q n : 0 < q -> exists s pcs, csteps q cst0 (fun _ => C0) [] (turns n) = Ok (s, pcs, seq 0 n) /\ quiet q s /\ cnext s = n /\ (forall i, i < n -> found s i).
Proof. exact (alone_n q n). Qed.
Print Assumptions C35_alone_partial.
(* at every block boundary two threads suffice for a write into freed memory, ... *)
Theorem C35_use_after_free_refuted q b : 1 < q -> 0 < b -> csteps q cst0 (fun _ => C0) [] (turns (b * q - 1) ++ [0; 0; 0; 1; 1; 1; 0]) = UB.
Proof. exact (use_after_free q b). Qed.
Print Assumptions C35_use_after_free_refuted.
(* ... a write past the end of the table, ... *)
Theorem C35_past_end_refuted q b : 1 < q -> 0 < b -> csteps q cst0 (fun _ => C0) [] (turns (b * q) ++ [0; 1; 1; 1; 1]) = UB.
Proof. exact (past_end q b). Qed.
Print Assumptions C35_past_end_refuted.
(* ... or a run in which both creations succeed and every result ever created is gone *)
Theorem C35_lost_refuted q b : 1 < q -> 0 < b -> exists s pcs done, csteps q cst0 (fun _ => C0) [] (turns (b * q - 1) ++ [0; 0; 0; 0; 1; 1; 1; 1; 1; 0]) = Ok (s, pcs, done) /\
  length done = b * q + 1 /\ forall i, ~ found s i.
Proof. exact (lost q b). Qed.
Print Assumptions C35_lost_refuted.
Example C35_ex : exists s p, csteps 4 cst0 (fun _ => C0) [] (turns 1 ++ [0; 1; 0; 1; 1; 1; 0; 0; 1; 0]) = Ok (s, p, [0; 2; 1]) /\ found s 0 /\ found s 1 /\ found s 2.
Proof. do 2 eexists. split; [vm_compute; reflexivity|]. split; [|split]; eexists; vm_compute; auto. Qed.
