(* Statements for ExceptModel. *)
From Verif Require Import Base ExceptModel ExceptProofs.

(* every program the specification covers: same visible actions in the same order, same ending; afterwards the outermost
   context is current again, so that later blocks start afresh *)
Theorem C40_programs_follow_structured_exceptions : forall n vs c r, sem n None None [] c [] vs = Ok r ->
  exists s', program n vs c = Ok (ending (rexn r), s') /\ tr s' = rtr r /\ vars s' = rv r /\ cur s' = 0.
Proof. exact program_ok. Qed.
Print Assumptions C40_programs_follow_structured_exceptions.
(* any nesting of try/catch/catch_any/finally/throw/rethrow is covered *)
Theorem C40_every_nesting_is_covered : forall n vs c, plain false c = true ->
  sem n None None [] c [] vs = Fuel \/
  exists r s', sem n None None [] c [] vs = Ok r /\ program n vs c = Ok (ending (rexn r), s') /\ tr s' = rtr r.
Proof. exact plain_program. Qed.
Print Assumptions C40_every_nesting_is_covered.
(* throw in a handler: finally, then out; the outer block catches it; its finally runs too *)
Example C40_applies :
  let c := Try (Try (Seq (Do 1) (Throw 7)) [(On 8, Do 2); (On 7, Seq (Do 3) (Throw 9))] (Some (Do 4))) [(On 9, Do 5)] (Some (Do 6)) in
  plain false c = true /\ exists s', program 9 (fun _ => 0) c = Ok (Norm, s') /\ tr s' = [Did 1; Did 3; Did 4; Did 5; Did 6].
Proof. split; [reflexivity|]. eexists. split; vm_compute; reflexivity. Qed.
Example C40_uncaught : exists s', program 9 (fun _ => 0) (Try (Throw 7) [(On 8, Do 2)] (Some (Do 4))) = Ok (Term 7, s') /\ tr s' = [Did 4].
Proof. eexists. split; vm_compute; reflexivity. Qed.

(* a conditional handler that does not accept the exception runs twice and finally does not run *)
Theorem C41_conditional_handler_runs_twice_without_finally_refuted : forall n vs b hs h fin r1 e l r2 r3,
  sem n None None [] b [] vs = Ok r1 -> rexn r1 = Some (e, l) -> find (takes e) hs = Some (Cond, h) ->
  sem n (Some e) (Some e) [] h (rtr r1) (rv r1) = Ok r2 -> rexn r2 = None -> racc r2 = false ->
  sem n (Some e) (Some e) [] h (rtr r2) (rv r2) = Ok r3 -> rexn r3 = None -> racc r3 = false ->
  exists s', program (S n) vs (Try b hs fin) = Ok (Term e, s') /\ tr s' = rtr r3.
Proof. exact cond_twice. Qed.
Print Assumptions C41_conditional_handler_runs_twice_without_finally_refuted.
(* and one that throws has its exception offered to the handlers of its own block *)
Theorem C41_handler_of_the_same_block_takes_it_refuted : forall n vs b hs h fin r1 e l r2 e2 l2 p k r3,
  sem n None None [] b [] vs = Ok r1 -> rexn r1 = Some (e, l) -> find (takes e) hs = Some (Cond, h) ->
  sem n (Some e) (Some e) [] h (rtr r1) (rv r1) = Ok r2 -> rexn r2 = Some (e2, l2) -> racc r2 = false ->
  find (takes e2) hs = Some (p, k) -> p <> Cond ->
  sem n (Some e2) (Some e2) [] k (rtr r2) (rv r2) = Ok r3 -> rexn r3 = None ->
  exists s', program (S n) vs (Try b hs fin) = Ok (Norm, s') /\ tr s' = rtr r3.
Proof. exact cond_sibling. Qed.
Print Assumptions C41_handler_of_the_same_block_takes_it_refuted.
Example C41_twice : exists s', program 9 (fun _ => 0) (Try (Throw 7) [(Cond, Do 2)] (Some (Do 4))) = Ok (Term 7, s') /\ tr s' = [Did 2; Did 2].
Proof. eexists. split; vm_compute; reflexivity. Qed.
(* accepting it by caught is as specified *)
Example C41_accepted : exists s', program 9 (fun _ => 0) (Try (Throw 7) [(Cond, Caught 7 (Do 2) (Do 3))] (Some (Do 4))) = Ok (Norm, s') /\ tr s' = [Did 2; Did 4].
Proof. eexists. split; vm_compute; reflexivity. Qed.
Example C41_sibling : exists s', program 9 (fun _ => 0) (Try (Throw 7) [(On 8, Do 1); (Cond, Throw 8)] (Some (Do 4))) = Ok (Norm, s') /\ tr s' = [Did 1].
Proof. eexists. split; vm_compute; reflexivity. Qed.

(* protected pointers: released innermost first, each once, when the exception leaves *)
Theorem C43_released_innermost_first_partial : forall vs ys e, NoDup ys -> usable vs 0 (rev ys) ->
  exists s', program (S (length ys)) vs (withs ys (Throw e)) = Ok (Term e, s') /\ tr s' = map (fun y => Rel (vs y)) (rev ys).
Proof. exact withs_released. Qed.
Print Assumptions C43_released_innermost_first_partial.
(* what is released in any case *)
Theorem C43_released_exactly : forall vs ys e, NoDup ys ->
  exists s', program (S (length ys)) vs (withs ys (Throw e)) = Ok (Term e, s') /\ tr s' = rels vs (rev ys) 0.
Proof. exact withs_throw. Qed.
Print Assumptions C43_released_exactly.
(* a variable still NULL stops the releases: nothing protected before it is released *)
Theorem C43_null_variable_stops_release_refuted : forall vs a y b e, NoDup (a ++ y :: b) -> vs y = 0 ->
  exists s', program (S (length (a ++ y :: b))) vs (withs (a ++ y :: b) (Throw e)) = Ok (Term e, s') /\ tr s' = rels vs (rev b) 0.
Proof. exact withs_null. Qed.
Print Assumptions C43_null_variable_stops_release_refuted.
Theorem C43_same_pointer_twice_stops_release_refuted : forall vs a y z b e, NoDup (a ++ z :: y :: b) -> vs y = vs z ->
  exists s', program (S (length (a ++ z :: y :: b))) vs (withs (a ++ z :: y :: b) (Throw e)) = Ok (Term e, s') /\ tr s' = rels vs (rev (y :: b)) 0.
Proof. exact withs_dup. Qed.
Print Assumptions C43_same_pointer_twice_stops_release_refuted.
(* protection removed inside a try block that was set up outside: a pointer still in use is released although the exception
   is caught inside, and the one whose protection was removed is released later *)
Theorem C43_removal_across_blocks_refuted : forall a b, exists s', program 8 (two a b) crossing = Ok (Term 8, s') /\ tr s' = [Rel (S a); Did 5; Rel (S b)].
Proof. exact crossing_wrong. Qed.
Print Assumptions C43_removal_across_blocks_refuted.
Example C43_in_blocks : exists s',
  program 20 (fun y => 100 + y) (Try (With 1 (Try (With 2 (With 3 (Seq (Do 1) (Throw 7)))) [(On 9, Do 8)] (Some (Do 2)))) [(Any, Do 3)] None) = Ok (Norm, s') /\
  tr s' = [Did 1; Rel 103; Rel 102; Did 2; Rel 101; Did 3].
Proof. eexists. split; vm_compute; reflexivity. Qed.

(* leaving a try block by break skips finally and leaves a dangling handler *)
Theorem C78_break_skips_finally_refuted : forall n vs hs fin, exists s', program (S (S n)) vs (Try Break hs fin) = Ok (Norm, s') /\ tr s' = [] /\ cur s' = 1.
Proof. exact break_skips. Qed.
Print Assumptions C78_break_skips_finally_refuted.
Theorem C78_next_throw_jumps_to_a_dead_block_refuted : forall n vs hs fin e, program (S (S (S n))) vs (Seq (Try Break hs fin) (Throw e)) = UB.
Proof. exact break_dangles. Qed.
Print Assumptions C78_next_throw_jumps_to_a_dead_block_refuted.

(* memory fenced in a try block: on a throw the pointer stored in its first word is released, not the memory *)
Theorem C80_fenced_memory_in_a_try_block_refuted : forall y w b e k, S w <> b ->
  exists s', program 5 (fun _ => S w) (Try (fenced y (Throw e)) [(Any, Do k)] None) = Ok (Norm, s') /\ tr s' = [Rel (S w); Did k] /\ ~ In (Rel b) (tr s').
Proof. exact fence_in_try. Qed.
Print Assumptions C80_fenced_memory_in_a_try_block_refuted.
