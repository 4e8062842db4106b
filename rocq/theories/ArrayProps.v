(* Claims C01-C05: dynamic arrays. *)
From Verif Require Import Base ArrayModel ArrayProofs.

(* C01 *)
Theorem C01_array_is_sequence :
  forall (A : Type) (b : block A) (l : list A) (os : list (op A)),
    holds b l -> b_type b <> T_TUPLE -> 0 < cap b ->
    exists b', run b os = Ok (b', snd (srun l (map spec_of os)))
               /\ holds b' (fst (srun l (map spec_of os))).
Proof. exact run_refines_sequence. Qed.
Print Assumptions C01_array_is_sequence.

Theorem C01_contents_are_observable :
  forall (A : Type) (b : block A) (l : list A),
    holds b l <-> b_size b = length l /\ b_size b <= cap b /\
                  forall i v, nth_error l i = Some v -> get b i = Ok v.
Proof. exact holds_observable. Qed.
Print Assumptions C01_contents_are_observable.

Theorem C01_new_array_is_empty :
  forall (A : Type) (n : nat), holds (fresh (A:=A) n) [].
Proof. exact fresh_holds. Qed.
Print Assumptions C01_new_array_is_empty.

Theorem C01_copy_is_equal :
  forall (A : Type) (q : nat) (b : block A) (l : list A),
    holds b l -> 0 < q ->
    exists d, copy q b = Ok d /\ holds d l /\ b_type d = b_type b /\ cap d = length l.
Proof. exact copy_spec. Qed.
Print Assumptions C01_copy_is_equal.

Example C01_example :
  run (fresh 1) [OAppend 5; OAppend 6; OAppend 7; ORemove 1; OShift; OPop; OPop]
  = Ok (mkb T_ARRAY 0 [Some 7; Some 7; Some 7; None],
        [None; None; None; None; Some 5; Some 7; None]).
Proof. reflexivity. Qed.

Example C01_hypotheses_hold :
  holds (mkb T_ARRAY 1 [Some 3; None]) [3] /\ T_ARRAY <> T_TUPLE
  /\ 0 < cap (mkb T_ARRAY 1 [Some 3; None]).
Proof. repeat split; try discriminate; cbn; [exists [None]; reflexivity | repeat constructor]. Qed.

(* C02 *)
Theorem C02_append_stays_in_block :
  forall (A : Type) (b : block A) (l : list A) (v : A),
    holds b l -> 0 < cap b -> append b v <> UB.
Proof. exact append_in_bounds. Qed.
Print Assumptions C02_append_stays_in_block.

Theorem C02_zero_capacity_append_refuted :
  forall (A : Type) (b : block A) (v : A),
    b_type b <> T_TUPLE -> cap b = 0 -> append b v = UB.
Proof. exact append_zero_cap. Qed.
Print Assumptions C02_zero_capacity_append_refuted.

Theorem C02_copy_of_empty_then_append_refuted :
  exists (b d : block nat), copy 64 b = Ok d /\ append d 1 = UB.
Proof. exists (fresh 64), (mkb T_ARRAY 0 []). split; reflexivity. Qed.
Print Assumptions C02_copy_of_empty_then_append_refuted.

(* C03 *)
Theorem C03_handle_in_place :
  forall (A : Type) (h : heap A) (a : nat) (b : block A) (l : list A) (vs : list (A * bool)),
    nth_error h a = Some (Some b) -> holds b l -> b_type b <> T_TUPLE -> 0 < cap b ->
    (forall x m, In (x, m) vs -> m = false) ->
    exists h' b', happends h a vs = Ok h' /\ nth_error h' a = Some (Some b')
                  /\ holds b' (l ++ map fst vs).
Proof. exact happends_in_place. Qed.
Print Assumptions C03_handle_in_place.

Theorem C03_handle_survives_growth_refuted :
  exists (h : heap nat) (a : nat) (h' : heap nat),
    happends h a [(1, false); (2, true)] = Ok h' /\ hget h' a = UB
    /\ happend false h' a 3 = UB.
Proof.
  exists [Some (fresh 1)], 0. eexists. repeat split; reflexivity.
Qed.
Print Assumptions C03_handle_survives_growth_refuted.

(* C04 *)
Theorem C04_foreach_visits_all_in_order :
  forall (A : Type) (b : block A) (l : list A),
    holds b l ->
    foreach (fun b i v acc => Ok (b, acc ++ [(i, v)])) (b_size b) b 0 []
    = Ok (b, combine (seq 0 (length l)) l).
Proof. exact foreach_visits. Qed.
Print Assumptions C04_foreach_visits_all_in_order.

Theorem C04_foreach_back_visits_all_in_reverse :
  forall (A : Type) (b : block A) (l : list A),
    holds b l ->
    foreach_back (fun b i v acc => Ok (b, acc ++ [(i, v)])) b []
    = Ok (b, rev (combine (seq 0 (length l)) l)).
Proof. exact foreach_back_visits. Qed.
Print Assumptions C04_foreach_back_visits_all_in_reverse.

Theorem C04_foreach_with_remove_skips :
  forall (A : Type) (p : A -> bool) (b : block A) (l : list A),
    holds b l -> b_type b <> T_TUPLE ->
    exists b', foreach (remove_if p) (b_size b) b 0 [] = Ok (b', fst (skip_visit p l))
               /\ holds b' (snd (skip_visit p l)).
Proof. exact foreach_remove_skips. Qed.
Print Assumptions C04_foreach_with_remove_skips.

Theorem C04_foreach_with_remove_visits_all_refuted :
  exists (b : block nat) (b' : block nat),
    foreach (remove_if (fun _ => true)) (b_size b) b 0 [] = Ok (b', [1; 3])
    /\ holds b [1; 2; 3] /\ holds b' [2].
Proof.
  exists (mkb T_ARRAY 3 [Some 1; Some 2; Some 3]).
  eexists. split; [reflexivity|].
  split; split; cbn; try reflexivity; eexists; reflexivity.
Qed.
Print Assumptions C04_foreach_with_remove_visits_all_refuted.

(* C05 *)
Theorem C05_tuple_is_immutable :
  forall (A : Type) (b : block A) (o : op A),
    match o with OReserve _ => False | _ => True end -> step (tuple b) o = Exn.
Proof. exact tuple_frozen. Qed.
Print Assumptions C05_tuple_is_immutable.

Theorem C05_freezing_keeps_contents :
  forall (A : Type) (b : block A) (l : list A), holds b l -> holds (tuple b) l.
Proof. exact tuple_holds. Qed.
Print Assumptions C05_freezing_keeps_contents.
