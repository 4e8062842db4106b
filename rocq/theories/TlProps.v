From Verif Require Import Base TlModel TlProofs.

(* keys that are never deleted: when a thread ends, the destructor of each key with a value in this thread is called
   with that value, once, in the order of creation ([due], [made], [last_set]: from the program's operations alone) *)
Theorem C162_destructors_once_when_a_thread_ends : forall slots l t, fair [] l -> asked l <= slots ->
  calls (run slots (l ++ [End t]) init) = calls (run slots l init) ++ due t (made l) l.
Proof. exact end_calls. Qed.
Print Assumptions C162_destructors_once_when_a_thread_ends.

Theorem C162_destructors_at_no_other_time : forall slots o s, (forall t, o <> End t) -> calls (do_op slots o s) = calls s.
Proof. exact only_ends. Qed.
Print Assumptions C162_destructors_at_no_other_time.

Theorem C162_creation_succeeds_while_slots_last : forall slots l g d, fair [] l -> asked l <= slots ->
  fst (create slots g d (run slots l init)) =
  (match g with Some _ => true | None => false end) && (match d with Some _ => asked l <? slots | None => true end).
Proof. exact create_result. Qed.
Print Assumptions C162_creation_succeeds_while_slots_last.

Example C162_applies : calls (run 1088 [Create (Some 3) (Some 7); Create (Some 5) (Some 8); Create (Some 6) None; Set_ 1 3 30; Set_ 1 6 60;
    Set_ 2 3 31; Set_ 2 5 51; End 1; End 2] init) = [(1, 7, 30); (2, 7, 31); (2, 8, 51)].
Proof. vm_compute. reflexivity. Qed.

(* deleted keys keep their destructors *)
Theorem C163_destructor_called_again_refuted : forall slots n k d t v, n < slots -> v <> 0 ->
  calls (run slots (cycles n k d ++ [Create (Some k) (Some d); Set_ t k v; End t]) init) = repeat (t, d, v) (S n).
Proof. exact called_again. Qed.
Print Assumptions C163_destructor_called_again_refuted.

Theorem C163_destructor_of_a_deleted_key_refuted : forall slots k d e t v, 2 <= slots -> v <> 0 ->
  calls (run slots [Create (Some k) (Some d); Delete k; Create (Some k) (Some e); Set_ t k v; End t] init) = [(t, d, v); (t, e, v)].
Proof. exact wrong_destructor. Qed.
Print Assumptions C163_destructor_of_a_deleted_key_refuted.

Theorem C163_slots_used_up_by_deleted_keys_refuted : forall slots k d g e,
  fst (create slots g (Some e) (run slots (cycles slots k d) init)) = false /\ owned (run slots (cycles slots k d) init) = [].
Proof. exact used_up. Qed.
Print Assumptions C163_slots_used_up_by_deleted_keys_refuted.

Theorem C163_slots_used_up_by_failures_refuted : forall slots d k e,
  fst (create slots (Some k) (Some e) (run slots (repeat (Create None (Some d)) slots) init)) = false.
Proof. exact failures_use_slots. Qed.
Print Assumptions C163_slots_used_up_by_failures_refuted.

(* the allocator makes no key and uses key 0 *)
Theorem C163_value_taken_for_a_heap_refuted : forall t v h s, v <> 0 -> fst (thread_heap t h (set t 0 v s)) = v.
Proof. exact value_taken_for_heap. Qed.
Print Assumptions C163_value_taken_for_a_heap_refuted.

Theorem C163_heap_taken_for_a_value_refuted : forall slots t h d, h <> 0 ->
  get t 0 (snd (thread_heap t h (snd (create slots (Some 0) d init)))) = h.
Proof. exact heap_taken_for_value. Qed.
Print Assumptions C163_heap_taken_for_a_value_refuted.

(* any program *)
Theorem C162_value_is_the_one_stored_since : forall slots l t k, get t k (run slots l init) = reads t k l 0.
Proof. exact (fun slots l t k => run_reads slots l t k init). Qed.
Print Assumptions C162_value_is_the_one_stored_since.

Theorem C162_keys_held : forall slots l k, In k (owned (run slots l init)) <-> holds slots k l false = true.
Proof. exact keys_held. Qed.
Print Assumptions C162_keys_held.

Example C162_keys_apply : holds 1 3 [Create (Some 3) (Some 7)] false = true /\ holds 1 4 [Create (Some 3) (Some 7); Create (Some 4) (Some 8)] false = false /\
  holds 1 3 [Create (Some 3) (Some 7); Delete 3] false = false.
Proof. repeat split. Qed.
