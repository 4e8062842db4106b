(* Property C11: in-memory sort. *)
From Verif Require Import Base SortModel SortProofs.

Theorem C11_sort_is_ordered_permutation : forall (A : Type) (cmp : A -> A -> Z) data,
  (forall x y, (0 < cmp x y)%Z -> (cmp y x <= 0)%Z) ->
  (forall x y z, (cmp x y <= 0)%Z -> (cmp y z <= 0)%Z -> (cmp x z <= 0)%Z) ->
  exists d, memsort cmp data = Ok d /\ Permutation data d /\
    forall i j x y, i < j -> nth_error d i = Some x -> nth_error d j = Some y -> (cmp x y <= 0)%Z.
Proof. intros A cmp data H1 H2. exact (memsort_correct cmp data (conj H1 H2)). Qed.
Print Assumptions C11_sort_is_ordered_permutation.

(* even with an inconsistent comparison nothing is lost and no access leaves the array *)
Theorem C11_sort_never_loses_elements : forall (A : Type) (cmp : A -> A -> Z) data,
  exists d, memsort cmp data = Ok d /\ Permutation data d.
Proof. intros A; exact memsort_permutation. Qed.
Print Assumptions C11_sort_never_loses_elements.

Theorem C11_short_arrays_untouched : forall (A : Type) (cmp : A -> A -> Z) data,
  length data < 2 -> memsort cmp data = Ok data.
Proof. intros A; exact memsort_short. Qed.
Print Assumptions C11_short_arrays_untouched.

Example ex_sort : memsort Z.sub [5;3;9;1;4;8;2;7;6;0;5;5]%Z = Ok [0;1;2;3;4;5;5;5;6;7;8;9]%Z.
Proof. reflexivity. Qed.
(* not stable: elements equal under the comparison may be exchanged (first component compared) *)
Example ex_sort_not_stable :
  memsort (fun a b => Z.sub (fst a) (fst b))
    [(1, 1); (1, 2); (1, 3); (1, 4); (0, 5); (1, 6); (1, 7); (1, 8)]%Z =
  Ok [(0, 5); (1, 2); (1, 3); (1, 4); (1, 1); (1, 6); (1, 7); (1, 8)]%Z.
Proof. reflexivity. Qed.
