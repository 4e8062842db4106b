(* C198: named pipes are found by their names. *)
From Coq Require Import ZArith List Bool Arith.
From Verif Require Import Base NpModel NpProofs.
Import ListNotations.
Local Open Scope nat_scope.

(* the first m - 1 pipes that were made, in a table of m: whether mkfifo succeeded or not *)
Theorem C198_found_partial : forall pre n port m, 2 * length pre < n -> 0 < port -> forall ops x, 0 < m ->
  Forall (fun o => plain pre n (snd o)) ops -> In x (kept m ops) ->
  os_open pre n (made pre n port m ops) x = pre ++ x /\ os_open pre n (made pre n port m ops) (pre ++ x) = pre ++ x.
Proof. exact pipes. Qed.
Print Assumptions C198_found_partial.

(* any other name is itself *)
Theorem C198_other : forall pre n port m, 2 * length pre < n -> 0 < port -> forall ops x, 0 < m ->
  Forall (fun o => plain pre n (snd o)) ops -> fits pre n x -> ~ In x (kept m ops) -> (forall y, In y (kept m ops) -> x <> pre ++ y) ->
  os_open pre n (made pre n port m ops) x = x.
Proof. exact others. Qed.
Print Assumptions C198_other.

Theorem C198_made : forall pre n port b t x, fits pre n x ->
  fst (fst (os_mkfifo pre n port b t x)) = (if b then 0 else -1)%Z /\ snd (fst (os_mkfifo pre n port b t x)) = pre ++ x.
Proof. exact made_as. Qed.
Print Assumptions C198_made.

(* with a full table a pipe is made, and its name opens something else *)
Theorem C198_full_refuted : forall pre n port m, 2 * length pre < n -> 0 < port -> forall ops x, 0 < m -> pre <> [] ->
  Forall (fun o => plain pre n (snd o)) ops -> m - 1 <= length ops -> ~ In x (kept m ops) -> plain pre n x ->
  fst (os_mkfifo pre n port true (made pre n port m ops) x) = (0%Z, pre ++ x) /\
  os_open pre n (snd (os_mkfifo pre n port true (made pre n port m ops) x)) x = x /\ x <> pre ++ x.
Proof. exact full. Qed.
Print Assumptions C198_full_refuted.

(* when mkfifo fails, the name is taken nevertheless *)
Theorem C198_failed_refuted : forall pre n port m, 2 * length pre < n -> 0 < port -> forall ops x, 0 < m -> pre <> [] ->
  Forall (fun o => plain pre n (snd o)) ops -> length ops < m - 1 -> plain pre n x ->
  fst (fst (os_mkfifo pre n port false (made pre n port m ops) x)) = (-1)%Z /\
  os_open pre n (snd (os_mkfifo pre n port false (made pre n port m ops) x)) x = pre ++ x /\ x <> pre ++ x.
Proof. exact failed. Qed.
Print Assumptions C198_failed_refuted.

(* names that are too long are cut, so that different ones are the same pipe *)
Theorem C198_long_refuted : forall pre n port, 2 * length pre < n -> 0 < port -> forall b t x y,
  (exists k, nth_error t (S k) = Some Unused) -> (forall k s, nth_error t k = Some s -> s = Unused) ->
  ~ fits pre n x -> firstn (n - 1 - length pre) y = firstn (n - 1 - length pre) x ->
  let r := os_mkfifo pre n port b t x in
  snd (fst r) = pre ++ firstn (n - 1 - length pre) x /\ os_open pre n (snd r) y = pre ++ firstn (n - 1 - length pre) x.
Proof. exact long_same. Qed.
Print Assumptions C198_long_refuted.

(* tests *)
Definition tmp : text := [47; 116; 109; 112; 47]%Z.
Example ex_found : let t := made tmp 260 3 8 [(true, [65%Z]); (true, [66%Z])] in
  map (os_open tmp 260 t) [[65%Z]; tmp ++ [66%Z]; [67%Z]] = [tmp ++ [65%Z]; tmp ++ [66%Z]; [67%Z]].
Proof. vm_compute. reflexivity. Qed.
Example ex_slots : map used (made tmp 260 3 5 [(true, [65%Z]); (true, [66%Z])]) = [false; true; false; true; false].
Proof. vm_compute. reflexivity. Qed.
Example ex_full : os_open tmp 260 (made tmp 260 3 2 [(true, [65%Z]); (true, [66%Z])]) [66%Z] = [66%Z].
Proof. vm_compute. reflexivity. Qed.
