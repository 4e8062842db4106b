(* C112: the red-black tree that holds the sockets and ports of the poller. *)
Require Import Verif.Base Verif.RbModel Verif.RbProofs.
Require Import List ZArith.
Import ListNotations.
Open Scope Z_scope.

(* every program of additions, removals and searches, whatever the order of the keys, gives the answers of a map from keys to nodes *)
Theorem C112_map : forall f l m rs fuel, spec [] l = Some (m, rs) -> (2 * Nat.log2 (S (length l)) <= fuel)%nat ->
  exists h, rrun fuel (tree_init f) l = Ok (h, rs).
Proof. exact tree_map. Qed.
(* no way down from the root is longer than twice the logarithm; what is reached from the root are the nodes of the map; the root is empty with the map *)
Theorem C112_balanced : forall f l m rs fuel h, spec [] l = Some (m, rs) -> (2 * Nat.log2 (S (length l)) <= fuel)%nat -> rrun fuel (tree_init f) l = Ok (h, rs) ->
  (forall way, walk h (root h) way <> None -> (length way < 2 * Nat.log2 (S (length m)))%nat) /\
  (forall n, (exists way, walk h (root h) way = Some n) <-> used n m = true) /\
  (root h = None <-> m = []).
Proof. exact tree_balanced. Qed.
Print Assumptions C112_map.
Print Assumptions C112_balanced.

Definition rb_ops : list rop :=
  [RAdd 1 10; RAdd 2 20; RAdd 3 30; RAdd 4 40; RAdd 5 50; RAdd 6 20; RFind 30; RDel 2; RFind 20; RAdd 6 20; RFind 20; RDel 4; RDel 1; RDel 3; RFind 50].
Example rb_spec : spec [] rb_ops = Some ([(20, 6%nat); (50, 5%nat)],
  [GAdded true; GAdded true; GAdded true; GAdded true; GAdded true; GAdded false; GFound (Some 3%nat); GDeleted; GFound None; GAdded true; GFound (Some 6%nat); GDeleted; GDeleted; GDeleted; GFound (Some 5%nat)]).
Proof. reflexivity. Qed.
(* five keys in rising order: the root is the second and no way is longer than three *)
Example rb_shape : match rrun 8 (tree_init (fun _ => mkn None None None false 0)) (firstn 5 rb_ops) with
  | Ok (h, _) => root h = Some 2%nat /\ walk h (root h) [SR] = Some 4%nat /\ walk h (root h) [SR; SR] = Some 5%nat /\ walk h (root h) [SR; SR; SR] = None | _ => False end.
Proof. vm_compute. repeat split. Qed.
