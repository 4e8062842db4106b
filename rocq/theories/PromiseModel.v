(* Promises and job queues: future.c 19-72 (promise_get, promise_set, promise_wait), 241-279 (enqueue_promise,
   queue_work_handler), 389-452 (queue_is_valid, queue_wait, queue_get); events.c 2625-2669 (__future_wrapper).
   Shared accesses are sequentially consistent (the flags are seq_cst; the lock is a spin lock). *)
From Verif Require Import Base WaitModel.

(* ---- one promise, any number of threads ---- *)
(* A returned word: NULL, an integer at most 0x20000000 (or negative), an array of the library, or anything else above
   0x20000000, for which is_data (arrays.c 325-336) reads an array header in front of it. *)
Inductive word := WNull | WInt (z : Z) | WArr (l : list Z) | WOther (z : Z).
(* what a reader gets: is_array and the value (a copied tuple for an array) *)
Inductive got := GWord (w : word) | GTuple (l : list Z).
Record pst := { plock : bool; pval : got; pdone : bool; pfreed : bool }.
Definition pst0 : pst := {| plock := false; pval := GWord (WInt 0); pdone := false; pfreed := false |}.
(* setter: S0 lock; S1 write; S2 unlock; S3 set done (42-57); S4 read worker->args (events.c 2649).
   waiter: W0 poll done; W1 read the value; W2 with [own] free the promise when its scope ends (queue_get's defer_free, 437, 445). *)
Inductive ppc := S0 (w : word) | S1 (w : word) | S2 (w : word) | S3 (w : word) | S4 | SEnd | W0 (own : bool) | W1 (own : bool) | W2 (own : bool) (r : got) | WEnd (r : got).
Definition pset (s : pst) (l : bool) (v : got) (d : bool) : pst := {| plock := l; pval := v; pdone := d; pfreed := pfreed s |}.
Definition pstep (s : pst) (c : ppc) : outcome (pst * ppc) :=
  match c with
  | SEnd | WEnd _ => Ok (s, c)
  | _ =>
    if pfreed s then UB
    else match c with
         | S0 w => if plock s then Ok (s, c) else Ok (pset s true (pval s) (pdone s), S1 w)
         | S1 w => match w with
                   | WNull => Ok (s, S2 w)
                   | WInt z => Ok (pset s (plock s) (GWord w) (pdone s), S2 w)
                   | WArr l => Ok (pset s (plock s) (GTuple l) (pdone s), S2 w)
                   | WOther z => UB
                   end
         | S2 w => Ok (pset s false (pval s) (pdone s), S3 w)
         | S3 w => Ok (pset s (plock s) (pval s) true, S4)
         | S4 => Ok (s, SEnd)
         | W0 own => Ok (s, if pdone s then W1 own else W0 own)
         | W1 own => Ok (s, W2 own (pval s))
         | W2 own r => Ok (if own then {| plock := plock s; pval := pval s; pdone := pdone s; pfreed := true |} else s, WEnd r)
         | _ => Ok (s, c)
         end
  end.
Fixpoint prun (s : pst) (pcs : nat -> ppc) (sched : list nat) : outcome (pst * (nat -> ppc)) :=
  match sched with
  | [] => Ok (s, pcs)
  | t :: k => do r <- pstep s (pcs t); prun (fst r) (fun x => if x =? t then snd r else pcs x) k
  end.

(* ---- a worker's job queue ---- *)
(* The jobs array is doubled when full; realloc may move it (oracle), and the queue keeps the old address (C03).
   Submitter: J0 next job; J1 lock; J2 append; J3 unlock; J4 available + 1.  Worker: K0 available > 0?; K1 available - 1; K2 lock; K3 shift; K4 unlock and run.
   A job not in the queue would be NULL, on which promise_set (events.c 2647) dereferences NULL. *)
Inductive jpc := J0 (todo : list nat) | J1 (j : nat) (todo : list nat) | J2 (j : nat) (todo : list nat) | J3 (todo : list nat) | J4 (todo : list nat)
  | K0 | K1 | K2 | K3 | K4 (j : nat).
Record jst := { jq : list nat; jcap : nat; jdangling : bool; javail : nat; jlock : bool; jsub : list nat; jran : list nat }.
Definition jstep (moved : bool) (s : jst) (c : jpc) : outcome (jst * jpc) :=
  match c with
  | J0 [] => Ok (s, c)
  | J0 (j :: r) => Ok (s, J1 j r)
  | J1 j r => if jlock s then Ok (s, c) else Ok ({| jq := jq s; jcap := jcap s; jdangling := jdangling s; javail := javail s; jlock := true; jsub := jsub s; jran := jran s |}, J2 j r)
  | J2 j r =>
    if jdangling s then UB
    else let full := jcap s <=? length (jq s) in
         Ok ({| jq := jq s ++ [j]; jcap := if full then 2 * jcap s else jcap s; jdangling := full && moved; javail := javail s; jlock := jlock s; jsub := jsub s ++ [j]; jran := jran s |}, J3 r)
  | J3 r => Ok ({| jq := jq s; jcap := jcap s; jdangling := jdangling s; javail := javail s; jlock := false; jsub := jsub s; jran := jran s |}, J4 r)
  | J4 r => Ok ({| jq := jq s; jcap := jcap s; jdangling := jdangling s; javail := S (javail s); jlock := jlock s; jsub := jsub s; jran := jran s |}, J0 r)
  | K0 => Ok (s, if 0 <? javail s then K1 else K0)
  | K1 => Ok ({| jq := jq s; jcap := jcap s; jdangling := jdangling s; javail := javail s - 1; jlock := jlock s; jsub := jsub s; jran := jran s |}, K2)
  | K2 => if jlock s then Ok (s, c) else Ok ({| jq := jq s; jcap := jcap s; jdangling := jdangling s; javail := javail s; jlock := true; jsub := jsub s; jran := jran s |}, K3)
  | K3 =>
    if jdangling s then UB
    else match jq s with
         | [] => UB
         | j :: r => Ok ({| jq := r; jcap := jcap s; jdangling := false; javail := javail s; jlock := jlock s; jsub := jsub s; jran := jran s |}, K4 j)
         end
  | K4 j => Ok ({| jq := jq s; jcap := jcap s; jdangling := jdangling s; javail := javail s; jlock := false; jsub := jsub s; jran := jran s ++ [j] |}, K0)
  end.
(* schedule entries: thread and whether a realloc in this step moves the block *)
Fixpoint jrun (s : jst) (pcs : nat -> jpc) (sched : list (nat * bool)) : outcome (jst * (nat -> jpc)) :=
  match sched with
  | [] => Ok (s, pcs)
  | (t, m) :: k => do r <- jstep m s (pcs t); jrun (fst r) (fun x => if x =? t then snd r else pcs x) k
  end.
Definition jst0 (cap : nat) : jst := {| jq := []; jcap := cap; jdangling := false; javail := 0; jlock := false; jsub := []; jran := [] |}.

(* ---- collecting ---- *)
(* is_array: 0 value, 1 tuple, -1 collected.  value: what collecting gives. *)
Record job := { jarr : Z; jvalue : Z }.
(* queue_get (422-452) of a completed job, with the pointers put on the scope's list of things to free *)
Definition queue_get (j : job) : outcome (job * Z) :=
  if (jarr j =? 1)%Z || (jarr j =? 0)%Z then Ok ({| jarr := -1; jvalue := jvalue j |}, jvalue j) else Exn.
(* queue_wait (393-420): the loop of WaitModel, then per removed job: the continuation is called unless already collected, and the
   job is put on the list of things to free.  State: which jobs are collected. *)
Fixpoint thens (coll : nat -> bool) (l : list nat) : (nat -> bool) * list nat * list nat :=
  match l with
  | [] => (coll, [], [])
  | j :: r => let '(c, calls, frees) := thens (fun x => if x =? j then true else coll x) r in
              (c, (if coll j then calls else j :: calls), j :: frees)
  end.
Definition queue_wait (done : nat -> nat -> bool) (fuel : nat) (coll : nat -> bool) (work : list nat) : outcome (list (nat * nat) * list nat * list nat) :=
  do r <- wait_loop done 0 1 1 fuel 0 0 work [];
  let '(_, calls, frees) := thens coll (map fst (snd r)) in Ok (snd r, calls, frees).
(* programs of one scope over completed jobs: collect by get or by wait; the scope then frees everything on its list,
   freeing a pointer twice is undefined *)
Inductive cop := QGet (j : nat) | QWait (l : list nat).
Fixpoint cops (coll : nat -> bool) (frees : list nat) (l : list cop) : outcome (list nat) :=
  match l with
  | [] => Ok frees
  | QGet j :: k => if coll j then Exn else cops (fun x => if x =? j then true else coll x) (frees ++ [j]) k
  | QWait w :: k => do r <- queue_wait (fun _ _ => true) (2 + 3 * length w) coll w; cops (fun x => coll x || existsb (Nat.eqb x) w) (frees ++ snd r) k
  end.
Definition scope_run (l : list cop) : outcome unit := do f <- cops (fun _ => false) [] l; if Nat.eqb (length (nodup Nat.eq_dec f)) (length f) then Ok tt else UB.
