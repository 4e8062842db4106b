(* events.c 3-26: the intrusive doubly linked lists used for the run queue, the sleep queue and the
   timer list of a loop.  Nodes are numbered; next/prev are the link fields of every node in memory
   (also of nodes in no list); None is NULL. *)
From Verif Require Import Base.

Record dll := { head : option nat; tail : option nat; next : nat -> option nat; prev : nat -> option nat }.

Definition upd {V} (f : nat -> V) (k : nat) (v : V) : nat -> V := fun x => if Nat.eqb x k then v else f x.

Definition set_head (s : dll) v := {| head := v; tail := tail s; next := next s; prev := prev s |}.
Definition set_tail (s : dll) v := {| head := head s; tail := v; next := next s; prev := prev s |}.
Definition set_next (s : dll) k v := {| head := head s; tail := tail s; next := upd (next s) k v; prev := prev s |}.
Definition set_prev (s : dll) k v := {| head := head s; tail := tail s; next := next s; prev := upd (prev s) k v |}.

(* an empty list: memset to zero *)
Definition dll_empty (nx pv : nat -> option nat) : dll := {| head := None; tail := None; next := nx; prev := pv |}.

(* events.c 3-13 dequeue(l, t) *)
Definition dequeue (s : dll) (t : nat) : dll :=
  let s1 := match prev s t with
            | Some p => set_next s p (next s t)
            | None => set_head s (next s t)
            end in
  match next s1 t with
  | Some n => set_prev s1 n (prev s1 t)
  | None => set_tail s1 (prev s1 t)
  end.

(* events.c 15-26 enqueue(l, t) *)
Definition enqueue (s : dll) (t : nat) : dll :=
  let s1 := match tail s with
            | Some x => set_prev (set_next s x (Some t)) t (Some x)
            | None => set_prev (set_head s (Some t)) t None
            end in
  set_next (set_tail s1 (Some t)) t None.

(* events.c 1070-1078 task_dequeue *)
Definition task_dequeue (s : dll) : option nat * dll :=
  match head s with
  | None => (None, s)
  | Some t => (Some t, dequeue s t)
  end.

(* events.c 894-919 and 1363-1388: link [x] in front of node [t], or at the end when t is NULL *)
Definition link_before (s : dll) (x : nat) (t : option nat) : dll :=
  let s1 := match t with
            | Some y => set_next (set_prev s x (prev s y)) x (Some y)
            | None => set_next (set_prev s x (tail s)) x None
            end in
  let s2 := match prev s1 x with
            | Some p => set_next s1 p (Some x)
            | None => set_head s1 (Some x)
            end in
  match next s2 x with
  | Some n => set_prev s2 n (Some x)
  | None => set_tail s2 (Some x)
  end.

(* walking from the head along next, at most [fuel] nodes *)
Fixpoint walk (fuel : nat) (nx : nat -> option nat) (p : option nat) : outcome (list nat) :=
  match p with
  | None => Ok []
  | Some x => match fuel with
              | O => Fuel
              | S k => do r <- walk k nx (nx x); Ok (x :: r)
              end
  end.

(* events.c 892 and 1360: first node (from the head) whose key is not below [when] *)
Fixpoint find_ge (fuel : nat) (nx : nat -> option nat) (key : nat -> Z) (when : Z) (p : option nat) : outcome (option nat) :=
  match p with
  | None => Ok None
  | Some x => if (key x <? when)%Z then
                match fuel with O => Fuel | S k => find_ge k nx key when (nx x) end
              else Ok (Some x)
  end.
