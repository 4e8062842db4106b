(* Pseudo descriptors: the table of os_unix.c 55-75, 163-178, 347-360, 392-509, 521.  One thread (the
   file locks of 124-157 are left out).  Fields other than type, descriptor and event descriptor have no
   influence on the table and are left out; so is the path except that freeing it is silent. *)
From Verif Require Import Base.

(* ety: 0 FD_UNUSED; efd: .fd; eev: .event_fd *)
Record ent := { ety : nat; efd : Z; eev : Z }.
(* closed: the numbers passed to close(), oldest first (history) *)
Record fst_ := { tab : list ent; closed : list Z }.

(* events.h 160-175 *)
Definition FD_CHILD := 8.
Definition FD_REG_ASYNC := 9.
Definition FD_PIPE_ASYNC := 11.
Definition FD_MONITOR_ASYNC := 12.
Definition FD_MONITOR_SYNC := 13.

Definition ent0 : ent := {| ety := 0; efd := 0; eev := 0 |}.
Definition fst0 (n : nat) : fst_ := {| tab := repeat ent0 n; closed := [] |}.

(* os_unix.c 64-75; [room] is the longest table the allocator grants: beyond it the table pointer is NULL
   and the next access is undefined *)
Definition grow (room : nat) (t : list ent) : outcome (list ent) :=
  if length t + length t <=? room then Ok (t ++ repeat ent0 (length t)) else UB.
(* os_unix.c 396-397; [act]: the descriptors counted by the loop of the given descriptor, if it has one *)
Fixpoint grows (fuel : nat) (room : nat) (act : option nat) (t : list ent) : outcome (list ent) :=
  match act with
  | None => Ok t
  | Some a => if length t <=? a then match fuel with 0 => Fuel | S f => do t' <- grow room t; grows f room act t' end else Ok t
  end.

Definition free_at (t : list ent) (i : Z) : bool :=
  (0 <=? i)%Z && match nth_error t (Z.to_nat i) with Some e => ety e =? 0 | None => false end.
(* os_unix.c 409-414: first unused from position k *)
Fixpoint first_free (t : list ent) (k : nat) : option nat :=
  match t with [] => None | e :: r => if (0 <? k) && (ety e =? 0) then Some k else first_free r (S k) end.

(* os_unix.c 399-417 *)
Definition pick (t : list ent) (fd des : Z) : option nat :=
  if free_at t des then Some (Z.to_nat des)
  else if (0 <? fd)%Z then if free_at t fd then Some (Z.to_nat fd) else first_free t 0
  else None.

(* os_unix.c 392-457 *)
Definition fd_new (fuel room : nat) (act : option nat) (s : fst_) (ty : nat) (fd des : Z) : outcome (fst_ * Z) :=
  do t <- grows fuel room act (tab s);
  match pick t fd des with
  | None => Ok ({| tab := t; closed := closed s |}, (-1)%Z)
  | Some i => Ok ({| tab := set_nth i {| ety := ty; efd := des; eev := fd |} t; closed := closed s |}, Z.of_nat i)
  end.

(* os_unix.c 459-463 *)
Definition fd_entry (t : list ent) (p : Z) : option (nat * ent) :=
  if (p <? 0)%Z then None else match nth_error t (Z.to_nat p) with Some e => Some (Z.to_nat p, e) | None => None end.
Definition valid (e : ent) : bool := negb (ety e =? 0) && negb (efd e =? -1)%Z.

(* os_unix.c 521 and 174 (no check of the index: outside the table is undefined) *)
Definition fd_set (s : fst_) (p : Z) (v : Z) : outcome fst_ :=
  match fd_entry (tab s) p with
  | None => UB
  | Some (i, e) => Ok {| tab := set_nth i {| ety := ety e; efd := v; eev := eev e |} (tab s); closed := closed s |}
  end.
(* os_unix.c 465-482; [ev]: the descriptor eventfd returned *)
Definition fd_assign (s : fst_) (h p ev : Z) : fst_ * bool :=
  match fd_entry (tab s) p with
  | None => (s, false)
  | Some (i, e) => ({| tab := set_nth i {| ety := ety e; efd := h; eev := ev |} (tab s); closed := closed s |}, true)
  end.
(* os_unix.c 488-509: what is closed *)
Definition free_closes (e : ent) : list Z :=
  if (ety e =? FD_MONITOR_ASYNC) || (ety e =? FD_MONITOR_SYNC) || (ety e =? FD_PIPE_ASYNC) then [] else [eev e].
(* os_unix.c 347-360 *)
Definition fd_close (s : fst_) (p : Z) : fst_ :=
  if (p =? -1)%Z then s
  else match fd_entry (tab s) p with
  | Some (i, e) =>
    if valid e then {| tab := set_nth i {| ety := 0; efd := -1; eev := -1 |} (tab s); closed := closed s ++ free_closes e ++ [efd e] |}
    else {| tab := tab s; closed := closed s ++ [p] |}
  | None => {| tab := tab s; closed := closed s ++ [p] |}
  end.

Inductive fop := FNew (fuel room : nat) (act : option nat) (ty : nat) (fd des : Z) | FSet (p v : Z) | FAssign (h p ev : Z) | FClose (p : Z).
(* the result observed: the handle for FNew, 0 otherwise *)
Definition fstep (s : fst_) (o : fop) : outcome (fst_ * Z) :=
  match o with
  | FNew f r a ty fd des => fd_new f r a s ty fd des
  | FSet p v => do s' <- fd_set s p v; Ok (s', 0%Z)
  | FAssign h p ev => let r := fd_assign s h p ev in Ok (fst r, if snd r then 1 else 0)%Z
  | FClose p => Ok (fd_close s p, 0%Z)
  end.
Fixpoint fsteps (s : fst_) (l : list fop) : outcome (fst_ * list Z) :=
  match l with
  | [] => Ok (s, [])
  | o :: k => do r <- fstep s o; do r2 <- fsteps (fst r) k; Ok (fst r2, snd r :: snd r2)
  end.
