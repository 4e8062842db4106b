(* Task results: events.c 1138-1155, 1651-1668, 1753-1757, 1819-1866.  Ids are natural numbers (the code keeps them in 32
   bits and gives 2^32 - 2 a special meaning, so fewer than that many results); allocation succeeds. *)
From Verif Require Import Base.

Record res := { rready : bool; rterm : bool; rcancel : bool; rval : Z }.
(* table: None is a slot never written.  An empty table stands for NULL. *)
Record rst := { rnext : nat; rtab : list (option res) }.
Definition rst0 : rst := {| rnext := 0; rtab := [] |}.

(* realloc to n slots: the old contents up to n, the rest never written *)
Definition realloc {A} (l : list (option A)) (n : nat) : list (option A) := firstn n l ++ repeat None (n - length l).
Definition slot_of (t : list (option res)) (i : nat) : outcome res := do x <- rd t i; match x with Some r => Ok r | None => UB end.

Section Results.
Variable q : nat.   (* sys_event.queue_size *)
(* 1651-1668: result is the id *)
Definition create_result (s : rst) : outcome (rst * nat) :=
  let id := rnext s in
  let t := if (id mod q =? 0) || (length (rtab s) =? 0) then realloc (rtab s) (id + q) else rtab s in
  do t' <- wr t id (Some {| rready := false; rterm := false; rcancel := false; rval := 0 |});
  Ok ({| rnext := S id; rtab := t' |}, id).
End Results.
(* 1138-1155 for a task with a result; value 0 is NULL *)
Definition finish_result (s : rst) (rid : nat) (v : Z) : outcome rst :=
  do r <- slot_of (rtab s) rid;
  let r1 := if (v =? 0)%Z then r else {| rready := true; rterm := rterm r; rcancel := rcancel r; rval := v |} in
  do t <- wr (rtab s) rid (Some {| rready := rready r1; rterm := true; rcancel := rcancel r1; rval := rval r1 |});
  Ok {| rnext := rnext s; rtab := t |}.
(* 1860-1866 *)
Definition results_for (s : rst) (id : nat) : outcome Z := do r <- slot_of (rtab s) id; Ok (if rready r then rval r else 0%Z).
(* 1846-1849 *)
Definition is_ready (s : rst) (id : nat) : outcome bool := do r <- slot_of (rtab s) id; Ok (rready r || rterm r).
(* 1831-1837: (int)id > 0 excludes id 0 *)
Definition set_canceled (s : rst) (id : nat) : outcome rst :=
  if (0 <? id) && (id <? rnext s) then
    do r <- slot_of (rtab s) id;
    do t <- wr (rtab s) id (Some {| rready := rready r; rterm := rterm r; rcancel := true; rval := rval r |});
    Ok {| rnext := rnext s; rtab := t |}
  else Ok s.
(* 1827-1829 with 1851-1854: the running task's result id, or its own number when it has no result *)
Definition is_canceled (s : rst) (rid : option nat) (cid : nat) : outcome bool :=
  do r <- slot_of (rtab s) (match rid with Some i => i | None => cid end); Ok (rcancel r).

Inductive rop := RCreate | RFinish (id : nat) (v : Z) | RGet (id : nat) | RReady (id : nat) | RCancel (id : nat) | RAsk (id : nat).
Inductive rout := OId (n : nat) | OUnit | OVal (v : Z) | OBool (b : bool).
Definition rstep (q : nat) (s : rst) (o : rop) : outcome (rst * rout) :=
  match o with
  | RCreate => do r <- create_result q s; Ok (fst r, OId (snd r))
  | RFinish id v => do s' <- finish_result s id v; Ok (s', OUnit)
  | RGet id => do v <- results_for s id; Ok (s, OVal v)
  | RReady id => do b <- is_ready s id; Ok (s, OBool b)
  | RCancel id => do s' <- set_canceled s id; Ok (s', OUnit)
  | RAsk id => do b <- is_canceled s (Some id) 0; Ok (s, OBool b)
  end.
Fixpoint rsteps (q : nat) (s : rst) (l : list rop) : outcome (rst * list rout) :=
  match l with
  | [] => Ok (s, [])
  | o :: k => do r <- rstep q s o; do r2 <- rsteps q (fst r) k; Ok (fst r2, snd r :: snd r2)
  end.

(* ---- concurrent creation: the same code, one shared access per step ---- *)
(* tables in memory: contents and whether already freed; table 0 stands for NULL *)
Record tbl := { cells : list (option nat); freed : bool }.
Record cst := { cnext : nat; ccur : nat; cheap : list tbl }.
Inductive cpc := C0 | C1 (id : nat) | C2 (id p : nat) | C3 (id p : nat) | C4 (id p : nat).
(* one step of a thread; the id is reported when its creation completes *)
Definition cstep (q : nat) (s : cst) (c : cpc) : outcome (cst * cpc * option nat) :=
  match c with
  | C0 => Ok ({| cnext := S (cnext s); ccur := ccur s; cheap := cheap s |}, C1 (cnext s), None)
  | C1 id => Ok (s, C2 id (ccur s), None)
  | C2 id p =>
    if (id mod q =? 0) || (p =? 0) then
      do t <- (if p =? 0 then Ok {| cells := []; freed := false |} else rd (cheap s) p);
      if freed t then UB
      else let h := if p =? 0 then cheap s else set_nth p {| cells := cells t; freed := true |} (cheap s) in
           Ok ({| cnext := cnext s; ccur := ccur s; cheap := h ++ [{| cells := realloc (cells t) (id + q); freed := false |}] |}, C3 id (length (cheap s)), None)
    else Ok (s, C3 id p, None)
  | C3 id p =>
    do t <- rd (cheap s) p;
    if freed t then UB
    else do c' <- wr (cells t) id (Some id);
         Ok ({| cnext := cnext s; ccur := ccur s; cheap := set_nth p {| cells := c'; freed := false |} (cheap s) |}, C4 id p, None)
  | C4 id p => Ok ({| cnext := cnext s; ccur := p; cheap := cheap s |}, C0, Some id)
  end.
(* a schedule: which thread moves next *)
Fixpoint csteps (q : nat) (s : cst) (pcs : nat -> cpc) (done : list nat) (sched : list nat) : outcome (cst * (nat -> cpc) * list nat) :=
  match sched with
  | [] => Ok (s, pcs, done)
  | t :: k =>
    do r <- cstep q s (pcs t);
    let '(s', c', o) := r in
    csteps q s' (fun x => if x =? t then c' else pcs x) (match o with Some id => done ++ [id] | None => done end) k
  end.
Definition cst0 : cst := {| cnext := 0; ccur := 0; cheap := [{| cells := []; freed := false |}] |}.
