(* Exceptions: include/except.h 62-66, 300-317, 447-450 and src/except.c 131-185 (protection and unwinding), 484-523 (throw),
   877-985 (try, catch, finally, caught, rethrow); the macros expanded, outside guard blocks and scopes, no signals.
   Functions are inlined; commands may consult everything that happened so far. *)
From Verif Require Import Base.

(* what a program visibly does: an action, or a release function called with pointer v *)
Inductive ev := Did (k : nat) | Rel (v : nat).
(* catch(e), catch_any, catch_if *)
Inductive pat := On (e : nat) | Any | Cond.
(* Var x v: assign pointer v (0: unusable) to variable x.  Caught e: if (caught(e)) a else b.  With x a: protected(x, f); a; unprotected(x).
   Break: break out of the enclosing try. *)
Inductive cmd :=
| Do (k : nat) | Var (x v : nat) | Throw (e : nat) | Rethrow | Seq (a b : cmd) | Test (p : list ev -> bool) (a b : cmd) | While (p : list ev -> bool) (a : cmd)
| Caught (e : nat) (a b : cmd) | With (x : nat) (a : cmd) | Protect (x : nat) | Unprotect (x : nat) | Break
| Try (b : cmd) (hs : list (pat * cmd)) (fin : option cmd).

(* a context (ex_context_t): state, exception name, outer context, protected pointers; context 0 is the thread's root *)
Record ctx := { cstate : nat; cex : option nat; cnext : nat; cstack : option nat }.
(* the record protecting variable x (ex_ptr_t): next, and whether its type is DATA_EXCEPT_PROTECTED *)
Record node := { nnext : option nat; nvalid : bool }.
Record st := { ctxs : nat -> ctx; nctx : nat; cur : nat; nodes : nat -> node; nprot : nat; vars : nat -> nat; tr : list ev }.
Definition upd {V} (f : nat -> V) (k : nat) (v : V) : nat -> V := fun x => if Nat.eqb x k then v else f x.
Definition set_ctx (s : st) f c := {| ctxs := upd (ctxs s) f c; nctx := nctx s; cur := cur s; nodes := nodes s; nprot := nprot s; vars := vars s; tr := tr s |}.
Definition set_cur (s : st) f := {| ctxs := ctxs s; nctx := nctx s; cur := f; nodes := nodes s; nprot := nprot s; vars := vars s; tr := tr s |}.
Definition set_state (s : st) f v := set_ctx s f {| cstate := v; cex := cex (ctxs s f); cnext := cnext (ctxs s f); cstack := cstack (ctxs s f) |}.
Definition set_stack (s : st) f v := set_ctx s f {| cstate := cstate (ctxs s f); cex := cex (ctxs s f); cnext := cnext (ctxs s f); cstack := v |}.
Definition did (s : st) (l : list ev) := {| ctxs := ctxs s; nctx := nctx s; cur := cur s; nodes := nodes s; nprot := nprot s; vars := vars s; tr := tr s ++ l |}.
Definition set_var (s : st) x v := {| ctxs := ctxs s; nctx := nctx s; cur := cur s; nodes := nodes s; nprot := nprot s; vars := upd (vars s) x v; tr := tr s |}.

(* how a command ends: normally, by a jump to context f, by break, or by ex_terminate *)
Inductive res := Norm | Jmp (f : nat) | Brk | Term (e : nat).

(* 131-139, with ptr the address of variable x *)
Definition protect (s : st) (x : nat) : st :=
  let f := cur s in
  let s1 := {| ctxs := ctxs s; nctx := nctx s; cur := cur s; nodes := upd (nodes s) x {| nnext := cstack (ctxs s f); nvalid := true |};
               nprot := S (nprot s); vars := vars s; tr := tr s |} in
  set_stack s1 f (Some x).
(* except.h 450 *)
Definition unprotect (s : st) (x : nat) : st := set_stack s (cur s) (nnext (nodes s x)).
(* 168-180: temp is the pointer released before *)
Fixpoint unwind (fuel : nat) (nd : nat -> node) (vs : nat -> nat) (p : option nat) (temp : nat) : outcome (list ev * (nat -> node)) :=
  match p with
  | None => Ok ([], nd)
  | Some x =>
    match fuel with
    | 0 => Fuel
    | S k => if negb (nvalid (nd x)) then Ok ([], nd)
             else if (temp =? vs x) || (vs x =? 0) then Ok ([], nd)
             else do r <- unwind k (upd nd x {| nnext := nnext (nd x); nvalid := false |}) vs (nnext (nd x)) (vs x); Ok (Rel (vs x) :: fst r, snd r)
    end
  end.
(* 484-523: unwind, then terminate in the root context or jump to the current one *)
Definition throw (s : st) (e : nat) : outcome (res * st) :=
  let f := cur s in let c := ctxs s f in
  do r <- unwind (nprot s) (nodes s) (vars s) (cstack c) 0;
  let s1 := {| ctxs := upd (ctxs s) f {| cstate := cstate c; cex := Some e; cnext := cnext c; cstack := None |}; nctx := nctx s; cur := f;
               nodes := snd r; nprot := nprot s; vars := vars s; tr := tr s ++ fst r |} in
  Ok (if f =? 0 then Term e else Jmp f, s1).
(* 937-951: the first catch clause that takes the exception *)
Fixpoint pick (ex : option nat) (hs : list (pat * cmd)) : option (pat * cmd) :=
  match hs with
  | [] => None
  | (On e, h) :: k => if match ex with Some e' => e' =? e | None => false end then Some (On e, h) else pick ex k
  | ph :: _ => Some ph
  end.
(* the if/else chain of one stage (0 try, 1 throw, 2 final): what is run, if anything *)
Definition stage_body (f stage : nat) (b : cmd) (hs : list (pat * cmd)) (fin : option cmd) (s : st) : option (cmd * st) :=
  let c := ctxs s f in
  if (cstate c =? 0) && (stage =? 0) then Some (b, s)
  else match (if cstate c =? 1 then pick (cex c) hs else None) with
       | Some (Cond, h) => Some (h, s)
       | Some (_, h) => Some (h, set_state s f 4)
       | None => match fin with
                 | Some c' => if stage =? 2 then Some (c', set_cur s (cnext c)) else None            (* 953-963 *)
                 | None => None
                 end
       end.
(* 908-921 *)
Definition finish (f : nat) (s : st) : outcome (res * st) :=
  let s1 := if cur s =? f then set_cur s (cnext (ctxs s f)) else s in
  if Nat.odd (cstate (ctxs s1 f)) then match cex (ctxs s1 f) with Some e => throw s1 e | None => UB end
  else Ok (Norm, s1).
(* the for loop of a try block (304-305, 923-935), from the given stages on *)
Fixpoint try_loop (run : cmd -> st -> outcome (res * st)) (f : nat) (b : cmd) (hs : list (pat * cmd)) (fin : option cmd) (stages : list nat) (s : st) : outcome (res * st) :=
  match stages with
  | [] => finish f s
  | g :: k =>
    match stage_body f g b hs fin s with
    | None => try_loop run f b hs fin k s
    | Some (c, s1) =>
      do r <- run c s1;
      match r with
      | (Norm, s2) => try_loop run f b hs fin k s2
      | (Jmp f', s2) => if f' =? f then try_loop run f b hs fin k (set_state s2 f (Nat.lor (cstate (ctxs s2 f)) 1)) else Ok r
      | (Brk, s2) => Ok (Norm, s2)
      | _ => Ok r
      end
    end
  end.
(* try_start 891-906 *)
Definition enter (s : st) : nat * st :=
  let f := nctx s in
  (f, {| ctxs := upd (ctxs s) f {| cstate := 0; cex := None; cnext := cur s; cstack := None |}; nctx := S f; cur := f; nodes := nodes s; nprot := nprot s; vars := vars s; tr := tr s |}).

(* lex: the context of the try block a rethrow is written in *)
Fixpoint exec (fuel lex : nat) (c : cmd) (s : st) : outcome (res * st) :=
  match fuel with
  | 0 => Fuel
  | S n =>
    match c with
    | Do k => Ok (Norm, did s [Did k])
    | Var x v => Ok (Norm, set_var s x v)
    | Throw e => throw s e
    | Rethrow => match cex (ctxs s lex) with Some e => throw s e | None => UB end
    | Seq a b => do r <- exec n lex a s; match r with (Norm, s') => exec n lex b s' | _ => Ok r end
    | Test p a b => if p (tr s) then exec n lex a s else exec n lex b s
    | While p a => if p (tr s) then do r <- exec n lex a s; match r with (Norm, s') => exec n lex (While p a) s' | _ => Ok r end else Ok (Norm, s)
    | Caught e a b =>                                                                           (* 965-985, no scope *)
      if match cex (ctxs s (cur s)) with Some e' => e' =? e | None => false end then exec n lex a (set_state s (cur s) 4) else exec n lex b s
    | With x a => do r <- exec n lex a (protect s x); match r with (Norm, s') => Ok (Norm, unprotect s' x) | _ => Ok r end
    | Protect x => Ok (Norm, protect s x)
    | Unprotect x => Ok (Norm, unprotect s x)
    | Break => Ok (Brk, s)
    | Try b hs fin => let (f, s1) := enter s in try_loop (exec n f) f b hs fin [0; 1; 2] s1
    end
  end.
(* a whole program: a jump to a context that is no longer active is undefined *)
Definition st0 (vs : nat -> nat) : st :=
  {| ctxs := fun _ => {| cstate := 0; cex := None; cnext := 0; cstack := None |}; nctx := 1; cur := 0; nodes := fun _ => {| nnext := None; nvalid := false |}; nprot := 0; vars := vs; tr := [] |}.
Definition program (fuel : nat) (vs : nat -> nat) (c : cmd) : outcome (res * st) :=
  do r <- exec fuel 0 c (st0 vs); match fst r with Jmp _ => UB | _ => Ok r end.

(* p = fence(p, f); a (except.c 1105-1115) outside guards: the protection record gets the address of the block itself where the
   address of a variable is expected; so "variable" y is the first word of the block.  The deferred release of the block at the
   end of the scope is left out; removing the protection when a ends does not matter here. *)
Definition fenced (y : nat) (a : cmd) : cmd := With y a.
