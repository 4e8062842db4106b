(* Fences and trying: except.c 131-146 (ex_protect_ptr, ex_unprotected_ptr), 156-186 (ex_unwind_stack), 484-523 (ex_throw),
   1040-1087 (scope_unwind), 1089-1115 (scope_deferred, fence), 1180-1192 (guard_set), 1220-1237 (trying); arrays.c 334-336. *)
From Verif Require Import Base.
Local Open Scope Z_scope.

(* -- records of protected pointers in one try block --
   A cell: a variable that was protected, or a fenced block.  word: what the cell holds (for a variable the address of the
   memory to be released, for a block its first word).  Records: number 0 is the one record that the scope has for all its
   fences, others belong to variables. *)
Record node := mkNode { next : option nat; valid : bool; cell : nat }.
Record rst := mkRst { nodes : nat -> node; stack : option nat; fresh : nat }.
Definition upd {A} (f : nat -> A) (k : nat) (v : A) : nat -> A := fun j => if Nat.eqb j k then v else f j.

Inductive op := Protect (c : nat) | Fence (c : nat).
(* 131-139, 1105-1115 *)
Definition step (s : rst) (o : op) : rst :=
  match o with
  | Protect c => mkRst (upd (nodes s) (fresh s) (mkNode (stack s) true c)) (Some (fresh s)) (S (fresh s))
  | Fence c => mkRst (upd (nodes s) 0 (mkNode (stack s) true c)) (Some 0%nat) (fresh s)
  end.
Definition block (l : list op) : rst := fold_left step l (mkRst (fun _ => mkNode None false 0) None 1).

(* 334-336 *)
Definition usable (w : Z) : bool := 536870912 <? w.
(* 168-181: the exception leaves the block; result: the addresses given to the release functions.  Releasing the same address
   again is undefined; a release function leaves the cells as they are *)
Fixpoint unwind (fuel : nat) (word : nat -> Z) (ns : nat -> node) (p : option nat) (temp : Z) (out : list Z) : outcome (list Z) :=
  match fuel with
  | O => Fuel
  | S n =>
    match p with
    | None => Ok out
    | Some i =>
      if negb (valid (ns i)) then Ok out
      else
        let w := word (cell (ns i)) in
        if (temp =? w) || negb (usable w) then Ok out
        else if existsb (Z.eqb w) out then UB
        else unwind n word (upd ns i (mkNode (next (ns i)) false (cell (ns i)))) (next (ns i)) w (out ++ [w])
    end
  end.
Definition thrown (word : nat -> Z) (l : list op) : outcome (list Z) :=
  let s := block l in unwind (fresh s + 2) word (nodes s) (stack s) 0 [].

(* -- trying --
   Blocks are numbers.  deferred: the scope's deferred functions, latest first, all of them releases of blocks; None: the
   scope was unwound and its array is gone.  What tryFunc did: Ret, or Throw; what catchFunc returns, if there is one. *)
Inductive ending := Ret (v : Z) | Throw (c : option Z).
Record tst := mkTst {
  freed : list nat;
  deferred : option (list nat);
  value : nat -> Z;
  finals : list (nat * Z) }.                  (* history: block and value given to finalFunc *)

(* scope_unwind *)
Definition scope_unwind (s : tst) : tst :=
  match deferred s with Some d => mkTst (freed s ++ d) None (value s) (finals s) | None => s end.
Definition put (s : tst) (b : nat) (v : Z) : outcome tst :=
  if existsb (Nat.eqb b) (freed s) then UB else Ok (mkTst (freed s) (deferred s) (upd (value s) b v) (finals s)).

(* 1222-1237; b: the block that calloc gives; guarded: in a guard; fin: finalFunc is given.  The value that the caller finds *)
Definition trying (guarded fin : bool) (b : nat) (e : ending) (s : tst) : outcome (Z * tst) :=
  match deferred s with
  | None => UB                                (* $lock of no array (1096) *)
  | Some d =>
    let s1 := mkTst (filter (fun x => negb (Nat.eqb x b)) (freed s)) (Some (b :: d)) (upd (value s) b 0) (finals s) in
    do s2 <- (match e with
              | Ret v => put s1 b v
              | Throw c =>
                (* the fence has set is_protected: in a guard the throw unwinds the guard's scope (1190, 162-163) *)
                let s' := if guarded then scope_unwind s1 else s1 in
                match c with Some v => put s' b v | None => Ok s' end
              end);
    if existsb (Nat.eqb b) (freed s2) then UB  (* finalFunc or the caller reads the block *)
    else
      let v := value s2 b in
      Ok (v, mkTst (freed s2) (deferred s2) (value s2) (if fin then finals s2 ++ [(b, v)] else finals s2))
  end.

Fixpoint all_trying (guarded : bool) (l : list (bool * nat * ending)) (s : tst) (out : list Z) : outcome (list Z * tst) :=
  match l with
  | [] => Ok (out, s)
  | (fin, b, e) :: r => do x <- trying guarded fin b e s; all_trying guarded r (snd x) (out ++ [fst x])
  end.
Definition start : tst := mkTst [] (Some []) (fun _ => 0) [].
