(* Deferred functions: except.c 1043-1103 (scope_unwind, scope_deferred), events.c 1102-1130 (deferred_unwind, the same for a
   task), arrays.h 419-421 (foreach_back).  Items other than deferred functions are left out. *)
From Verif Require Import Base.

(* the record of a deferred function: pending, marked invalid before its call, freed after it *)
Inductive istate := Fresh | Invalid | Freed.
(* what function k does: defers further functions, then may throw *)
Record fn := { defers : list nat; throws : bool }.
Record item := { func : nat; ist : istate }.
(* the array (None: scope->defer_arr is NULL), its room, and whether it moved since the unwinding began *)
Record dst := { arr : option (list item); room : nat; moved : bool; ran : list nat }.
Definition setarr (s : dst) l := {| arr := Some l; room := room s; moved := moved s; ran := ran s |}.

(* $append: beyond the room the array is reallocated to twice the room; it may move *)
Definition append (s : dst) (k : nat) : outcome dst :=
  match arr s with
  | None => UB
  | Some l => let full := room s <=? length l in
              Ok {| arr := Some (l ++ [{| func := k; ist := Fresh |}]); room := if full then room s + room s else room s; moved := moved s || full; ran := ran s |}
  end.
Fixpoint appends (s : dst) (ks : list nat) : outcome dst := match ks with [] => Ok s | k :: r => do s' <- append s k; appends s' r end.
Definition setst (l : list item) (i : nat) (v : istate) : list item := match nth_error l i with Some it => set_nth i {| func := func it; ist := v |} l | None => l end.

(* one unwinding, from index i - 1 down; stale: the array pointer was copied before (deferred_unwind), not re-read (scope_unwind).
   true: completed; false: a function threw *)
Fixpoint unwind (stale : bool) (fs : nat -> fn) (i : nat) (s : dst) : outcome (bool * dst) :=
  match i with
  | 0 => if stale && moved s then UB                                                                  (* $delete *)
         else Ok (true, {| arr := None; room := room s; moved := false; ran := ran s |})
  | S j =>
    if stale && moved s then UB else
    match arr s with
    | None => UB
    | Some l =>
      match nth_error l j with
      | None => UB
      | Some it =>
        match ist it with
        | Freed => UB                                                                                 (* data_type reads the record *)
        | Invalid => unwind stale fs j (setarr s (setst l j Freed))                                    (* events_free *)
        | Fresh =>
          let s1 := setarr s (setst l j Invalid) in
          let s2 := {| arr := arr s1; room := room s1; moved := moved s1; ran := ran s1 ++ [func it] |} in
          do s3 <- appends s2 (defers (fs (func it)));
          if throws (fs (func it)) then Ok (false, s3)
          else match arr s3 with Some l3 => unwind stale fs j (setarr s3 (setst l3 j Freed)) | None => UB end
        end
      end
    end
  end.
(* unwinding a scope (nothing is done without an array) or a task's garbage *)
Definition unwinding (stale : bool) (fs : nat -> fn) (s : dst) : outcome (bool * dst) :=
  match arr s with
  | None => Ok (true, s)
  | Some l => unwind stale fs (length l) {| arr := Some l; room := room s; moved := false; ran := ran s |}
  end.
Definition scope0 (n : nat) : dst := {| arr := Some []; room := n; moved := false; ran := [] |}.

(* ---- guard { ... } guarded (except.h 332-351, except.c 1117-1213) ----
   block: the ex_guard_t, freed by guard_reset; state: of the try block it expands to (see ExceptModel) *)
Record gst := { gfreed : bool; gd : dst; gstate : nat }.
(* rec k: function k calls guard_caught with the current exception, which marks it handled (1172-1188) *)
Definition recovered (rec : nat -> bool) (before after : dst) (st : nat) : nat :=
  if existsb rec (skipn (length (ran before)) (ran after)) then 4 else st.
(* 1203-1222: the first thing read is block->type *)
Definition guard_reset (fs : nat -> fn) (rec : nat -> bool) (s : gst) : outcome gst :=
  if gfreed s then UB
  else do r <- unwinding false fs (gd s);
       if fst r then Ok {| gfreed := true; gd := snd r; gstate := if gstate s =? 0 then 0 else recovered rec (gd s) (snd r) (gstate s) |}
       else Exn.                                                                                       (* a throwing deferred function: not followed *)
Inductive gend := Through | Out.
(* fenced: memory was fenced in the block, so that ex_throw unwinds the scope itself (1190-1201, 156-164) before jumping.
   thrown: the body throws.  Result: Through = execution continues after the block, Out = the exception is thrown on *)
Definition guard_block (fenced : bool) (fs : nat -> fn) (rec : nat -> bool) (s : gst) (thrown : bool) : outcome (gend * gst) :=
  if thrown then
    do s1 <- (if fenced then do r <- unwinding false fs (gd s);
                             if fst r then Ok {| gfreed := gfreed s; gd := snd r; gstate := recovered rec (gd s) (snd r) 0 |} else Exn
              else Ok s);
    let s2 := {| gfreed := gfreed s1; gd := gd s1; gstate := Nat.lor (gstate s1) 1 |} in
    do s3 <- (if gstate s2 =? 1 then guard_reset fs rec s2 else Ok s2);                                (* stage 1: catch_if *)
    do s4 <- (if gstate s3 =? 1 then guard_reset fs rec s3 else Ok s3);                                (* stage 2: catch_if *)
    Ok (if Nat.odd (gstate s4) then Out else Through, s4)
  else do s1 <- guard_reset fs rec s; Ok (Through, s1).
Definition guard0 (d : dst) : gst := {| gfreed := false; gd := d; gstate := 0 |}.
