(* The loops that wait for a group: events.c 2228-2254 (waitfor, own share) and 2291-2317 (tasks_wait), future.c 393-420 (queue_wait).
   All have the shape
     while (size > 0) { foreach (x in group) { if (ended(x)) { ...; remove(group, index); } else { ...; yield } } ...; }
   where foreach keeps an index, re-tests the size each time and increases the index also after a removal.
   ended t x: has x ended at time t.  Time passes only while other tasks run: [dv] ticks on visiting a member that has not
   ended, [dr] ticks on removing one, [dp] at the end of each pass.
     waitfor, tasks_wait: dv = 1 (or more while suspended, 2308-2314), dr = 0, dp = 0
     queue_wait: dv = 0, dr = 1 with a continuation and 0 without, dp = 1
   out: members removed, with the time. *)
From Verif Require Import Base.
Section Wait.
Variable ended : nat -> nat -> bool.
Variables dv dr dp : nat.
Definition remove_at (i : nat) (g : list nat) : list nat := firstn i g ++ skipn (S i) g.
Fixpoint wait_loop (fuel t i : nat) (g : list nat) (out : list (nat * nat)) : outcome (nat * list (nat * nat)) :=
  match fuel with
  | 0 => Fuel
  | S f =>
    match nth_error g i with
    | Some x => if ended t x then wait_loop f (t + dr) (S i) (remove_at i g) (out ++ [(x, t)]) else wait_loop f (t + dv) (S i) g out
    | None => match g with [] => Ok (t, out) | _ => wait_loop f (t + dp) 0 g out end
    end
  end.
End Wait.
(* tasks_wait and waitfor yield once before the loop (2229, 2290); queue_wait does not.  A member's result id is reported when
   it has a result: its id, else nothing. *)
Definition tasks_wait (ended : nat -> nat -> bool) (result : nat -> option nat) (fuel : nat) (g : list nat) : outcome (list (nat * nat) * list nat) :=
  do r <- wait_loop ended 1 0 0 fuel 1 0 g [];
  Ok (snd r, flat_map (fun p => match result (fst p) with Some id => [id] | None => [] end) (snd r)).
