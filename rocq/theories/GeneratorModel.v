(* Generators: events.c 1581-1642 (generator, yielding, yielded) and 1102-1125, 1163-1176 (a task's garbage freed when its
   function returns).  One thread; a step is what runs between two switches. *)
From Verif Require Import Base DllModel.

(* ready/value: gen->is_ready, gen->values.  gone: the producer's function has returned, which frees the generator object
   (it is on the producer's garbage list, 1601-1602) and then the task.  left: values still to be yielded. *)
Record gen := { ready : bool; value : Z; gone : bool; left_ : list Z; out : list (nat * Z) }.
(* who: the producer or consumer number k, each consumer calling yielded again and again *)
Inductive who := P | C (k : nat).
(* stops: whether the producer's function returns after its last value or waits for ever *)
Definition gstep (stops : bool) (s : gen) (w : who) : outcome gen :=
  match w with
  | P =>
    if gone s then Ok s
    else match left_ s with
         | [] => Ok {| ready := ready s; value := value s; gone := stops; left_ := []; out := out s |}
         | v :: r => if ready s then Ok s                                                                  (* 1613-1615 *)
                     else Ok {| ready := true; value := v; gone := false; left_ := r; out := out s |}      (* 1617-1619 *)
         end
  | C k =>
    if gone s then UB                                                                                     (* 1623: data_type(gen) *)
    else if ready s then Ok {| ready := false; value := value s; gone := false; left_ := left_ s; out := out s ++ [(k, value s)] |}  (* 1639-1641 *)
    else Ok s                                                                                             (* 1626-1633 *)
  end.
Fixpoint grun (stops : bool) (s : gen) (l : list who) : outcome gen :=
  match l with [] => Ok s | w :: k => do s' <- gstep stops s w; grun stops s' k end.
Definition gen0 (vals : list Z) : gen := {| ready := false; value := 0; gone := false; left_ := vals; out := [] |}.

(* The run queue at the first call of yielded: generator() has appended the producer g (task_push) and its status is
   SUSPENDED until it first runs, so yielded appends it again (1627-1630), then yield appends the caller. *)
Definition first_yielded (q : dll) (g caller : nat) : dll := enqueue (enqueue q g) caller.
