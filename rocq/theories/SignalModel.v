(* Signal callbacks: os_unix.c 649-726, registration and removal through the event loop: events.c 554-566,
   607-639.  One loop, one thread; signals arrive one at a time between operations.  Masks are left out. *)
From Verif Require Import Base.

Record slot := { ssig : Z; sproc : option nat; srun : bool }.
(* the event loop's entry for a number (shared with descriptors): events.c events_fd_t *)
Record tgt := { tset : bool; tidx : nat; tloop : bool }.
Record sst := {
  slots : list slot;               (* events_sig[max_event_sig] *)
  disp : Z -> bool;                (* the kernel runs events_sig_handler for this signal *)
  tgts : Z -> tgt;
  act_sig : Z; act_desc : Z;       (* loop counters *)
  running : bool;                  (* signal_running *)
  log : list (Z * option nat) }.   (* history: signals delivered and the callback run (None: default action) *)

Definition upd {A} (f : Z -> A) (k : Z) (v : A) : Z -> A := fun x => if (x =? k)%Z then v else f x.
Fixpoint find_idx {A} (p : A -> bool) (l : list A) : option nat :=
  match l with [] => None | x :: r => if p x then Some 0 else option_map S (find_idx p r) end.

Definition no_proc (x : slot) : bool := match sproc x with None => true | Some _ => false end.

(* os_unix.c 689-726 and events.c 554-566; [ok]: sigaction accepts the signal *)
Definition sig_add (s : sst) (sig : Z) (h : nat) (ok : bool) : sst * Z :=
  match find_idx (fun x => no_proc x || (ssig x =? sig)%Z) (slots s) with
  | None => (s, (-1)%Z)
  | Some i =>
    if ok then
      ({| slots := set_nth i {| ssig := sig; sproc := Some h; srun := false |} (slots s);
          disp := upd (disp s) sig true;
          tgts := upd (tgts s) sig {| tset := true; tidx := i; tloop := true |};
          act_sig := act_sig s + 1; act_desc := act_desc s; running := running s; log := log s |}, 0%Z)
    else (s, (-1)%Z)
  end.

(* events.c 607-639 for a number registered as a signal, os_unix.c 671-683.  The signal is removed only if
   its callback is running; otherwise the descriptor path is taken: it succeeds (epoll.c 100-122 with
   EVENTS_DEL does nothing) and counts one descriptor less. *)
Definition sig_del (s : sst) (sig : Z) : outcome (sst * Z) :=
  let t := tgts s sig in
  let desc_path :=
    if tloop t then
      Ok ({| slots := slots s; disp := disp s; tgts := upd (tgts s) sig {| tset := tset t; tidx := tidx t; tloop := false |};
             act_sig := act_sig s; act_desc := act_desc s - 1; running := running s; log := log s |}, 0%Z)
    else Ok (s, (-1)%Z) in
  if tset t then
    do x <- rd (slots s) (tidx t);
    if (ssig x =? sig)%Z && srun x then
      if tloop t then
        Ok ({| slots := set_nth (tidx t) {| ssig := -1; sproc := None; srun := false |} (slots s);
               disp := upd (disp s) sig false;
               tgts := upd (tgts s) sig {| tset := false; tidx := tidx t; tloop := true |};
               act_sig := act_sig s - 1; act_desc := act_desc s; running := running s; log := log s |}, 0%Z)
      else UB
    else desc_path
  else desc_path.

Inductive sop := SAdd (sig : Z) (h : nat) (ok : bool) | SDel (sig : Z).
Definition do_sop (s : sst) (o : sop) : outcome (sst * Z) :=
  match o with SAdd sig h ok => Ok (sig_add s sig h ok) | SDel sig => sig_del s sig end.
Fixpoint do_sops (s : sst) (l : list sop) : outcome (sst * list Z) :=
  match l with
  | [] => Ok (s, [])
  | o :: k => do r <- do_sop s o; do r2 <- do_sops (fst r) k; Ok (fst r2, snd r :: snd r2)
  end.

Definition with_log (s : sst) (e : Z * option nat) : sst :=
  {| slots := slots s; disp := disp s; tgts := tgts s; act_sig := act_sig s; act_desc := act_desc s; running := running s; log := log s ++ [e] |}.
Definition set_srun (s : sst) (i : nat) (b r : bool) : sst :=
  {| slots := match nth_error (slots s) i with Some x => set_nth i {| ssig := ssig x; sproc := sproc x; srun := b |} (slots s) | None => slots s end;
     disp := disp s; tgts := tgts s; act_sig := act_sig s; act_desc := act_desc s; running := r; log := log s |}.

(* os_unix.c 649-669: [body] is what the callback does, [ret] whether it returns normally (a callback that
   leaves by an exception or a jump skips the rest).  Exn: the process exits because a handler is running. *)
Definition deliver (s : sst) (sig : Z) (body : list sop) (ret : bool) : outcome (sst * list Z) :=
  if disp s sig then
    if running s then Exn
    else match find_idx (fun x => (ssig x =? sig)%Z && negb (no_proc x)) (slots s) with
    | None => Ok (with_log s (sig, None), [])
    | Some i =>
      do x <- rd (slots s) i;
      do r <- do_sops (set_srun (with_log s (sig, sproc x)) i true true) body;
      if ret then Ok (set_srun (fst r) i false false, snd r) else Ok r
    end
  else Ok (with_log s (sig, None), []).

Inductive act := Op (o : sop) | Sig (sig : Z) (body : list sop) (ret : bool).
(* results: one list per action *)
Fixpoint do_acts (s : sst) (l : list act) : outcome (sst * list (list Z)) :=
  match l with
  | [] => Ok (s, [])
  | Op o :: k => do r <- do_sop s o; do r2 <- do_acts (fst r) k; Ok (fst r2, [snd r] :: snd r2)
  | Sig g b ret :: k => do r <- deliver s g b ret; do r2 <- do_acts (fst r) k; Ok (fst r2, snd r :: snd r2)
  end.

Definition sst0 (n : nat) : sst := {| slots := repeat {| ssig := 0; sproc := None; srun := false |} n; disp := fun _ => false;
  tgts := fun _ => {| tset := false; tidx := 0; tloop := false |}; act_sig := 0; act_desc := 0; running := false; log := [] |}.
