(* Spin locks: the theorems. *)
From Verif Require Import Base DllModel SpinModel SpinProofs.
From Coq Require Import List Lia Arith Bool.
Import ListNotations.

(* ---- C108: the lock ---- *)
Theorem C108_exclusion : forall (A X : Type) k a p sched (s : sst A X) i j,
  one_lock k p -> srun sched (sinit a p) = Ok s -> inside s i -> inside s j -> i = j.
Proof. intros A X. exact exclusion. Qed.
(* the sections take effect as if each ran by itself, in the order in which they end *)
Theorem C108_serial : forall (A X : Type) k a p sched (s : sst A X),
  one_lock k p -> srun sched (sinit a p) = Ok s -> (forall i, ~ inside s i) ->
  exists q, atomically (slog s) a p = Ok (shr s, q) /\ forall i, own (thr s i) = fst (q i) /\ todo (thr s i) = snd (q i) /\
    count_occ Nat.eq_dec (slog s) i + length (todo (thr s i)) = length (snd (p i)).
Proof. intros A X. exact serial. Qed.
Theorem C108_serial_inside : forall (A X : Type) k a p sched (s : sst A X) i k' rest,
  one_lock k p -> srun sched (sinit a p) = Ok s -> ph (thr s i) = PIn k' rest ->
  exists a' q sec r, atomically (slog s) a p = Ok (a', q) /\ snd (q i) = (k, sec) :: r /\ exec rest (shr s) (own (thr s i)) = exec sec a' (fst (q i)) /\
    forall j, j <> i -> own (thr s j) = fst (q j).
Proof. intros A X. exact serial_mid. Qed.
Theorem C108_safe : forall (A X : Type) k a (p : nat -> X * list (section A X)), one_lock k p -> (forall order, exists y, atomically order a p = Ok y) ->
  forall sched, exists s, srun sched (sinit a p) = Ok s.
Proof. intros A X. exact safe. Qed.
Theorem C108_wrong : forall (A X : Type) k a (p : nat -> X * list (section A X)) sched, one_lock k p -> srun sched (sinit a p) = UB ->
  exists order, atomically order a p = UB.
Proof. intros A X. exact wrong. Qed.
(* if every thread has a turn in each of sufficiently many rounds, all sections end *)
Theorem C108_progress : forall (A X : Type) n k a p rounds (s : sst A X),
  one_lock k p -> (forall i, n <= i -> snd (p i) = []) -> Forall (fun r => forall j, j < n -> In j r) rounds ->
  2 * work n p <= length rounds -> srun (concat rounds) (sinit a p) = Ok s -> forall i, todo (thr s i) = [] /\ ~ inside s i.
Proof. intros A X. exact fair_end. Qed.
(* a single thread may wait for ever while others come and go *)
Theorem C108_starvation_refuted : forall m, exists sched s,
  srun sched (sinit tt (hog m)) = Ok s /\ m <= count_occ Nat.eq_dec sched 1 /\ length (todo (thr s 1)) = 1 /\ slog s = repeat 0 m.
Proof. exact starve. Qed.
(* a lock that is set and that nobody inside will release (taken twice by its owner, or never initialised) stops all its users *)
Theorem C108_held_refuted : forall (A X : Type) k sched (s s' : sst A X), flag s k = true ->
  (forall i, (ph (thr s i) = PTry \/ ph (thr s i) = PSpin) /\ Forall (fun sec => fst sec = k) (todo (thr s i))) ->
  srun sched s = Ok s' -> shr s' = shr s /\ slog s' = slog s /\ forall i, todo (thr s' i) = todo (thr s i).
Proof. intros A X. exact stuck. Qed.

(* ---- C109: appending to a shared array under its lock ---- *)
Theorem C109_appends_partial : forall (V : Type) k mv n (vs : nat -> list V) l c,
  (forall i, n <= i -> vs i = []) -> (length l + total n vs <= c \/ (0 < c /\ forall m, mv m = false)) -> length l <= c ->
  forall sched, exists s, srun sched (sinit (array_of l c) (appenders k mv vs)) = Ok s /\
    ((forall i, ~ inside s i) -> exists log c', shr s = array_of (l ++ log) c' /\
       forall i, exists todo', from_thread i log ++ todo' = vs i /\ length todo' = length (todo (thr s i))).
Proof. intros V. exact appends. Qed.
Theorem C109_appends_all_partial : forall (V : Type) k mv n (vs : nat -> list V) l c rounds, (forall i, n <= i -> vs i = []) ->
  (length l + total n vs <= c \/ (0 < c /\ forall m, mv m = false)) -> length l <= c ->
  Forall (fun r => forall j, j < n -> In j r) rounds -> 14 * total n vs <= length rounds ->
  exists s log c', srun (concat rounds) (sinit (array_of l c) (appenders k mv vs)) = Ok s /\ shr s = array_of (l ++ log) c' /\ forall i, from_thread i log = vs i.
Proof. intros V. exact appends_all. Qed.
(* the block moves when it grows: the lock is released in freed memory *)
Theorem C109_moved_refuted : forall (V : Type) k (mv : nat -> bool) (v : V) l, l <> [] -> mv (2 * length l) = true ->
  srun (repeat 0 6) (sinit (array_of l (length l)) (fun i => (0, match i with 0 => [(k, append_steps mv v)] | _ => [] end))) = UB.
Proof. intros V. exact append_moved. Qed.
(* one array used under two different locks *)
Theorem C109_two_locks_refuted : exists sched s, srun sched (sinit (array_of [7] 4) (two_locks (fun _ => false) 1 2)) = Ok s /\
  todo (thr s 0) = [] /\ todo (thr s 1) = [] /\ shr s = array_of [7; 2] 4.
Proof. exact lost. Qed.

(* ---- examples ---- *)
Definition ex_vs (i : nat) : list nat := match i with 0 => [10; 11] | 1 => [20] | 2 => [30] | _ => [] end.
Example ex_append : exists s, srun (concat (repeat [0; 1; 2; 0; 2] 30)) (sinit (array_of [(9, 9)] 8) (appenders 3 (fun _ => true) ex_vs)) = Ok s /\
  shr s = array_of [(9, 9); (0, 10); (0, 11); (2, 30); (1, 20)] 8 /\ slog s = [0; 0; 2; 1] /\ todo (thr s 0) = [] /\ todo (thr s 1) = [] /\ todo (thr s 2) = [].
Proof. eexists. split; [vm_compute; reflexivity|]. repeat split. Qed.
Example ex_hyps : one_lock 3 (appenders 3 (fun _ => true) ex_vs) /\ (forall i, 3 <= i -> ex_vs i = []) /\ total 3 ex_vs = 4 /\ work 3 (appenders 3 (fun _ => true) ex_vs) = 28.
Proof. split; [apply one_lock_app|]. split; [intros [|[|[|i]]] H; try lia; reflexivity|]. split; reflexivity. Qed.

Print Assumptions C108_exclusion.
Print Assumptions C108_serial.
Print Assumptions C108_serial_inside.
Print Assumptions C108_safe.
Print Assumptions C108_wrong.
Print Assumptions C108_progress.
Print Assumptions C108_starvation_refuted.
Print Assumptions C108_held_refuted.
Print Assumptions C109_appends_partial.
Print Assumptions C109_appends_all_partial.
Print Assumptions C109_moved_refuted.
Print Assumptions C109_two_locks_refuted.
