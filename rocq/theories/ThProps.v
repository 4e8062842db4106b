(* C153-C155: a thread of tasks that yield, sleep, wait for descriptors, start tasks and end. *)
From Coq Require Import ZArith List Bool Lia Permutation Sorted.
From Verif Require Import Base ThModel ThProofs ThProofs2.
Import ListNotations.
Open Scope Z_scope.

(* C153: whatever the tasks do (no two wait for the same descriptor), whatever the clock says and the kernel reports:
   no undefined behaviour, every task in exactly one place, the library's task always ready. *)
Theorem C153_one_place : forall prog owner, one_waiter prog owner -> forall ins,
  exists s, turns prog ins thread_start = Ok (Some s) /\
    Permutation (runq s ++ map fst (sleepq s) ++ map snd (waitq s) ++ done s) (seq 0 (fresh s)) /\ In 0%nat (runq s) /\
    asleep s = Z.of_nat (length (sleepq s)) /\ StronglySorted later (sleepq s).
Proof. exact c153_places. Qed.
Print Assumptions C153_one_place.

(* The event loop returns exactly when every task of the program has ended. *)
Theorem C153_returns_when_all_ended : forall prog owner, one_waiter prog owner -> forall ins,
  exists b s, async_run prog ins thread_start = Ok (b, s) /\
    (b = true <-> forall t, (1 <= t < fresh s)%nat -> In t (done s)).
Proof. exact c153_ends. Qed.
Print Assumptions C153_returns_when_all_ended.

(* C154: the task with n others before it has its turn after n turns, whatever happens in them. *)
Theorem C154_turn : forall prog owner, one_waiter prog owner -> forall ins s t,
  reached prog s -> nth_error (runq s) (length ins) = Some t ->
  exists s', turns prog ins s = Ok (Some s') /\ hd_error (runq s') = Some t.
Proof. exact r154_turn. Qed.
Print Assumptions C154_turn.

(* In its turn its code runs; only the main task, back from a yield while one task sleeps, waits for one more turn. *)
Theorem C154_code_runs : forall prog owner, one_waiter prog owner -> forall now batch s t,
  reached prog s -> hd_error (runq s) = Some t -> t <> 0%nat ->
  exists s', sched prog now batch s = Ok (Some s') /\
   ((segs s' = segs s ++ [t] /\ pc s' t = S (pc s t)) \/
    (t = 1%nat /\ inyield s = true /\ inyield s' = false /\ length (sleepq s) = 1%nat /\ segs s' = segs s /\ In t (runq s'))).
Proof. exact r154_head. Qed.
Print Assumptions C154_code_runs.

(* A waiting task is ready after the turn in which its descriptor is reported, and waits on if it is not. *)
Theorem C154_waiters : forall prog owner, one_waiter prog owner -> forall now batch s f u,
  reached prog s -> In (f, u) (waitq s) ->
  exists s', sched prog now batch s = Ok (Some s') /\
    (In f batch -> In u (runq s')) /\ (~ In f batch -> In (f, u) (waitq s')).
Proof. exact r154_wait. Qed.
Print Assumptions C154_waiters.

(* C155: a sleeper stays asleep, with its time, until a turn at or after its time makes it ready. *)
Theorem C155_not_early : forall prog owner, one_waiter prog owner -> forall now batch s t a,
  reached prog s -> In (t, a) (sleepq s) ->
  exists s', sched prog now batch s = Ok (Some s') /\ (In (t, a) (sleepq s') \/ (a <= now /\ In t (runq s'))).
Proof. exact r155_keep. Qed.
Print Assumptions C155_not_early.

(* Its time is the time of the call and the delay. *)
Theorem C155_delay : forall prog owner, one_waiter prog owner -> forall now batch s t ms,
  reached prog s -> hd_error (runq s) = Some t -> t <> 0%nat ->
  prog t (pc s t) = TSleep ms -> 0 <= now + ms * 1000000 < 2 ^ 64 ->
  exists s', sched prog now batch s = Ok (Some s') /\
    (In (t, now + ms * 1000000) (sleepq s') \/ (t = 1%nat /\ pc s' t = pc s t /\ inyield s = true)).
Proof. exact r155_sleeps. Qed.
Print Assumptions C155_delay.

(* If no other task is ready, every sleeper that is due is ready after at most two turns. *)
Theorem C155_woken_if_idle : forall prog owner, one_waiter prog owner -> forall now1 now2 s,
  reached prog s -> runq s = [0%nat] ->
  exists i now s', ((i = 1%nat /\ now = now1) \/ (i = 2%nat /\ now = now2)) /\
    turns prog (firstn i [(now1, []); (now2, [])]) s = Ok (Some s') /\
    (forall t a, In (t, a) (sleepq s') -> now < a) /\
    (forall t a, In (t, a) (sleepq s) -> a <= now -> In t (runq s')).
Proof. exact r155_alone. Qed.
Print Assumptions C155_woken_if_idle.

(* If the main task does nothing but yield and there is one sleeper, it is ready four turns after its time at most. *)
Theorem C155_woken_beside_main : forall prog owner, one_waiter prog owner -> forall n1 n2 n3 n4 s t a,
  reached prog s -> prog 1%nat (pc s 1%nat) = TYield ->
  (runq s = [0; 1]%nat \/ runq s = [1; 0]%nat) -> sleepq s = [(t, a)] ->
  a <= n1 -> a <= n2 -> a <= n3 -> a <= n4 ->
  exists i s', (i <= 4)%nat /\ turns prog (firstn i [(n1, []); (n2, []); (n3, []); (n4, [])]) s = Ok (Some s') /\
    In t (runq s') /\ sleepq s' = [].
Proof. exact r155_main. Qed.
Print Assumptions C155_woken_beside_main.

(* Refuted: a sleeper is not woken in any number of turns, however far its time is past, while another task goes on
   yielding, if there are two sleepers or the main task has ended. *)
Theorem C155_woken_refuted : forall prog owner, one_waiter prog owner -> forall ins now b x s,
  reached prog s -> x <> 0%nat -> (forall k, (pc s x <= k)%nat -> prog x k = TYield) ->
  (In 1%nat (done s) \/ (2 <= length (sleepq s))%nat) -> hd_error (runq s) = Some x ->
  exists s', turns prog ((now, b) :: ins) s = Ok (Some s') /\ incl (sleepq s) (sleepq s').
Proof. exact r155_hog. Qed.
Print Assumptions C155_woken_refuted.

(* The main task starts two tasks that sleep for a millisecond and then only yields: they sleep for ever. *)
Theorem C155_woken_program_refuted : exists s, turns wprog wstart thread_start = Ok (Some s) /\
  sleepq s = [(2%nat, 1000003); (3%nat, 1000008)] /\
  forall ins, exists s', turns wprog ins s = Ok (Some s') /\ incl (sleepq s) (sleepq s').
Proof. exact starved. Qed.
Print Assumptions C155_woken_program_refuted.

(* A program that ends: the main task starts a sleeper and a reader and yields twice. *)
Definition eprog (t k : nat) : tact :=
  match t, k with
  | 1, (0 | 1) => TSpawn
  | 1, (2 | 3) => TYield
  | 2, 0 => TSleep 1
  | 3, 0 => TWait 7
  | _, _ => TEnd
  end%nat.

Example ends : match async_run eprog (map (fun n => (Z.of_nat n * 100000, if Nat.eqb n 12 then [7%nat] else [])) (seq 0 60)) thread_start with
  | Ok (b, s) => (b, segs s, done s, count s) | _ => (false, [], [], 0) end
  = (true, [1; 2; 1; 3; 1; 3; 2; 1; 1]%nat, [1; 2; 3]%nat, 0).
Proof. vm_compute. reflexivity. Qed.

Example ends_one_waiter : one_waiter eprog (fun _ => 3%nat).
Proof. intros [|[|[|[|t]]]] [|[|[|[|k]]]] f H; cbn in H; try discriminate; reflexivity. Qed.
