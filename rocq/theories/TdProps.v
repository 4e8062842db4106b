(* C188, C189: arrays given back by functions in threads and in the pool, and what they defer *)
From Coq Require Import ZArith List Bool Arith Lia.
From Verif Require Import Base TdModel TdProofs TdProofs2.
Import ListNotations.

(* A thread with arguments, exactly: every $ is the array of the arguments, with what the last $ was given; reading the arguments
   gives what the $ before left of them.  What is missing: that each $ stands for itself. *)
Theorem C188_thread_partial : forall cap moves h args l r zs, args <> [] -> length args <= cap -> fits cap l -> S (length (defers l)) <= cap ->
  sees args l = Some zs ->
  exists s', thread cap moves h args l r = Ok (shared args l r, s') /\ seen s' = zs /\ ran s' = rev (defers l) /\
    live (heap s') = live h + news l /\ (forall i, i < length h -> nth_error (heap s') i = nth_error h i).
Proof. exact thread_args. Qed.
Print Assumptions C188_thread_partial.

(* with one $ it is what was meant *)
Theorem C188_one_partial : forall cap moves h args pre xs post zs, args <> [] -> length args <= cap -> let l := pre ++ Data xs :: post in
  (forall o, In o (pre ++ post) -> match o with Data _ => False | _ => True end) ->
  fits cap l -> S (length (defers l)) <= cap -> sees args l = Some zs ->
  exists s', thread cap moves h args l (RVar (length (makers pre))) = Ok (Tuple xs, s').
Proof. exact thread_one. Qed.
Print Assumptions C188_one_partial.

(* without $ the arguments stay as they are *)
Theorem C188_arguments_partial : forall l c, (forall o, In o l -> match o with Data _ => False | _ => True end) -> sees c l = reads c l.
Proof. exact sees_reads. Qed.
Print Assumptions C188_arguments_partial.

(* a thread without arguments: each $ stands for itself *)
Theorem C188_no_arguments : forall cap moves h l r, fits cap l -> length (defers l) <= cap -> reads [] l <> None -> r <> RArgs ->
  exists s', thread cap moves h [] l r = Ok (due l r, s') /\ ran s' = rev (defers l) /\ live (heap s') = live h + made l.
Proof. exact thread_noargs. Qed.
Print Assumptions C188_no_arguments.

(* a worker of the pool, any number of jobs: each $ stands for itself, and the arguments are not touched *)
Theorem C188_job : forall cap moves s args l r zs, args <> [] -> length args <= cap -> local s = None -> fits cap l ->
  length (pend s) + length (defers l) <= S cap -> reads args l = Some zs ->
  r <> RArgs /\ (scope s || touches l = true \/ is_array (due l r) = 0) ->
  exists s', job cap moves s args l r = Ok (Some (due l r), s') /\ local s' = None /\ pend s' = rev (defers l) ++ pend s /\ seen s' = seen s ++ zs /\
    ran s' = ran s /\ scope s' = scope s || touches l /\ live (heap s') + is_array (due l r) = live (heap s) + made l.
Proof. exact job_ok. Qed.
Print Assumptions C188_job.

Theorem C188_two_refuted : forall cap moves h args xs ys, args <> [] -> length args <= cap -> length xs <= cap -> length ys <= cap -> xs <> ys -> xs <> [] ->
  exists s', thread cap moves h args [Data xs; Data ys] (RVar 0) = Ok (Tuple ys, s') /\ due [Data xs; Data ys] (RVar 0) = Tuple xs /\ Tuple xs <> Tuple ys.
Proof. exact two. Qed.
Print Assumptions C188_two_refuted.

Theorem C188_overwritten_refuted : forall cap moves h z rest x, S (length rest) <= cap ->
  exists s', thread cap moves h (z :: rest) [Data [x]; Arg 0] (RInt 0) = Ok (Kept, s') /\ seen s' = [x] /\ reads (z :: rest) [Data [x]; Arg 0] = Some [z].
Proof. exact overwritten. Qed.
Print Assumptions C188_overwritten_refuted.

(* one value more than a new array has room for *)
Theorem C188_many_refuted : forall cap s args xs, args <> [] -> length args <= cap -> length xs = S cap -> local s = None ->
  job cap true s args [Data xs] (RVar 0) = UB /\ (forall h, thread cap true h args [Data xs] (RVar 0) = UB).
Proof. exact many. Qed.
Print Assumptions C188_many_refuted.

(* Jobs in a worker: what stays allocated are the arrays that were made and not returned, what was deferred waits.  What is
   missing: that it is released and runs. *)
Theorem C189_worker_partial : forall cap moves l s, local s = None -> Forall (proper cap) l -> length (pend s) + length (alldefers l) <= S cap ->
  exists s', jobs cap moves s l = Ok (map (fun j => Some (due (snd (fst j)) (snd j))) l, s') /\ local s' = None /\
    ran s' = ran s /\ pend s' = rev (alldefers l) ++ pend s /\ live (heap s') = live (heap s) + leaks l.
Proof. exact jobs_ok. Qed.
Print Assumptions C189_worker_partial.

(* whatever the jobs are, nothing that they defer ever runs *)
Theorem C189_never_runs_refuted : forall cap moves l s gs s', jobs cap moves s l = Ok (gs, s') -> ran s' = ran s.
Proof. exact jobs_ran. Qed.
Print Assumptions C189_never_runs_refuted.

(* and it piles up in an array that is moved *)
Theorem C189_piled_refuted : forall cap f args r, args <> [] -> length args <= cap -> job cap true fresh args (repeat (Defer f) (S (S cap))) r = UB.
Proof. exact piled. Qed.
Print Assumptions C189_piled_refuted.

(* a job that gives its arguments back *)
Theorem C189_own_arguments_refuted : forall cap moves s args l zs, args <> [] -> length args <= cap -> local s = None -> fits cap l ->
  length (pend s) + length (defers l) <= S cap -> reads args l = Some zs -> job cap moves s args l RArgs = UB.
Proof. exact job_args. Qed.
Print Assumptions C189_own_arguments_refuted.

(* a job that gives back an array it made without $, before the worker has a scope *)
Theorem C189_no_scope_refuted : forall cap moves s args l r zs, args <> [] -> length args <= cap -> local s = None -> fits cap l ->
  length (pend s) + length (defers l) <= S cap -> reads args l = Some zs -> r <> RArgs -> scope s = false -> touches l = false ->
  is_array (due l r) = 1 -> job cap moves s args l r = UB.
Proof. exact job_noscope. Qed.
Print Assumptions C189_no_scope_refuted.

(* not vacuous *)
Definition f1 : list op := ([Defer 4; Arg 1; Data [7%Z]; Arg 0; Arg 1; New [5%Z; 6%Z]; Data [8%Z; 9%Z]; Arg 1; Defer 3]).
Example C188_applies : exists s', thread 4 true [mkA true 1 [2%Z]] [10; 20]%Z f1 (RVar 0) = Ok (Tuple [8; 9]%Z, s') /\ seen s' = [20; 7; 20; 9]%Z /\
  ran s' = [3; 4] /\ live (heap s') = 2.
Proof. eexists. split; [vm_compute; reflexivity|]. repeat split; reflexivity. Qed.
Example C188_fits : fits 4 f1 /\ sees [10; 20]%Z f1 = Some [20; 7; 20; 9]%Z /\ shared [10; 20]%Z f1 (RVar 1) = Tuple [5; 6]%Z.
Proof. split; [repeat constructor; cbn; lia|split; reflexivity]. Qed.
Example C189_applies : exists s', jobs 4 true fresh [([10; 20]%Z, f1, RVar 0); ([1]%Z, [Data [2]%Z; New [3]%Z], RVar 1); ([1]%Z, [Arg 0], RInt 6)] =
  Ok ([Some (Tuple [7]%Z); Some (Tuple [3]%Z); Some (Word 6)], s') /\ live (heap s') = 3 /\ seen s' = [20; 10; 20; 20; 1]%Z /\ ran s' = [].
Proof. eexists. split; [vm_compute; reflexivity|]. repeat split; reflexivity. Qed.
Example C189_proper : Forall (proper 4) [([10; 20]%Z, f1, RVar 0); ([1]%Z, [Data [2]%Z; New [3]%Z], RVar 1); ([1]%Z, [Arg 0], RInt 6)].
Proof.
  repeat (apply Forall_cons; [unfold proper; repeat split; try discriminate; try (cbn; lia); try (left; reflexivity); try (right; reflexivity);
    repeat constructor; cbn; lia|]). apply Forall_nil.
Qed.
Example C189_none : jobs 4 true fresh [([], [Data [1]%Z], RVar 0)] = Ok ([None], fresh).
Proof. reflexivity. Qed.
