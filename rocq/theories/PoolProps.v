(* C36, C37, C38, C74, C75: spreading tasks over the pool and waiting for groups. *)
From Verif Require Import Base PoolModel PoolProofs WaitModel WaitProofs.
From Coq Require Import Permutation.

(* C36 *)
(* a fixed pool of distinct threads, any starting counter, any number of starts: every start goes to one pool thread, loads differ by at most 1 *)
Theorem C36_even_distribution idx c n : idx <> [] -> NoDup idx -> exists l, starts idx c n = Ok l /\ length l = n /\ even_share idx l.
Proof. exact (even_distribution idx c n). Qed.
Print Assumptions C36_even_distribution.
(* jobs submitted one after the other with a fresh futures_pool() each time follow the same rule *)
Theorem C36_futures_even idx n w : idx <> [] -> forall c got, frun idx c got (concat (repeat [FRead w; FSubmit w] n)) = starts idx c n.
Proof. exact (futures_even idx n w). Qed.
Print Assumptions C36_futures_even.
(* several submitters: all may pick the same thread *)
Theorem C36_crowded_futures_refuted n a b idx : a <> b ->
  exists l, frun (a :: b :: idx) 0 (fun _ => None) (map FRead (seq 0 n) ++ map FSubmit (seq 0 n)) = Ok l /\ l = repeat a n.
Proof. exact (crowded_futures n a b idx). Qed.
Print Assumptions C36_crowded_futures_refuted.
(* a thread added after n starts is n tasks behind *)
Theorem C36_growing_pool_refuted n a b : a <> b -> exists l, grow_starts [a] 0 (repeat PStart n ++ [PGrow b]) = Ok l /\ occ a l = n /\ occ b l = 0.
Proof. exact (growing_pool n a b). Qed.
Print Assumptions C36_growing_pool_refuted.
(* but what is started after it was added is even over the larger pool *)
Theorem C36_grown_pool idx c n t m : idx <> [] -> NoDup (idx ++ [t]) -> exists l1 l2,
  grow_starts idx c (repeat PStart n ++ PGrow t :: repeat PStart m) = Ok (l1 ++ l2) /\ length l1 = n /\ length l2 = m /\
  even_share idx l1 /\ even_share (idx ++ [t]) l2.
Proof. exact (grown_even idx c n t m). Qed.
Print Assumptions C36_grown_pool.
Example C36_ex : starts [3; 5; 4] 7 5 = Ok [5; 4; 3; 5; 4].
Proof. vm_compute. reflexivity. Qed.

(* C37 *)
(* at least the declared number of tasks: each task goes to one thread or stays with the caller *)
Theorem C37_posting threads capacity g : capacity <= length g -> exists rest shares, post_group threads capacity g = Ok (rest, shares) /\
  posted threads (capacity / (threads + 1)) g rest shares /\ length g = length rest + threads * (capacity / (threads + 1)).
Proof. exact (posting threads capacity g). Qed.
Print Assumptions C37_posting.
(* exactly when it crashes *)
Theorem C37_too_few_refuted threads capacity g : (threads * (capacity / (threads + 1)) <= length g -> exists r, post_group threads capacity g = Ok r) /\
  (length g < threads * (capacity / (threads + 1)) -> post_group threads capacity g = UB).
Proof. exact (posting_exact threads capacity g). Qed.
Print Assumptions C37_too_few_refuted.
Example C37_ex : post_group 2 7 [1; 2; 3; 4; 5; 6; 7] = Ok ([1; 2; 3], [[7; 6]; [5; 4]]) /\ post_group 3 10 [1; 2; 3; 4; 5] = UB.
Proof. vm_compute. auto. Qed.

(* C38 *)
(* when the wait returns, every member was removed exactly once, at a time when it had ended, and the result ids of those with results are reported once each *)
Theorem C38_collects ended result fuel g out ids : tasks_wait ended result fuel g = Ok (out, ids) ->
  collected ended g out /\ Permutation ids (flat_map (fun x => match result x with Some id => [id] | None => [] end) g).
Proof. exact (wait_collects ended result fuel g out ids). Qed.
Print Assumptions C38_collects.
(* it returns if every member ends, whatever the pattern *)
Theorem C38_ends ended result N g : (forall s x, N <= s -> In x g -> ended s x = true) -> exists fuel r, tasks_wait ended result fuel g = Ok r.
Proof. exact (wait_ends ended result N g). Qed.
Print Assumptions C38_ends.
(* and never while a member has not ended *)
Theorem C38_blocks ended result g x : In x g -> (forall s, ended s x = false) -> forall fuel, tasks_wait ended result fuel g = Fuel.
Proof. exact (wait_blocks ended result g x). Qed.
Print Assumptions C38_blocks.
Example C38_ex : tasks_wait (fun t x => 3 * x <=? t) (fun x => if x =? 2 then None else Some (10 + x)) 100 [0; 1; 2; 3] = Ok ([(0, 1); (1, 3); (2, 6); (3, 9)], [10; 11; 13]).
Proof. vm_compute. reflexivity. Qed.

(* C74 *)
(* a pool thread with one posted task collects it when it ends *)
Theorem C74_one_task_partial term j fuel t n : term (t + n) j = true -> (forall k, k < n -> term (t + k) j = false) -> 2 * n + 3 <= fuel ->
  share_run term fuel t [j] = Ok (t + n, [(j, t + n)]).
Proof. exact (share_one term j fuel t n). Qed.
Print Assumptions C74_one_task_partial.
(* with two or more it never completes, ... *)
Theorem C74_never_completes_refuted term jobs : 2 <= length jobs -> forall fuel t r, share_run term fuel t jobs <> Ok r.
Proof. exact (share_many term jobs). Qed.
Print Assumptions C74_never_completes_refuted.
(* ... and reads a freed task as soon as the last one has ended *)
Theorem C74_use_after_free_refuted term jobs : 2 <= length jobs -> forall n t, term (t + n) (last jobs 0) = true -> (forall k, k < n -> term (t + k) (last jobs 0) = false) ->
  exists fuel, share_run term fuel t jobs = UB.
Proof. exact (share_many_ub term jobs). Qed.
Print Assumptions C74_use_after_free_refuted.

(* C75 *)
(* outside a wait group the started task belongs to the picked thread, whatever was started before *)
Theorem C75_go_partial idx s : idx <> [] -> exists s' x, go false idx s = Ok (s', x) /\ In x idx /\ pick idx (gcount s) = Ok x /\ nth_error (tids s') (length (tids s)) = Some (Some x) /\ gcount s' = S (gcount s).
Proof. exact (go_alone idx s). Qed.
Print Assumptions C75_go_partial.
(* inside one, a thread number never written is used as an index *)
Theorem C75_go_in_group_refuted idx s : go true idx s = UB.
Proof. exact (go_grouped idx s). Qed.
Print Assumptions C75_go_in_group_refuted.
Example C75_ex : go false [2; 3] {| tids := [Some 2]; group := []; gcount := 1 |} = Ok ({| tids := [Some 2; Some 3]; group := []; gcount := 2 |}, 3).
Proof. vm_compute. reflexivity. Qed.
