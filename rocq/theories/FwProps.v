From Verif Require Import Base FwModel FwProofs.

(* ---- C138: stopping a directory watch ---- *)
(* stopping succeeds exactly for a positive id still in the list, takes that entry out, and asks only the task with that id to end *)
Theorem C138_stop : forall s r, (snd (stop s r) = true <-> (0 < r)%Z /\ In r (ids s)) /\ (snd (stop s r) = false -> fst (stop s r) = s) /\
  (snd (stop s r) = true -> (exists a b, ids s = a ++ r :: b /\ ~ In r a /\ ids (fst (stop s r)) = a ++ b) /\ cnt (fst (stop s r)) = (cnt s - 1)%Z /\
    tab (fst (stop s r)) = tab s /\ loop_fd (fst (stop s r)) = loop_fd s /\
    (forall i t, nth_error (tasks s) i = Some t -> exists t', nth_error (tasks (fst (stop s r))) i = Some t' /\
       t_id t' = t_id t /\ t_path t' = t_path t /\ t_cb t' = t_cb t /\ t_fd t' = t_fd t /\ t_done t' = t_done t /\
       (t_id t = r -> t_cancel t' = true) /\ (t_id t <> r -> t_cancel t' = t_cancel t))).
Proof. exact stop_spec. Qed.
(* after any use the number of counted watch tasks is the number of ids not stopped *)
Theorem C138_counted : forall n l s, run (sys0 n) l = Ok s -> cnt s = Z.of_nat (length (ids s)).
Proof. exact counts. Qed.
(* a task that was not stopped goes on while its descriptor has watches, and changes nothing *)
Theorem C138_goes_on_partial : forall s i t k ws x kfd top subs, nth_error (tasks s) i = Some t -> t_fd t = Some k -> t_cancel t = false -> t_done t = false -> tab s k = Mon (x :: ws) ->
  exists s', turn s i kfd top subs = Ok s' /\ size s' = size s /\ tab s' = tab s /\ loop_fd s' = loop_fd s /\ target s' = target s /\ act s' = act s /\ ids s' = ids s /\ cnt s' = cnt s /\ tasks s' = tasks s.
Proof. exact goes_on_same. Qed.
(* a stopped task ends at its next turn, closing the loop's descriptor *)
Theorem C138_stopped_ends : forall n l s i t k kfd top subs, run (sys0 n) l = Ok s -> nth_error (tasks s) i = Some t -> t_fd t = Some k -> t_done t = false -> t_cancel t = true ->
  loop_fd s = Some k -> exists s', turn s i kfd top subs = Ok s' /\ ended s' i /\ loop_fd s' = None /\ tab s' k = Free /\
   (forall j u, j <> i -> nth_error (tasks s) j = Some u -> nth_error (tasks s') j = Some u).
Proof. exact only_one. Qed.
(* ... which ends every other watch of that loop, whose ids stay listed and counted *)
Theorem C138_others_end_refuted : forall n l s i j t u k kfd top subs kfd' top' subs', run (sys0 n) l = Ok s -> i <> j -> loop_fd s = Some k ->
  nth_error (tasks s) i = Some t -> t_fd t = Some k -> t_done t = false -> t_cancel t = true ->
  nth_error (tasks s) j = Some u -> t_fd u = Some k -> t_done u = false -> t_cancel u = false -> In (t_id u) (ids s) ->
  exists s1 s2, turn s i kfd top subs = Ok s1 /\ turn s1 j kfd' top' subs' = Ok s2 /\ ended s2 j /\ In (t_id u) (ids s2) /\ cnt s2 = cnt s.
Proof. exact others_end. Qed.
(* ... and such a task closes in its turn the descriptor of a watch begun meanwhile *)
Theorem C138_newer_closed_refuted : forall n l s i t k q kfd top subs, run (sys0 n) l = Ok s -> nth_error (tasks s) i = Some t -> t_fd t = Some k -> t_done t = false ->
  tab s k = Free -> loop_fd s = Some q -> exists s', turn s i kfd top subs = Ok s' /\ loop_fd s' = None /\ tab s' q = Free.
Proof. exact closes_newer. Qed.
(* one handler per loop: that of the watch begun last, also for the directories watched before *)
Theorem C138_last_handler_refuted : forall n l s i t kfd top subs s', run (sys0 n) l = Ok s -> nth_error (tasks s) i = Some t -> t_fd t = None -> t_done t = false -> t_cancel t = false ->
  turn s i kfd top subs = Ok s' -> exists k, target s' k = Some (t_cb t) /\ act s' = (act s + 1)%Z /\ ((loop_fd s' = Some k /\ ~ ended s' i) \/ ended s' i) /\ (forall q, loop_fd s = Some q -> k = q).
Proof. exact begun. Qed.
(* a directory that cannot be watched: the handle table is read before its first entry *)
Theorem C138_cannot_watch_refuted : forall s i t kfd subs, nth_error (tasks s) i = Some t -> t_fd t = None -> t_done t = false -> turn s i kfd None subs = UB.
Proof. exact refused. Qed.
(* once a watch has begun, the loop has something to do for ever, whatever is stopped *)
Theorem C138_loop_never_ends_refuted : forall n l l' s s', run (sys0 n) l = Ok s -> (0 < act s)%Z -> run s l' = Ok s' -> busy s' = true.
Proof. exact never_idle. Qed.

(* ---- C139: the handles of watched directories ---- *)
Theorem C139_entered_partial : forall s k top subs path cb, loop_fd s = None -> k < size s -> tab s k = Free -> fresh (size s) (tab s) k ((top, path) :: subs) ->
  exists s', watch s (Some k) (Some top) subs path cb = Ok (s', Some k) /\ tab s' k = Mon (top :: map fst subs) /\ loop_fd s' = Some k /\
   tab s' top = Watch k true path top /\ (forall d p, In (d, p) subs -> tab s' d = Watch k false p d) /\
   (forall j, j <> k -> j <> top -> ~ In j (map fst subs) -> tab s' j = tab s j) /\ target s' k = Some cb /\ (forall j, j <> k -> target s' j = target s j).
Proof. exact entered. Qed.
(* a single directory: both handles are given back *)
Theorem C139_single_freed_partial : forall s k w, loop_fd s = Some k -> k < size s -> tab s k = Mon [w] -> w <> k -> exists s',
  del_watch s = Ok (s', true) /\ tab s' k = Free /\ tab s' w = Free /\ loop_fd s' = None.
Proof. exact single_freed. Qed.
(* several: only every second one is *)
Theorem C139_every_second_kept_refuted : forall s k ws, loop_fd s = Some k -> k < size s -> tab s k = Mon ws -> ~ In k ws -> NoDup ws -> exists s',
  del_watch s = Ok (s', true) /\ tab s' k = Free /\ loop_fd s' = None /\
  (forall i j, nth_error ws i = Some j -> tab s' j = if Nat.even i then Free else tab s j) /\
  (forall j, j <> k -> ~ In j ws -> tab s' j = tab s j).
Proof. exact halves. Qed.
(* the kept ones stay for ever, and later changes the kernel gives that number are reported under the old directory *)
Theorem C139_old_directory_reported_refuted : forall n l l' s s1 s' k ws i h top p, run (sys0 n) l = Ok s -> loop_fd s = Some k -> tab s k = Mon ws -> NoDup ws -> ~ In k ws ->
  nth_error ws i = Some h -> Nat.odd i = true -> (forall fd vs, tab s fd = Mon vs -> fd <> k -> ~ In h vs) -> tab s h = Watch k top p h ->
  del_watch s = Ok (s1, true) -> run s1 l' = Ok s' -> reported s' h = Some p.
Proof. exact left_over. Qed.
(* removing one watch takes out exactly that one; with the last one the descriptor leaves the loop *)
Theorem C139_removed : forall s wd fd top p kwd ws, tab s wd = Watch fd top p kwd -> tab s fd = Mon ws -> In wd ws -> exists a b, ws = a ++ wd :: b /\ ~ In wd a /\
  snd (remove s wd) = true /\ tab (fst (remove s wd)) wd = Free /\ tab (fst (remove s wd)) fd = Mon (a ++ b) /\
  (forall j, j <> wd -> j <> fd -> tab (fst (remove s wd)) j = tab s j) /\
  (a ++ b <> [] -> act (fst (remove s wd)) = act s /\ target (fst (remove s wd)) = target s) /\
  (a ++ b = [] -> act (fst (remove s wd)) = (act s - 1)%Z /\ target (fst (remove s wd)) fd = None).
Proof. exact removed. Qed.
Theorem C139_not_a_watch : forall s wd, (forall fd top p kwd, tab s wd <> Watch fd top p kwd) -> remove s wd = (s, false).
Proof. exact not_removed. Qed.

Print Assumptions C138_stop.
Print Assumptions C138_counted.
Print Assumptions C138_goes_on_partial.
Print Assumptions C138_stopped_ends.
Print Assumptions C138_others_end_refuted.
Print Assumptions C138_newer_closed_refuted.
Print Assumptions C138_last_handler_refuted.
Print Assumptions C138_cannot_watch_refuted.
Print Assumptions C138_loop_never_ends_refuted.
Print Assumptions C139_entered_partial.
Print Assumptions C139_single_freed_partial.
Print Assumptions C139_every_second_kept_refuted.
Print Assumptions C139_old_directory_reported_refuted.
Print Assumptions C139_removed.
Print Assumptions C139_not_a_watch.

(* tests: two watches in one loop (descriptor 9; the first with two directories below it), the first stopped *)
Definition two := [Init 5 100 1; Init 6 200 2; Turn 0 (Some 9) (Some 1) [(2, 101); (3, 102)]; Turn 1 None (Some 4) []; Stop 5].
Example two_watching : exists s, run (sys0 20) two = Ok s /\ ids s = [6%Z] /\ cnt s = 1%Z /\ loop_fd s = Some 9 /\ tab s 9 = Mon [1; 2; 3; 4] /\ target s 9 = Some 2 /\
  map t_cancel (tasks s) = [true; false] /\ map t_done (tasks s) = [false; false] /\ (0 < act s)%Z.
Proof. eexists. split; [vm_compute; reflexivity|]. vm_compute. repeat split; reflexivity. Qed.
Example both_end : exists s, run (sys0 20) (two ++ [Turn 0 None None []; Turn 1 None None []]) = Ok s /\ map t_done (tasks s) = [true; true] /\ ids s = [6%Z] /\ busy s = true /\
  tab s 2 = Watch 9 false 101 2 /\ tab s 4 = Watch 9 true 200 4 /\ tab s 1 = Free /\ tab s 3 = Free.
Proof. eexists. split; [vm_compute; reflexivity|]. vm_compute. repeat split; reflexivity. Qed.
(* the next watch: the directory the kernel numbers 2 is reported as the old one *)
Example reported_old : exists s, run (sys0 20) (two ++ [Turn 0 None None []; Turn 1 None None []; Init 7 300 3; Turn 2 (Some 9) (Some 1) [(2, 301)]]) = Ok s /\
  reported s 1 = Some 300 /\ reported s 2 = Some 101 /\ tab s 9 = Mon [1; 3].
Proof. eexists. split; [vm_compute; reflexivity|]. vm_compute. repeat split; reflexivity. Qed.
(* one begun between the two ends is closed by the second *)
Example newer : exists s, run (sys0 20) (two ++ [Turn 0 None None []; Init 7 300 3; Turn 2 (Some 8) (Some 1) []]) = Ok s /\ loop_fd s = Some 8 /\ tab s 9 = Free /\
  (exists s', turn s 1 None None [] = Ok s' /\ loop_fd s' = None /\ tab s' 8 = Free).
Proof. eexists. split; [vm_compute; reflexivity|]. vm_compute. repeat split; try reflexivity. eexists. split; [reflexivity|]. split; reflexivity. Qed.
