(* Claims C130 and C131. *)
From Verif Require Import Base WmModel WmProofs.

Theorem C130_first_notice conv junk r k tail : fine r -> (Z.of_nat (rec_len r) < 4294967296)%Z -> length (conv (snd r)) <= 255 -> plain (conv (snd r)) ->
  exists res, handler conv junk (enc (r :: k) ++ tail) = Ok res /\
    match res with
    | None => forall i, ~ means (fst r) i
    | Some (ev, name) => name = conv (snd r) /\ (exists i, means (fst r) i) /\ forall i, In i kinds -> (Z.land ev i <> 0)%Z <-> means (fst r) i
    end.
Proof. exact (handler_is conv junk r k tail). Qed.
Theorem C130_single_walk r f tail : fine r -> walk (S f) (enc [r] ++ tail) 0 = Ok [r].
Proof. exact (walk_one r f tail). Qed.
Theorem C130_rest_lost_refuted conv junk r k tail : fine r -> (Z.of_nat (rec_len r) < 4294967296)%Z -> length (conv (snd r)) <= 255 -> plain (conv (snd r)) ->
  handler conv junk (enc (r :: k) ++ tail) = handler conv junk (enc [r]).
Proof. exact (handler_rest conv junk r k tail). Qed.
Theorem C130_next_misplaced_refuted r1 r2 k tail : fine r1 -> (Z.of_nat (rec_len r1) < 4294967296)%Z ->
  next (enc (r1 :: r2 :: k) ++ tail) 0 = Ok (Some (16 * rec_len r1)) /\
  exists front, enc (r1 :: r2 :: k) = front ++ enc (r2 :: k) /\ length front = rec_len r1 /\ rec_len r1 < 16 * rec_len r1.
Proof. exact (next_wrong r1 r2 k tail). Qed.
Theorem C130_walk_outside_refuted r1 r2 k tail f : fine r1 -> (Z.of_nat (rec_len r1) < 4294967296)%Z -> length (enc (r1 :: r2 :: k) ++ tail) <= 16 * rec_len r1 ->
  walk (S (S f)) (enc (r1 :: r2 :: k) ++ tail) 0 = UB.
Proof. exact (walk_out r1 r2 k tail f). Qed.
Theorem C130_longer_name_before_refuted conv junk r k tail room prev z : fine r -> (Z.of_nat (rec_len r) < 4294967296)%Z -> length (conv (snd r)) <= room ->
  plain (conv (snd r)) -> plain prev ->
  exists out, name_of conv junk (enc (r :: k) ++ tail) 0 room (prev ++ 0%Z :: z) = Ok out /\
    (length prev <= length (conv (snd r)) <= length prev + length z -> Forall (eq 0%Z) z -> upto0 out = conv (snd r)) /\
    (length (conv (snd r)) < length prev -> upto0 out = conv (snd r) ++ skipn (length (conv (snd r))) prev).
Proof. exact (name_over conv junk r k tail room prev z). Qed.

Theorem C131_added l m : slots (adds m l) = slots m ++ map (fun w => (w_slot w, w_handle w)) l /\ closed (adds m l) = closed m /\
  mlist (adds m l) = mlist m ++ flat_map (fun w => (w_slot w, w_name w) :: map (fun d => (w_slot w, d)) (w_subs w)) l /\ mopen (adds m l) = mopen m.
Proof. exact (adds_are l m). Qed.
Theorem C131_counted l : count (adds mon0 l) = length l + fold_right (fun w n => length (w_subs w) + n) 0 l.
Proof. exact (count_all l). Qed.
Theorem C131_entry_removed m wd d : (exists pre w post, mlist m = pre ++ (w, d) :: post /\ Forall (fun x => snd x <> d) pre /\ mlist (fst (fst (del m wd (Some d)))) = pre ++ post) \/
  (Forall (fun x => snd x <> d) (mlist m) /\ fst (fst (del m wd (Some d))) = m).
Proof. exact (del_inside_list m wd d). Qed.
(* taken from the loop exactly when no entry is left *)
Theorem C131_taken_from_loop m wd d : snd (fst (del m wd (Some d))) = true <-> mlist (fst (fst (del m wd (Some d)))) = [].
Proof. exact (del_taken m wd d). Qed.
Theorem C131_still_watched_refuted m wd d : closed (fst (fst (del m wd (Some d)))) = closed m /\ slots (fst (fst (del m wd (Some d)))) = slots m /\ mopen (fst (fst (del m wd (Some d)))) = mopen m.
Proof. exact (del_inside m wd d). Qed.
Theorem C131_all_removed_refuted l w wd : closed (fst (fst (del (adds mon0 (l ++ [w])) wd None))) = [w_handle w] /\
  slots (fst (fst (del (adds mon0 (l ++ [w])) wd None))) = map (fun w => (w_slot w, w_handle w)) (l ++ [w]) /\
  mlist (fst (fst (del (adds mon0 (l ++ [w])) wd None))) = [] /\ mopen (fst (fst (del (adds mon0 (l ++ [w])) wd None))) = false.
Proof. exact (del_last l w wd). Qed.
Theorem C131_freed_buffer_read_into_refuted l w wd : NoDup (map w_handle (l ++ [w])) ->
  pending (fst (fst (del (adds mon0 (l ++ [w])) wd None))) = map w_handle l.
Proof. exact (del_pending l w wd). Qed.
Theorem C131_directory_of_last_watch_refuted l w wd : path_at (adds mon0 (l ++ [w])) wd = Some (w_name w).
Proof. exact (path_last l w wd). Qed.

(* "ab" added, then "c" modified *)
Example C130_ex : let b := enc [(1, [97; 98]); (3, [99])]%Z in
  length b = 30 /\ handler (fun w => w) [] b = Ok (Some (Z.lor WATCH_ADDED (Z.lnot ALL), [97; 98]%Z)) /\ next b 0 = Ok (Some 256) /\ walk 2 b 0 = UB /\
  walk 1 (enc [(3, [99])]%Z) 0 = Ok [(3, [99])]%Z.
Proof. repeat split; vm_compute; reflexivity. Qed.
Example C131_ex : pending (fst (fst (del (adds mon0 [{| w_slot := 5; w_handle := 100; w_name := 1; w_subs := [7] |}; {| w_slot := 6; w_handle := 104; w_name := 2; w_subs := [] |}]) 5 None))) = [100%Z].
Proof. reflexivity. Qed.
Print Assumptions C130_first_notice.
Print Assumptions C130_single_walk.
Print Assumptions C130_rest_lost_refuted.
Print Assumptions C130_next_misplaced_refuted.
Print Assumptions C130_walk_outside_refuted.
Print Assumptions C130_longer_name_before_refuted.
Print Assumptions C131_added.
Print Assumptions C131_counted.
Print Assumptions C131_entry_removed.
Print Assumptions C131_taken_from_loop.
Print Assumptions C131_still_watched_refuted.
Print Assumptions C131_all_removed_refuted.
Print Assumptions C131_freed_buffer_read_into_refuted.
Print Assumptions C131_directory_of_last_watch_refuted.
