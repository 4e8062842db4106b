(* Byte transfers: the claims. *)
From Verif Require Import Base IoModel IoProofs.

(* C51 *)
Theorem C51_in_order_partial buf n os : n <= length buf -> forall sent ret, async_write buf n os = Ok (sent, ret) ->
  sent = firstn (length sent) (firstn n buf) /\ length sent <= n /\ (ret = (-1)%Z \/ ret = Z.of_nat (length sent)).
Proof. exact (awrite_whole buf n os). Qed.
Theorem C51_all_sent buf n os : n <= length buf -> Forall no_fail os -> n <= progress os ->
  async_write buf n os = Ok (firstn n buf, Z.of_nat n).
Proof. exact (awrite_all buf n os). Qed.
Theorem C51_count_lost_refuted buf n j : 0 < j < n -> n <= length buf ->
  async_write buf n [Moved j; Bad] = Ok (firstn j buf, (-1)%Z).
Proof. exact (awrite_loses_count buf n j). Qed.
(* asking for more than the buffer holds is undefined *)
Theorem C51_beyond_buffer buf n os : length buf < n -> async_write buf n os = UB.
Proof. exact (awrite_short buf n os). Qed.
Example C51_ex : async_write [1; 2; 3; 4; 5]%Z 5 [Moved 2; Again; Moved 1; Again; Again; Moved 9] = Ok ([1; 2; 3; 4; 5]%Z, 5%Z).
Proof. vm_compute. reflexivity. Qed.

(* C52 *)
Theorem C52_success_equal src dst rs ws c d : copyfile src dst rs ws c = Ok (0%Z, d) -> exists s, src = Some s /\ dst = None /\ d = Some s.
Proof. exact (copy_success src dst rs ws c d). Qed.
Theorem C52_failure_prefix src dst rs ws c r d : copyfile src dst rs ws c = Ok (r, d) -> r = 0%Z \/
  (r = (-1)%Z /\ (d = dst \/ exists s k, src = Some s /\ dst = None /\ d = Some (firstn k s))).
Proof. exact (copy_failure src dst rs ws c r d). Qed.
Theorem C52_completes s rs ws : Forall fine_r rs -> Forall fine_w ws -> length s < length rs -> length s <= progress ws ->
  copyfile (Some s) None rs ws true = Ok (0%Z, Some s).
Proof. exact (copy_complete s rs ws). Qed.
Example C52_ex : copyfile (Some [1; 2; 3; 4; 5]%Z) None [Moved 2; Moved 9; Moved 0] [Moved 1; Intr; Moved 1; Moved 0; Moved 3] true = Ok (0%Z, Some [1; 2; 3; 4; 5]%Z).
Proof. vm_compute. reflexivity. Qed.
Example C52_ex_fail : copyfile (Some [1; 2; 3]%Z) None [Moved 3] [Moved 1; Bad] true = Ok ((-1)%Z, Some [1]%Z).
Proof. vm_compute. reflexivity. Qed.

(* C57 *)
Theorem C57_reads_back_partial old text fd k r cur : text <> [] -> (Z.of_nat (length text) < 2 ^ 31)%Z -> length text <= k ->
  length (match old with Some c => c | None => [] end) <= length text ->
  writefile old text fd (Moved k) true = (Some r, cur) -> forall fd' j, (0 < fd')%Z -> length text <= j ->
  readfile cur fd' (Moved j) = Some text.
Proof. exact (writefile_reads_back old text fd k r cur). Qed.
Theorem C57_effect old text fd k r cur : (Z.of_nat (length text) < 2 ^ 31)%Z -> length text <= k ->
  writefile old text fd (Moved k) true = (Some r, cur) ->
  r = Z.of_nat (length text) /\ cur = Some (text ++ skipn (length text) (match old with Some c => c | None => [] end)).
Proof. exact (writefile_effect old text fd k r cur). Qed.
Theorem C57_old_tail_refuted old text fd : length text < length old -> (Z.of_nat (length old) < 2 ^ 31)%Z -> (0 < fd)%Z ->
  exists r cur, writefile (Some old) text fd (Moved (length text)) true = (Some r, Some cur) /\
  r = Z.of_nat (length text) /\ cur <> text /\ length cur = length old /\
  readfile (Some cur) fd (Moved (length cur)) = Some cur.
Proof. exact (writefile_old_tail old text fd). Qed.
Theorem C57_empty_refuted fd fd' r : (0 < fd)%Z -> exists cur, writefile None [] fd r true = (Some 0%Z, cur) /\ readfile cur fd' r = None.
Proof. exact (empty_reads_null fd fd' r). Qed.
Theorem C57_fd0_refuted old text w c : fst (writefile old text 0 w c) = None.
Proof. exact (fd0_fails old text w c). Qed.
Theorem C57_close_failure_reported old text fd w : fst (writefile old text fd w false) = None.
Proof. exact (writefile_close_fails old text fd w). Qed.
Example C57_ex : writefile (Some [9; 9]%Z) [1; 2; 3]%Z 5 (Moved 3) true = (Some 3%Z, Some [1; 2; 3]%Z).
Proof. vm_compute. reflexivity. Qed.

(* C72 *)
Theorem C72_single_pool_partial l op' rs : cspec_run (fun _ => false) l = Some (op', rs) ->
  snd (cl_run 1 cls0 l) = rs /\ forall x, is_open (fst (cl_run 1 cls0 l)) x = op' x.
Proof. exact (close_one_pool0 l op' rs). Qed.
Theorem C72_legal_program p fd : (0 < fd)%Z -> exists op rs, cspec_run (fun _ => false) (leak_prog p fd) = Some (op, rs) /\ op fd = false.
Proof. exact (leak_legal p fd). Qed.
Theorem C72_leaks_refuted p fd : 2 <= p -> (0 < fd)%Z -> is_open (fst (cl_run p cls0 (leak_prog p fd))) fd = true.
Proof. exact (close_leaks p fd). Qed.
Theorem C72_other_source_refuted p fd : 0 < p -> (0 < fd)%Z -> exists l, is_open (fst (cl_run p cls0 l)) fd = true /\
  l = COpen fd :: repeat CJob (p - 1) ++ [CClose fd; CPlain fd] ++ repeat CJob (p - 1) ++ [CClose fd].
Proof. exact (close_plain_leaks p fd). Qed.
Example C72_ex : snd (cl_run 1 cls0 [COpen 5; CJob; CClose 5; CClose 5; COpen 5; COpen 6; CClose 6; CClose 5]) = [5; 0; 0; -1; 5; 6; 0; 0]%Z.
Proof. vm_compute. reflexivity. Qed.
Example C72_ex_two : snd (cl_run 2 cls0 [COpen 5; CClose 5; COpen 5; CClose 5]) = [5; 0; 5; -1]%Z.
Proof. vm_compute. reflexivity. Qed.

Print Assumptions C51_in_order_partial.
Print Assumptions C51_all_sent.
Print Assumptions C51_count_lost_refuted.
Print Assumptions C52_success_equal.
Print Assumptions C52_failure_prefix.
Print Assumptions C52_completes.
Print Assumptions C57_reads_back_partial.
Print Assumptions C57_effect.
Print Assumptions C57_old_tail_refuted.
Print Assumptions C57_empty_refuted.
Print Assumptions C57_fd0_refuted.
Print Assumptions C72_single_pool_partial.
Print Assumptions C72_legal_program.
Print Assumptions C72_leaks_refuted.
Print Assumptions C72_other_source_refuted.
Print Assumptions C51_beyond_buffer.
Print Assumptions C57_close_failure_reported.
