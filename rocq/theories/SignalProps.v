(* Property theorems for signal callbacks. *)
From Verif Require Import Base SignalModel SignalProofs.

(* Programs that remove a signal only from its own callback (once, before registering it again there) and
   whose callbacks return: every delivery runs the callback last registered and not removed since, or takes
   the default action when there is none; nothing undefined happens, for every table size and every
   pattern of refused registrations. *)
Theorem C49_last_registered_is_called_partial n l : forallb legal_act l = true ->
  exists s rs, do_acts (sst0 n) l = Ok (s, rs) /\ log s = expected (fun _ => None) l rs.
Proof. exact (last_registered_called n l). Qed.
Theorem C49_removal_elsewhere_is_ignored_refuted n g h : 0 < n ->
  exists s s1, sig_add (sst0 n) g h true = (s, 0%Z) /\ sig_del s g = Ok (s1, 0%Z) /\
  act_desc s1 = (-1)%Z /\ act_sig s1 = 1%Z /\ exists s2, deliver s1 g [] true = Ok (s2, []) /\ log s2 = [(g, Some h)].
Proof. exact (del_outside n g h). Qed.
Theorem C49_removed_twice_refuted n g h : 0 < n -> do_acts (sst0 n) [Op (SAdd g h true); Op (SDel g); Sig g [SDel g] true] = UB.
Proof. exact (del_twice_ub n g h). Qed.
Theorem C49_throwing_callback_refuted n g h b : 0 < n -> do_acts (sst0 n) [Op (SAdd g h true); Sig g [] false; Sig g b true] = Exn.
Proof. exact (throw_then_exit n g h b). Qed.
Theorem C49_registered_twice_count_refuted n g h h' : 0 < n ->
  exists s, do_acts (sst0 n) [Op (SAdd g h true); Op (SAdd g h' true); Sig g [SDel g] true] = Ok (s, [[0%Z]; [0%Z]; [0%Z]]) /\
  act_sig s = 1%Z /\ disp s g = false.
Proof. exact (count_leaks n g h h'). Qed.
Theorem C49_table_fills_with_dead_entries_refuted : forallb legal_act (fill_prog 65) = true /\
  exists s rs, do_acts (sst0 65) (fill_prog 65) = Ok (s, rs) /\ last rs [] = [(-1)%Z].
Proof. exact table_full. Qed.

Definition demo : list act := [Op (SAdd 1 11 true); Op (SAdd 2 22 true); Sig 1 [SDel 1; SAdd 2 23 true] true; Sig 2 [] true; Sig 1 [] true; Sig 2 [SDel 2; SAdd 1 12 true] true; Sig 2 [] true; Sig 1 [] true].
Example C49_ex : forallb legal_act demo = true /\ exists s rs, do_acts (sst0 3) demo = Ok (s, rs) /\
  log s = [(1%Z, Some 11); (2%Z, Some 23); (1%Z, None); (2%Z, Some 23); (2%Z, None); (1%Z, Some 12)].
Proof. split; [reflexivity|]. do 2 eexists. split; [vm_compute; reflexivity|]. reflexivity. Qed.

Print Assumptions C49_last_registered_is_called_partial.
Print Assumptions C49_removal_elsewhere_is_ignored_refuted.
Print Assumptions C49_removed_twice_refuted.
Print Assumptions C49_throwing_callback_refuted.
Print Assumptions C49_registered_twice_count_refuted.
Print Assumptions C49_table_fills_with_dead_entries_refuted.
