(* Property theorems for directory-change notification. *)
From Verif Require Import Base StrModel FdModel NotifyModel NotifyProofs.

(* every well-formed buffer of records, of any number and any name lengths: one callback per record that
   has a name and a recognised change, in order, with the record's watch, exactly its kind of change and
   its full path; no byte outside the buffer is read and the walk ends *)
Theorem C50_each_record_delivered_partial pm info dir rs : Forall wf_rec rs -> Forall (knows pm info dir) rs ->
  exists cs, walk (length rs) pm info (encs rs) 0 = Ok cs /\ delivers dir rs cs.
Proof. exact (walk_all pm info dir rs). Qed.
(* records about the watched directory itself (removed, moved, queue overflow) have no name: never reported *)
Theorem C50_self_changes_lost_refuted pm info wd mask cookie : (0 <= wd < 2147483648)%Z -> is32 mask -> is32 cookie ->
  walk 1 pm info (enc {| nwd := wd; nmask := mask; ncookie := cookie; nname := []; npad := 0 |}) 0 = Ok [].
Proof. exact (self_not_reported pm info wd mask cookie). Qed.
(* stepping by hand with inotify_next never reaches the following record, whatever the records *)
Theorem C50_next_never_follows_refuted r rs : wf_rec r ->
  next_rec (encs (r :: rs)) (length (encs (r :: rs))) 0 <> Ok (Some (length (enc r))).
Proof. exact (next_never_follows r rs). Qed.
(* a path that does not fit is cut, so the callback sees another path *)
Theorem C50_long_path_cut_refuted pm info wd d name : info wd = Some (false, Some d) -> 0 < pm -> pm <= length d + 1 + length name ->
  exists p, path_of pm info wd name = Ok p /\ length p = pm - 1 /\ p <> d ++ 47%Z :: name.
Proof. exact (path_cut pm info wd d name). Qed.
(* one watch: names below the top directory are reported bare, below a sub-directory with its path *)
Theorem C73_one_watch s wd top p : free_at (tab (wtab s)) wd = true ->
  exists s', add_watch s wd top p = Ok (s', wd) /\ forall pm name, path_of pm (info_of s') wd name =
    Ok (if top then name else firstn (pm - 1) (p ++ slash :: name)).
Proof. exact (watch_one s wd top p). Qed.
(* with a full table the path is written through entry -1 *)
Theorem C73_full_table_refuted s wd top p : (forall i, free_at (tab (wtab s)) (Z.of_nat i) = false) -> add_watch s wd top p = UB.
Proof. exact (watch_full s wd top p). Qed.
(* the number of the notification descriptor itself has no path *)
Theorem C73_own_number_partial s fd : free_at (tab (wtab s)) fd = true -> exists s', notify_init s fd = Ok (s', fd) /\
  forall pm name, path_of pm (info_of s') fd name = UB.
Proof. exact (own_entry s fd). Qed.
Theorem C73_directory_known_partial l s : NoDup (map fst l) -> Forall (fun x => free_at (tab (wtab s)) (fst x) = true) l ->
  exists s', add_watches s l = Ok s' /\ (forall wd p, In (wd, p) l -> info_of s' wd = Some (false, Some p)) /\
             (forall q, free_at (tab (wtab s)) q = false -> info_of s' q = info_of s q).
Proof. exact (watches_known l s). Qed.
Theorem C73_watch_number_collides_refuted n fd p : (0 < fd < Z.of_nat n)%Z -> (2 < n) ->
  exists s h s' h', notify_init (wst0 n) fd = Ok (s, h) /\ add_watch s fd false p = Ok (s', h') /\ h' <> fd /\
  forall pm name, path_of pm (info_of s') fd name = UB.
Proof. exact (watch_collides n fd p). Qed.

(* "a" created in watch 1 (directory "d"), then something without a name, then "bc" modified in watch 2 (top) *)
Definition recs : list nrec := [{| nwd := 1; nmask := 256; ncookie := 0; nname := [97%Z]; npad := 15 |};
  {| nwd := 1; nmask := 1024; ncookie := 0; nname := []; npad := 0 |}; {| nwd := 2; nmask := 2; ncookie := 7; nname := [98%Z; 99%Z]; npad := 2 |}].
Definition info_ex : winfo := fun wd => if (wd =? 1)%Z then Some (false, Some [100%Z]) else Some (true, None).
Example C50_ex : exists e1 e2, walk 3 4096 info_ex (encs recs) 0 = Ok [{| cwd := 1; cev := e1; cpath := [100; 47; 97]%Z |}; {| cwd := 2; cev := e2; cpath := [98; 99]%Z |}] /\
  Z.land e1 WATCH_ADDED <> 0%Z /\ Z.land e2 WATCH_MODIFIED <> 0%Z.
Proof. do 2 eexists. split; [vm_compute; reflexivity|]. split; vm_compute; discriminate. Qed.
Example C50_ex_wf : Forall wf_rec recs.
Proof. repeat constructor; unfold is32; cbn; lia || discriminate || congruence. Qed.
Example C73_ex : exists s, add_watches (wst0 8) [(1, [97]); (2, [98])]%Z = Ok s /\ info_of s 2%Z = Some (false, Some [98%Z]).
Proof. eexists. split; [vm_compute; reflexivity|]. reflexivity. Qed.

Print Assumptions C50_each_record_delivered_partial.
Print Assumptions C50_self_changes_lost_refuted.
Print Assumptions C50_next_never_follows_refuted.
Print Assumptions C73_directory_known_partial.
Print Assumptions C73_watch_number_collides_refuted.
Print Assumptions C50_long_path_cut_refuted.
Print Assumptions C73_one_watch.
Print Assumptions C73_full_table_refuted.
Print Assumptions C73_own_number_partial.
