From Verif Require Import Base StrModel StrProofs StrProofs2 BwModel BwProofs BwProofs2 BwProofs3.

(* ---- C144: which file changed (systems with kqueue) ---- *)
(* the files on record when the watch starts are those of the directory, names below 255 bytes *)
Theorem C144_recorded_partial : forall pm stat top w l, regs l = map fst w -> there pm stat top w -> Forall (fun x => length (fst x) < 255) w ->
  let s := start (record pm stat top l) in
  known s = w /\ used s = false /\ path s = None /\ work s = UNull /\ off s = 0 /\ cnt s = length w.
Proof. exact recorded_full. Qed.
(* the kind told: by the flags of the event (delete 1, write 2, rename 32) and the number of files before and after *)
Theorem C144_kind : forall s fl,
  (cnt s < off s -> Z.land fl 2 <> 0%Z -> kind_of s fl = 65536%Z) /\
  (off s < cnt s -> kind_of s fl = 4194304%Z) /\
  (off s <= cnt s \/ Z.land fl 2 = 0%Z -> Z.land fl 1 <> 0%Z -> kind_of s fl = 4194304%Z) /\
  (off s = cnt s -> Z.land fl 1 = 0%Z -> Z.land fl 32 <> 0%Z -> kind_of s fl = 1024%Z) /\
  (off s = cnt s -> Z.land fl 1 = 0%Z -> Z.land fl 32 = 0%Z -> kind_of s fl = 16384%Z).
Proof. exact kinds. Qed.
(* every path fits its buffer and is whole if it can be *)
Theorem C144_paths : forall pm top n, 0 < pm ->
  length (sub pm top n) < pm /\ (length top + 1 + length n < pm -> sub pm top n = top ++ 47%Z :: n).
Proof. exact sub_bound. Qed.
(* any course of changes and removals of single files is told to the handler, each with its kind and whole path, as
   long as the file listed last is not removed right after another removal *)
Theorem C144_course_partial : forall pm top u w evs told w', course pm top u w evs told w' ->
  forall s, known s = w -> (u = false -> used s = false /\ work s = UNull) ->
  exists s' hs, events pm top s evs = Ok (s', hs) /\ known s' = w' /\
    Forall2 (fun h t => exists e, h = Some (e, snd t) /\ Z.land e 4277248 = fst t) hs told.
Proof. exact course_told. Qed.
(* a new file is never told: whatever its place, the event reads a name that is not there *)
Theorem C144_added_refuted : forall pm top s fl stat l a n m b, known s = a ++ b -> regs l = map fst (a ++ (n, m) :: b) ->
  there pm stat top (a ++ (n, m) :: b) -> ~ In n (map fst (a ++ b)) -> path s = None -> (used s = false -> work s = UNull) ->
  event pm top s fl stat (Some l) = UB.
Proof. exact event_added. Qed.
(* nor is an event that changed no file (a directory made or removed inside): the name shown is a null pointer *)
Theorem C144_no_file_refuted : forall pm top s fl stat l, regs l = map fst (known s) -> there pm stat top (known s) -> path s = None ->
  (used s = false -> work s = UNull) -> event pm top s fl stat (Some l) = UB.
Proof. exact event_same. Qed.
(* the file listed last, removed right after another removal *)
Theorem C144_last_removed_refuted : forall pm top s fl stat l a n m, known s = a ++ [(n, m)] -> regs l = map fst a -> there pm stat top a ->
  path s = None -> used s = true -> event pm top s fl stat (Some l) = UB.
Proof. exact event_last. Qed.
(* the directory cannot be opened (it was removed): a file of the directory's own path in it is told as removed *)
Theorem C144_unopened_refuted : forall pm top s fl stat, used s = false -> off s < cnt s -> showable pm top top ->
  exists s' e, event pm top s fl stat None = Ok (s', Some (e, top ++ 47%Z :: top)) /\ Z.land e 4277248 = 4194304%Z /\ known s' = known s.
Proof. exact event_unopened. Qed.
(* a file that is gone again before it is looked at *)
Theorem C144_short_lived_refuted : forall pm top s fl stat l a x m n, known s = a ++ [(x, m)] -> regs l = map fst a ++ [n; x] ->
  there pm stat top (a ++ [(x, m)]) -> ~ In n (map fst (a ++ [(x, m)])) -> stat (sub pm top n) = None -> path s = None -> used s = false ->
  event pm top s fl stat (Some l) = UB.
Proof. exact event_short_lived. Qed.
(* two neighbours listed in the other order: one of them is on record twice from now on *)
Theorem C144_reordered_refuted : forall pm top s stat l a x m y m2 b, known s = a ++ (x, m) :: (y, m2) :: b -> regs l = map fst a ++ y :: x :: map fst b ->
  there pm stat top (known s) -> NoDup (map fst (known s)) -> length x < 255 ->
  exists s', look true pm stat top (Some l) s = Ok (s', UEntry x) /\ known s' = known s ++ [(x, m)] /\
    forall fl, event pm top s fl stat (Some l) = UB.
Proof. exact event_reordered. Qed.
(* a file whose name has 255 bytes is told as removed although it is there *)
Theorem C144_long_name_refuted : forall pm top stat l1 l2 n m w, regs l1 = map fst w -> there pm stat top w -> Forall (fun x => length (fst x) < 255) w ->
  254 < length n -> stat (sub pm top n) = Some m -> stat (sub pm top (firstn 254 n)) = None -> showable pm top (firstn 254 n) ->
  forall fl, exists s' e, event pm top (start (record pm stat top (l1 ++ (KReg, n) :: l2))) fl stat (Some (l1 ++ (KReg, n) :: l2)) =
    Ok (s', Some (e, top ++ 47%Z :: firstn 254 n)) /\ Z.land e 4277248 = 4194304%Z.
Proof. exact long_name. Qed.

(* ---- C145: blocking reads of directory changes (systems with kqueue) ---- *)
Theorem C145_changed_partial : forall pm ks len ch top s stat l a n m m' b, ks <= len -> known s = a ++ (n, m) :: b -> regs l = map fst (a ++ (n, m') :: b) ->
  there pm stat top (a ++ (n, m') :: b) -> m' <> m -> length top + 1 + length n < pm ->
  exists s', read_event pm ks len ch 1 top s stat (Some l) = Ok (s', UText (top ++ 47%Z :: n)) /\ known s' = a ++ (n, m') :: b /\
    (forall fl, is_added s' fl = false) /\ (forall fl, Z.land fl 1 = 0%Z -> is_removed s' fl = false).
Proof. exact read_modified. Qed.
Theorem C145_removed_partial : forall pm ks len ch top s stat l a n m b, ks <= len -> known s = a ++ (n, m) :: b -> regs l = map fst (a ++ b) ->
  there pm stat top (a ++ b) -> stat (sub pm top n) = None -> (b = [] -> used s = false /\ work s = UNull) -> length top + 1 + length n < pm ->
  exists s', read_event pm ks len ch 1 top s stat (Some l) = Ok (s', UText (top ++ 47%Z :: n)) /\ known s' = a ++ b /\
    forall fl, is_removed s' fl = true /\ is_added s' fl = false.
Proof. exact read_removed. Qed.
(* every event counts as a modification *)
Theorem C145_always_modified_refuted : forall fl, is_modified fl = true.
Proof. exact modified_always. Qed.
(* a new file: the name cannot be read, and one listed last is not even counted as new *)
Theorem C145_added_refuted : forall pm ks len ch top s stat l a n m b, ks <= len -> known s = a ++ b -> regs l = map fst (a ++ (n, m) :: b) ->
  there pm stat top (a ++ (n, m) :: b) -> ~ In n (map fst (a ++ b)) -> (used s = false -> work s = UNull) ->
  exists s' u, read_event pm ks len ch 1 top s stat (Some l) = Ok (s', u) /\ shown u = UB /\ (b = [] -> forall fl, is_added s' fl = false) /\
    (b <> [] -> forall fl, is_added s' fl = negb (Z.land fl 2 =? 0)%Z).
Proof. exact read_added. Qed.
(* the file listed last, removed after any other reported change: no name, and it stays on record *)
Theorem C145_last_removed_refuted : forall pm ks len ch top s stat l a n m, ks <= len -> known s = a ++ [(n, m)] -> regs l = map fst a -> there pm stat top a ->
  used s = true -> exists s', read_event pm ks len ch 1 top s stat (Some l) = Ok (s', UNull) /\ known s' = known s.
Proof. exact read_last. Qed.
(* events of several directories are written beyond a buffer that holds fewer *)
Theorem C145_buffer_overrun_refuted : forall pm ks len ch found top s stat dir, len < ks * Nat.min ch found ->
  read_event pm ks len ch found top s stat dir = UB.
Proof. exact read_overflow. Qed.

(* ---- C146: the end of watches (systems with kqueue) ---- *)
(* every watch made is open, known and, with an event loop, watched by it *)
Theorem C146_made : forall lk k lp dss, let s := fold_left add dss (init lp lk k) in
  opened s = (if lp then lk else k) :: concat dss /\ dirs s = concat dss /\ own s = true /\
  reg s = (if lp then concat dss else []) /\ wlist s = (if lp then match dss with [] => None | _ => Some (concat dss) end else None).
Proof. exact add_all. Qed.
(* with an event loop, removing one watch ends that one and no other *)
Theorem C146_remove_one : forall s d l, loops s = true -> wlist s = Some l -> NoDup l -> In d l -> In d (opened s) ->
  exists s' l', rm s d = (s', true) /\ wlist s' = Some l' /\ (forall x, In x l' <-> In x l /\ x <> d) /\ (forall x, In x (opened s') <-> In x (opened s) /\ x <> d) /\
    (forall x, In x (reg s') <-> In x (reg s) /\ x <> d) /\ (forall x, In x (dirs s') <-> In x (dirs s) /\ x <> d) /\ own s' = own s /\ NoDup l'.
Proof. exact rm_spec. Qed.
Theorem C146_remove_unknown : forall s d l, loops s = true -> wlist s = Some l -> ~ In d l -> rm s d = (s, false).
Proof. exact rm_unknown. Qed.
(* closing everything with a single watch *)
Theorem C146_close_one_partial : forall fuel s d, own s = true -> wlist s = Some [d] -> 0 < fuel ->
  exists s', close_all fuel s = Ok (s', true) /\ ~ In d (opened s') /\ ~ In d (reg s').
Proof. exact one_closed. Qed.
(* with two or more, the second stays open and watched, and no call ends it any more *)
Theorem C146_close_leaves_refuted : forall fuel s l d0 d1 r, own s = true -> wlist s = Some l -> l = d0 :: d1 :: r -> NoDup l -> length l <= fuel ->
  In d1 (opened s) -> In d1 (reg s) -> d1 <> kq s -> loops s = true ->
  exists s', close_all fuel s = Ok (s', true) /\ In d1 (opened s') /\ In d1 (reg s') /\ rm s' d1 = (s', false) /\ close_all fuel s' = Ok (s', false).
Proof. exact second_left. Qed.
(* exactly every second watch is closed *)
Theorem C146_close_every_second_refuted : forall fuel s, own s = true -> length (match wlist s with Some l => l | None => [] end) <= fuel ->
  exists s', close_all fuel s = Ok (s', true) /\ own s' = false /\ wlist s' = None /\ dirs s' = dirs s /\ loops s' = loops s /\
    (forall d, In d (opened s') <-> In d (opened s) /\ ~ In d (evens (match wlist s with Some l => l | None => [] end)) /\ d <> kq s) /\
    (forall d, In d (reg s') <-> In d (reg s) /\ ~ In d (evens (match wlist s with Some l => l | None => [] end))).
Proof. exact close_all_spec. Qed.
(* with an event loop the queue closed at the end is the loop's own; no structure of a directory is given back *)
Theorem C146_loop_queue_closed_refuted : forall fuel s, own s = true -> length (match wlist s with Some l => l | None => [] end) <= fuel ->
  exists s', close_all fuel s = Ok (s', true) /\ ~ In (kq s) (opened s') /\ dirs s' = dirs s.
Proof. exact queue_closed. Qed.
Theorem C146_queue_is_the_loops : forall lp lk k, kq (init lp lk k) = if lp then lk else k.
Proof. exact kq_init. Qed.
(* without a loop no directory is closed *)
Theorem C146_blocking_close_refuted : forall lk k dss fuel d, let s := fold_left add dss (init false lk k) in In d (concat dss) -> d <> k ->
  exists s', close_all fuel s = Ok (s', true) /\ In d (opened s').
Proof. exact blocking_left. Qed.

Print Assumptions C144_course_partial.
Print Assumptions C144_added_refuted.
Print Assumptions C145_added_refuted.
Print Assumptions C146_close_leaves_refuted.

(* ---- tests ---- *)
Definition mt (n : Z) : meta := {| m_size := n; m_ctime := n; m_mtime := n |}.
Definition topd : bytes := [100%Z].   (* "d" *)
Definition fa : bytes := [97%Z].
Definition fb : bytes := [98%Z].
Definition fc : bytes := [99%Z].
Definition st_of (w : world) (p : bytes) : option meta :=
  match find (fun x => name_eqb p (topd ++ 47%Z :: fst x)) w with Some x => Some (snd x) | None => None end.
Definition listing (w : world) : option (list (kind * bytes)) := Some ((KDir, [46%Z]) :: map (fun x => (KReg, fst x)) w).
Definition w0 : world := [(fa, mt 1); (fb, mt 2); (fc, mt 3)].
Definition w1 : world := [(fa, mt 1); (fb, mt 9); (fc, mt 3)].
Definition w2 : world := [(fb, mt 9); (fc, mt 3)].
Definition s0 : st := start (record 100 (st_of w0) topd [(KReg, fa); (KDir, [46%Z]); (KReg, fb); (KReg, fc)]).
Example t_start : known s0 = w0.
Proof. reflexivity. Qed.
Example t_course : exists s' e1 e2, events 100 topd s0 [(2%Z, st_of w1, listing w1); (2%Z, st_of w2, listing w2)] = Ok (s', [Some (e1, [100; 47; 98]%Z); Some (e2, [100; 47; 97]%Z)]) /\
  Z.land e1 4277248 = 16384%Z /\ Z.land e2 4277248 = 4194304%Z /\ known s' = w2.
Proof. do 3 eexists. split; [vm_compute; reflexivity|]. vm_compute. auto. Qed.
Example t_in_course : course 100 topd false w0 [(2%Z, st_of w1, listing w1); (2%Z, st_of w2, listing w2)] [(16384%Z, [100; 47; 98]%Z); (4194304%Z, [100; 47; 97]%Z)] w2.
Proof.
  assert (T : forall c, In c [97; 98; 99]%Z -> showable 100 topd [c]).
  { intros c Hc. split; [simpl; lia|]. assert (isspace c = false /\ c <> 0%Z) as (H1 & H2) by (simpl in Hc; intuition; subst; try reflexivity; discriminate).
    split; [unfold topd; simpl; repeat constructor; auto; discriminate|]. exists [100; 47]%Z, c. split; auto. split; auto. exists 100%Z, [47; c]%Z. auto. }
  apply (c_mod 100 topd false [(fa, mt 1)] fb (mt 2) (mt 9) [(fc, mt 3)]); try reflexivity; try discriminate.
  - repeat constructor.
  - apply T. simpl; auto.
  - apply (c_del 100 topd false [] fa (mt 1) [(fb, mt 9); (fc, mt 3)]); try reflexivity; try discriminate.
    + repeat constructor.
    + apply T. simpl; auto.
    + apply c_end.
Qed.
Example t_added : event 100 topd s0 2 (st_of (w0 ++ [([122%Z], mt 5)])) (listing (w0 ++ [([122%Z], mt 5)])) = UB.
Proof. reflexivity. Qed.
Example t_read : exists s', read_event 100 32 32 1 1 topd s0 (st_of w1) (listing w1) = Ok (s', UText [100; 47; 98]%Z) /\ used s' = true.
Proof. eexists. split; vm_compute; reflexivity. Qed.
Example t_close : exists s', close_all 9 (add (init true 5 6) [10; 11; 12; 13]) = Ok (s', true) /\ opened s' = [11; 13] /\ reg s' = [11; 13].
Proof. eexists. split; [vm_compute; reflexivity|]. vm_compute. auto. Qed.
Example t_rm : exists s', rm (add (init true 5 6) [10; 11; 12]) 11 = (s', true) /\ opened s' = [5; 10; 12] /\ wlist s' = Some [10; 12].
Proof. eexists. split; [vm_compute; reflexivity|]. vm_compute. auto. Qed.
