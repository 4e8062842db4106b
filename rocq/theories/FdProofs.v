(* Specification and proofs for FdModel. *)
From Verif Require Import Base FdModel.

(* ---- specification: open handles and what is attached to them ---- *)
Record hnd := { hty : nat; hfd : Z; hev : Z }.
Definition fmap := Z -> option hnd.
Definition fupd (m : fmap) (k : Z) (v : option hnd) : fmap := fun x => if (x =? k)%Z then v else m x.
Definition keeps_event (ty : nat) : bool := (ty =? FD_MONITOR_ASYNC) || (ty =? FD_MONITOR_SYNC) || (ty =? FD_PIPE_ASYNC).
(* None: a rule is broken, i.e. a handle is handed out that is still open *)
Definition spec_step (m : fmap) (o : fop) (r : Z) : option (fmap * list Z) :=
  match o with
  | FNew _ _ _ ty fd des =>
    if (r =? -1)%Z then Some (m, [])
    else if (r <? 0)%Z then None
    else match m r with Some _ => None | None => Some (fupd m r (Some {| hty := ty; hfd := des; hev := fd |}), []) end
  | FSet p v => match m p with Some h => Some (fupd m p (Some {| hty := hty h; hfd := v; hev := hev h |}), []) | None => Some (m, []) end
  | FAssign v p ev => match m p with Some h => Some (fupd m p (Some {| hty := hty h; hfd := v; hev := ev |}), []) | None => Some (m, []) end
  | FClose p =>
    if (p =? -1)%Z then Some (m, [])
    else match m p with
    | Some h => if (hfd h =? -1)%Z then Some (m, [p]) else Some (fupd m p None, (if keeps_event (hty h) then [] else [hev h]) ++ [hfd h])
    | None => Some (m, [p])
    end
  end.
Fixpoint spec_run (m : fmap) (l : list fop) (rs : list Z) : option (fmap * list Z) :=
  match l, rs with
  | [], [] => Some (m, [])
  | o :: k, r :: rs' => match spec_step m o r with
                        | None => None
                        | Some (m1, c1) => match spec_run m1 k rs' with None => None | Some (m2, c2) => Some (m2, c1 ++ c2) end
                        end
  | _, _ => None
  end.
Definition fno : fmap := fun _ => None.
Definition typed (o : fop) : Prop := match o with FNew _ _ _ ty _ _ => ty <> 0 | _ => True end.

(* ---- proofs ---- *)
Definition used (t : list ent) (p : Z) : option hnd :=
  match fd_entry t p with Some (_, e) => if ety e =? 0 then None else Some {| hty := ety e; hfd := efd e; hev := eev e |} | None => None end.
Definition agree (m : fmap) (t : list ent) : Prop := forall p, m p = used t p.

Lemma entry_in t p i e : fd_entry t p = Some (i, e) -> (0 <= p)%Z /\ i = Z.to_nat p /\ nth_error t i = Some e /\ i < length t.
Proof.
  unfold fd_entry. destruct (Z.ltb_spec p 0); [discriminate|]. destruct (nth_error t (Z.to_nat p)) as [x|] eqn:N; [|discriminate].
  intros [= <- <-]. assert (Z.to_nat p < length t) by (apply nth_error_Some; congruence). auto.
Qed.
Lemma used_set t p i e v q : fd_entry t p = Some (i, e) -> used (set_nth i v t) q =
  if (q =? p)%Z then (if ety v =? 0 then None else Some {| hty := ety v; hfd := efd v; hev := eev v |}) else used t q.
Proof.
  intros H. apply entry_in in H. destruct H as (P & -> & N & L). unfold used, fd_entry.
  destruct (Z.ltb_spec q 0) as [Q|Q].
  - destruct (Z.eqb_spec q p); [lia|reflexivity].
  - destruct (Z.eqb_spec q p) as [->|NE].
    + rewrite set_nth_same by assumption. reflexivity.
    + rewrite set_nth_other by lia. reflexivity.
Qed.
Lemma used_grow t k p : used (t ++ repeat ent0 k) p = used t p.
Proof.
  unfold used, fd_entry. destruct (p <? 0)%Z; [reflexivity|]. destruct (Nat.lt_ge_cases (Z.to_nat p) (length t)) as [L|L].
  - now rewrite nth_error_app1.
  - rewrite nth_error_app2 by assumption. rewrite (proj2 (nth_error_None t (Z.to_nat p))) by assumption.
    destruct (nth_error (repeat ent0 k) (Z.to_nat p - length t)) as [e|] eqn:E; [|reflexivity].
    apply nth_error_In, repeat_spec in E. subst e. reflexivity.
Qed.
Lemma grows_app f room act t t' : grows f room act t = Ok t' -> exists k, t' = t ++ repeat ent0 k /\ (forall a, act = Some a -> a < length t').
Proof.
  revert t t'; induction f as [|f IH]; intros t t' H; cbn [grows] in H.
  - destruct act as [a|]; [destruct (Nat.leb_spec (length t) a); [discriminate|]|]; injection H as <-; exists 0; (split; [symmetry; apply app_nil_r|]); intros b; congruence.
  - destruct act as [a|]; [|injection H as <-; exists 0; split; [symmetry; apply app_nil_r|intros b; congruence]].
    destruct (Nat.leb_spec (length t) a) as [L|L]; [|injection H as <-; exists 0; split; [symmetry; apply app_nil_r|intros b; congruence]].
    unfold grow in H. destruct (_ <=? room); [|discriminate]. cbn [bind] in H. destruct (IH _ _ H) as (k & -> & B).
    exists (length t + k). split; [|exact B]. rewrite repeat_app, app_assoc. reflexivity.
Qed.
(* the table doubles until it exceeds the count: never undefined when there is room for twice the count *)
Lemma grows_ok room a t : 0 < length t -> a + a <= room -> exists f t', grows f room (Some a) t = Ok t'.
Proof.
  intros H R. remember (S a - length t) as d eqn:D. revert t H D. induction d as [d IH] using lt_wf_ind. intros t H D.
  destruct (Nat.lt_ge_cases a (length t)) as [L|L].
  - exists 0, t. cbn. destruct (Nat.leb_spec (length t) a); [lia|reflexivity].
  - destruct (IH (S a - length (t ++ repeat ent0 (length t)))) with (t := t ++ repeat ent0 (length t)) as (f & t' & E);
      rewrite ?app_length, ?repeat_length; try lia.
    exists (S f), t'. cbn [grows]. destruct (Nat.leb_spec (length t) a); [|lia]. unfold grow.
    destruct (Nat.leb_spec (length t + length t) room); [|lia]. exact E.
Qed.

Lemma free_used t p : free_at t p = true -> exists i e, fd_entry t p = Some (i, e) /\ ety e = 0.
Proof.
  unfold free_at, fd_entry. intros H. apply andb_true_iff in H. destruct H as [H1 H2].
  destruct (nth_error t (Z.to_nat p)) as [e|]; [|discriminate]. destruct (Z.ltb_spec p 0); [lia|].
  apply Nat.eqb_eq in H2. eauto.
Qed.
Lemma first_free_some t : forall k i, first_free t k = Some i -> k <= i /\ 0 < i /\ exists e, nth_error t (i - k) = Some e /\ ety e = 0.
Proof.
  induction t as [|e t IH]; intros k i H; cbn [first_free] in H; [discriminate|].
  destruct (0 <? k) eqn:K; cbn [andb] in H.
  - apply Nat.ltb_lt in K. destruct (Nat.eqb_spec (ety e) 0) as [Z|NZ].
    + injection H as <-. split; [lia|]. split; [lia|]. exists e. rewrite Nat.sub_diag. auto.
    + destruct (IH _ _ H) as (A & B & x & N & X). split; [lia|]. split; [lia|]. exists x. replace (i - k) with (S (i - S k)) by lia. auto.
  - destruct (IH _ _ H) as (A & B & x & N & X). split; [lia|]. split; [lia|]. exists x. replace (i - k) with (S (i - S k)) by lia. auto.
Qed.
Lemma first_free_none t : forall k, first_free t k = None -> forall j e, nth_error t j = Some e -> 0 < k + j -> ety e <> 0.
Proof.
  induction t as [|e t IH]; intros k H j x N L; [now destruct j|]. cbn [first_free] in H.
  destruct ((0 <? k) && (ety e =? 0)) eqn:B; [discriminate|]. destruct j as [|j]; cbn in N.
  - injection N as <-. apply andb_false_iff in B. destruct B as [B|B]; [apply Nat.ltb_ge in B; lia|now apply Nat.eqb_neq].
  - apply (IH _ H j x N). lia.
Qed.
Lemma pick_some t fd des i : pick t fd des = Some i -> exists e, fd_entry t (Z.of_nat i) = Some (i, e) /\ ety e = 0.
Proof.
  unfold pick. intros H.
  assert (F : forall p, free_at t p = true -> Some (Z.to_nat p) = Some i -> exists e, fd_entry t (Z.of_nat i) = Some (i, e) /\ ety e = 0).
  { intros p P [= <-]. destruct (free_used t p P) as (j & e & E & Z). pose proof (entry_in _ _ _ _ E) as (P0 & -> & _ & _).
    rewrite Z2Nat.id by assumption. eauto. }
  destruct (free_at t des) eqn:D; [eauto|]. destruct (0 <? fd)%Z; [|discriminate]. destruct (free_at t fd) eqn:E; [eauto|].
  apply first_free_some in H. destruct H as (_ & P & e & N & Z). rewrite Nat.sub_0_r in N. exists e. split; [|exact Z].
  unfold fd_entry. destruct (Z.ltb_spec (Z.of_nat i) 0); [lia|]. rewrite Nat2Z.id, N. reflexivity.
Qed.

Lemma step_refines s o s' r m : agree m (tab s) -> typed o -> fstep s o = Ok (s', r) ->
  exists m' c, spec_step m o r = Some (m', c) /\ agree m' (tab s') /\ closed s' = closed s ++ c.
Proof.
  intros A T H. destruct o as [f room act ty fd des|p v|h p ev|p]; cbn [fstep spec_step typed] in *.
  - unfold fd_new in H. destruct (grows f room act (tab s)) as [t| | |] eqn:G; cbn [bind] in H; try discriminate.
    destruct (grows_app _ _ _ _ _ G) as (k & -> & _). destruct (pick _ fd des) as [i|] eqn:P; injection H as <- <-.
    + destruct (pick_some _ _ _ _ P) as (e & E & Z). destruct (Z.eqb_spec (Z.of_nat i) (-1)); [lia|]. destruct (Z.ltb_spec (Z.of_nat i) 0); [lia|].
      assert (U : m (Z.of_nat i) = None). { rewrite A, <- (used_grow (tab s) k). unfold used. rewrite E, Z. reflexivity. }
      rewrite U. do 2 eexists. split; [reflexivity|]. split; [|cbn; symmetry; apply app_nil_r].
      intros q. cbn [tab]. rewrite (used_set _ _ _ _ _ q E). cbn [ety]. apply Nat.eqb_neq in T. rewrite T. unfold fupd.
      destruct (q =? Z.of_nat i)%Z; [reflexivity|]. now rewrite A, used_grow.
    + do 2 eexists. split; [reflexivity|]. split; [|symmetry; apply app_nil_r]. intros q. cbn [tab]. now rewrite A, used_grow.
  - unfold fd_set in H. destruct (fd_entry (tab s) p) as [[i e]|] eqn:E; cbn [bind] in H; [|discriminate]. injection H as <- <-.
    rewrite A. unfold used at 1. rewrite E. destruct (ety e =? 0) eqn:Z.
    + do 2 eexists. split; [reflexivity|]. split; [|symmetry; apply app_nil_r]. intros q. cbn [tab]. rewrite (used_set _ _ _ _ _ q E). cbn [ety].
      rewrite Z. destruct (Z.eqb_spec q p) as [->|]; [|apply A]. rewrite A. unfold used. now rewrite E, Z.
    + do 2 eexists. split; [reflexivity|]. split; [|symmetry; apply app_nil_r]. intros q. cbn [tab]. rewrite (used_set _ _ _ _ _ q E). cbn [ety].
      rewrite Z. unfold fupd. destruct (q =? p)%Z; [reflexivity|apply A].
  - unfold fd_assign in H. destruct (fd_entry (tab s) p) as [[i e]|] eqn:E; cbn [fst snd] in H; injection H as <- <-.
    + rewrite A. unfold used at 1. rewrite E. destruct (ety e =? 0) eqn:Z.
      * do 2 eexists. split; [reflexivity|]. split; [|symmetry; apply app_nil_r]. intros q. cbn [tab]. rewrite (used_set _ _ _ _ _ q E). cbn [ety].
        rewrite Z. destruct (Z.eqb_spec q p) as [->|]; [|apply A]. rewrite A. unfold used. now rewrite E, Z.
      * do 2 eexists. split; [reflexivity|]. split; [|symmetry; apply app_nil_r]. intros q. cbn [tab]. rewrite (used_set _ _ _ _ _ q E). cbn [ety].
        rewrite Z. unfold fupd. destruct (q =? p)%Z; [reflexivity|apply A].
    + rewrite A. unfold used at 1. rewrite E. do 2 eexists. split; [reflexivity|]. split; [exact A|symmetry; apply app_nil_r].
  - injection H as <- <-. unfold fd_close. destruct (p =? -1)%Z; [do 2 eexists; split; [reflexivity|]; split; [exact A|symmetry; apply app_nil_r]|].
    rewrite A. unfold used at 1. destruct (fd_entry (tab s) p) as [[i e]|] eqn:E; [|do 2 eexists; split; [reflexivity|]; split; [exact A|reflexivity]].
    unfold valid. destruct (ety e =? 0) eqn:Z; cbn [negb andb]; [do 2 eexists; split; [reflexivity|]; split; [exact A|reflexivity]|].
    cbn [hfd]. destruct (efd e =? -1)%Z; cbn [negb]; [do 2 eexists; split; [reflexivity|]; split; [exact A|reflexivity]|].
    do 2 eexists. split; [reflexivity|]. split; [|reflexivity]. intros q. cbn [tab]. rewrite (used_set _ _ _ _ _ q E). cbn [ety Nat.eqb].
    unfold fupd. destruct (q =? p)%Z; [reflexivity|apply A].
Qed.
Lemma steps_refine l : forall s s' rs m, agree m (tab s) -> Forall typed l -> fsteps s l = Ok (s', rs) ->
  exists m' c, spec_run m l rs = Some (m', c) /\ agree m' (tab s') /\ closed s' = closed s ++ c.
Proof.
  induction l as [|o l IH]; intros s s' rs m A T H; cbn [fsteps] in H.
  - injection H as <- <-. do 2 eexists. split; [reflexivity|]. split; [exact A|symmetry; apply app_nil_r].
  - destruct (fstep s o) as [[s1 r]| | |] eqn:E; cbn [bind fst snd] in H; try discriminate.
    destruct (fsteps s1 l) as [[s2 rs2]| | |] eqn:E2; cbn [bind fst snd] in H; try discriminate. injection H as <- <-.
    destruct (step_refines s o s1 r m A (Forall_inv T) E) as (m1 & c1 & S1 & A1 & C1).
    destruct (IH s1 s2 rs2 m1 A1 (Forall_inv_tail T) E2) as (m2 & c2 & S2 & A2 & C2).
    cbn [spec_run]. rewrite S1, S2. do 2 eexists. split; [reflexivity|]. split; [exact A2|]. rewrite C2, C1. now rewrite app_assoc.
Qed.
Lemma agree0 n : agree fno (tab (fst0 n)).
Proof. intros p. unfold fst0. cbn [tab]. rewrite (used_grow [] n p : used (repeat ent0 n) p = _). unfold used, fd_entry. destruct (p <? 0)%Z; [reflexivity|]. now destruct (Z.to_nat p). Qed.
Lemma handles_unique n l s rs : Forall typed l -> fsteps (fst0 n) l = Ok (s, rs) ->
  exists m, spec_run fno l rs = Some (m, closed s) /\ forall p, m p = used (tab s) p.
Proof. intros T H. destruct (steps_refine l (fst0 n) s rs fno (agree0 n) T H) as (m & c & S & A & C). exists m. cbn in C. rewrite C. auto. Qed.

(* refusal only when nothing suitable is free *)
Lemma refused_only_when_full f room act s ty fd des s' : fd_new f room act s ty fd des = Ok (s', (-1)%Z) ->
  free_at (tab s') des = false /\ ((fd <= 0)%Z \/ forall i e, 0 < i -> nth_error (tab s') i = Some e -> ety e <> 0).
Proof.
  unfold fd_new. intros H. destruct (grows f room act (tab s)) as [t| | |] eqn:G; cbn [bind] in H; try discriminate.
  destruct (pick t fd des) as [i|] eqn:P; [exfalso; injection H; lia|]. injection H as <-. cbn [tab]. unfold pick in P.
  destruct (free_at t des); [discriminate|]. split; [reflexivity|]. destruct (Z.ltb_spec 0 fd); [|now left]. right.
  destruct (free_at t fd); [discriminate|]. intros i e I N. exact (first_free_none t 0 P i e N I).
Qed.

(* ---- violations ---- *)
(* a finished child (exec_wait): the number of its process is passed to close *)
Lemma child_pid_closed n ev pid : (0 < ev < Z.of_nat n)%Z -> (0 < pid)%Z ->
  exists s, fsteps (fst0 n) [FNew 0 0 None FD_CHILD ev (-1); FSet ev pid; FClose ev] = Ok (s, [ev; 0; 0]%Z) /\ closed s = [ev; pid].
Proof.
  intros E P. assert (L : Z.to_nat ev < n) by lia. assert (Q : Z.of_nat (Z.to_nat ev) = ev) by lia.
  assert (FE : free_at (repeat ent0 n) ev = true).
  { unfold free_at. destruct (Z.leb_spec 0 ev); [|lia]. destruct (nth_error (repeat ent0 n) (Z.to_nat ev)) as [e|] eqn:X.
    - apply nth_error_In, repeat_spec in X. now subst e.
    - apply nth_error_None in X. rewrite repeat_length in X. lia. }
  assert (LE : (0 <? ev)%Z = true) by now apply Z.ltb_lt.
  cbn [fsteps fstep]. unfold fd_new. cbn [grows bind fst0 tab closed]. unfold pick. rewrite LE, FE. cbn [free_at Z.leb Z.compare andb bind fst snd]. rewrite Q.
  assert (E1 : forall v, fd_entry (set_nth (Z.to_nat ev) v (repeat ent0 n)) ev = Some (Z.to_nat ev, v)).
  { intros v. unfold fd_entry. destruct (Z.ltb_spec ev 0); [lia|]. rewrite set_nth_same by (rewrite repeat_length; lia). reflexivity. }
  unfold fd_set. cbn [tab closed]. rewrite E1. cbn [bind fst snd ety eev]. unfold fd_close. destruct (Z.eqb_spec ev (-1)); [lia|]. cbn [tab closed].
  unfold fd_entry. destruct (Z.ltb_spec ev 0); [lia|]. rewrite set_nth_same by (rewrite set_nth_length, repeat_length; lia).
  unfold valid. cbn [ety efd Nat.eqb negb andb FD_CHILD]. destruct (Z.eqb_spec pid (-1)); [lia|]. cbn. eexists. split; reflexivity.
Qed.
(* a handle nothing was attached to cannot be closed: the call closes another descriptor, the one with the
   handle's number, and the handle stays in use *)
Lemma unattached_never_freed s i e : fd_entry (tab s) i = Some (Z.to_nat i, e) -> ety e <> 0 -> efd e = (-1)%Z ->
  fd_close s i = {| tab := tab s; closed := closed s ++ [i] |}.
Proof.
  intros E T F. destruct (entry_in _ _ _ _ E) as (P & _). unfold fd_close. destruct (Z.eqb_spec i (-1)); [lia|]. rewrite E. unfold valid. rewrite F.
  cbn. now rewrite andb_false_r.
Qed.
(* a handle that stands for the descriptor itself closes it twice *)
Lemma closed_twice s i e : fd_entry (tab s) i = Some (Z.to_nat i, e) -> ety e <> 0 -> keeps_event (ety e) = false -> efd e = eev e -> efd e <> (-1)%Z ->
  closed (fd_close s i) = closed s ++ [efd e; efd e].
Proof.
  intros E T K F N. destruct (entry_in _ _ _ _ E) as (P & _). unfold fd_close. destruct (Z.eqb_spec i (-1)); [lia|]. rewrite E. unfold valid.
  apply Nat.eqb_neq in T. rewrite T. apply Z.eqb_neq in N. rewrite N. cbn [negb andb closed]. unfold free_closes. unfold keeps_event in K. rewrite K. cbn. now rewrite F.
Qed.
(* a full table is not enlarged unless the loop's count says so *)
Lemma full_not_grown f room s ty fd des : Forall (fun e => ety e <> 0) (tab s) -> fd_new f room None s ty fd des = Ok (s, (-1)%Z).
Proof.
  intros U. unfold fd_new. replace (grows f room None (tab s)) with (Ok (tab s)) by now destruct f. cbn [bind].
  assert (FF : forall p, free_at (tab s) p = false).
  { intros p. destruct (free_at (tab s) p) eqn:E; [|reflexivity]. destruct (free_used _ _ E) as (i & e & H & Z). apply entry_in in H.
    destruct H as (_ & _ & N & _). apply nth_error_In in N. rewrite Forall_forall in U. specialize (U e N). contradiction. }
  unfold pick. rewrite !FF. replace (first_free (tab s) 0) with (@None nat); [destruct (0 <? fd)%Z; destruct s; reflexivity|].
  destruct (first_free (tab s) 0) as [i|] eqn:E; [|reflexivity]. apply first_free_some in E. destruct E as (_ & _ & e & N & Z).
  apply nth_error_In in N. rewrite Forall_forall in U. specialize (U e N). contradiction.
Qed.
