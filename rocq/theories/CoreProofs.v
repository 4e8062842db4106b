(* Specifications and proofs for CoreModel. *)
From Verif Require Import Base CoreModel.
Local Open Scope Z_scope.

(* ---- deadlines ---- *)
Definition G := 1000000000.
Definition nanos (t : Z * Z) : Z := fst t * G + snd t.

Lemma wraps_small x : - 2 ^ 63 <= x < 2 ^ 63 -> wraps 64 x = x.
Proof. intros H. unfold wraps. change (64 - 1) with 63. rewrite Z.mod_small; lia. Qed.

Lemma addms_exact sec nsec ms : 0 <= sec <= 2 ^ 62 -> 0 <= nsec < G -> 0 <= ms < 2 ^ 64 ->
  nanos (timespec_addms sec nsec ms) = nanos (sec, nsec) + ms * 1000000 /\ 0 <= snd (timespec_addms sec nsec ms) < G.
Proof.
  intros Hs Hn Hm. unfold timespec_addms, nanos, G in *.
  pose proof (Z.div_mod ms 1000 ltac:(lia)) as E. pose proof (Z.mod_pos_bound ms 1000 ltac:(lia)) as B.
  assert (Q : 0 <= ms / 1000 <= 2 ^ 55) by (split; [apply Z.div_pos; lia|]; apply Z.div_le_upper_bound; lia).
  change (1000 * 1000 * 1000) with 1000000000.
  rewrite (wraps_small (sec + _)) by lia. rewrite (wraps_small (nsec + _)) by lia.
  destruct (Z.leb_spec 1000000000 (nsec + ms mod 1000 * 1000 * 1000)); cbn [fst snd].
  - rewrite !wraps_small by lia. lia.
  - lia.
Qed.

Lemma sleep_exact ms : 0 <= ms < 2 ^ 32 -> nanos (sleep_spec ms) = ms * 1000000 /\ 0 <= snd (sleep_spec ms) < G.
Proof.
  intros H. unfold sleep_spec, nanos, G, wrapu; cbn [fst snd].
  pose proof (Z.div_mod ms 1000 ltac:(lia)). pose proof (Z.mod_pos_bound ms 1000 ltac:(lia)).
  rewrite Z.mod_small by lia. lia.
Qed.

Lemma tcp_exact ms : -2147483 <= ms <= 2147483 -> exists s u, tcp_timeval ms = Ok (s, u) /\ s * 1000000 + u = ms * 1000 /\ (0 <= ms -> 0 <= u < 1000000).
Proof.
  intros H. unfold tcp_timeval.
  replace (_ && _) with true by (symmetry; apply andb_true_intro; split; [apply Z.leb_le|apply Z.ltb_lt]; lia).
  eexists _, _; split; [reflexivity|].
  pose proof (Z.quot_rem' ms 1000). pose proof (Z.quot_rem' (ms * 1000) 1000000).
  replace (ms * 1000 ÷ 1000000) with (ms ÷ 1000) in H1.
  - split; [lia|]. intros P. pose proof (Z.rem_bound_pos (ms * 1000) 1000000). lia.
  - change 1000000 with (1000 * 1000). rewrite Z.quot_mul_cancel_r; lia.
Qed.

Lemma tcp_overflow ms : 2147484 <= ms -> tcp_timeval ms = UB.
Proof.
  intros H. unfold tcp_timeval. replace (ms * 1000 <? 2 ^ 31) with false by (symmetry; apply Z.ltb_ge; lia).
  now rewrite andb_false_r.
Qed.

(* ---- aligned allocation ---- *)
Lemma memalign_inside line sz base rnd : line = 16 \/ line = 32 \/ line = 64 \/ line = 128 \/ line = 256 ->
  0 <= sz -> 0 <= rnd -> 0 < base -> base + (sz + PAGE + line) <= 2 ^ 64 ->
  forall req p, memalign line sz base rnd = (req, p) ->
  req = sz + PAGE + line /\ base <= p /\ p + sz <= base + req /\ p mod line = 0.
Proof.
  intros L Hs Hr Hb Hw req p [= <- <-]. unfold PAGE in *.
  assert (LB : 16 <= line <= 256) by lia.
  pose proof (Z.mod_pos_bound rnd 4096 ltac:(lia)) as M.
  unfold wrapu.
  rewrite (Z.mod_small (sz + 4096 + line)) by lia. rewrite (Z.mod_small (base + _ + _ - _)) by lia.
  set (x := base + rnd mod 4096 + line - 1) in *.
  pose proof (Z.div_mod x line ltac:(lia)) as D. pose proof (Z.mod_pos_bound x line ltac:(lia)) as B.
  split; [reflexivity|]. rewrite Z.mod_mul by lia.
  assert (x / line * line = x - x mod line) by lia. lia.
Qed.

(* a size close to the largest one wraps round: a tiny block is requested *)
Lemma memalign_wraps : exists sz base rnd req p, 0 <= sz < 2 ^ 64 /\ 0 < base < 2 ^ 63 /\
  memalign 64 sz base rnd = (req, p) /\ req < 4096 /\ base + req < p + sz.
Proof. exists (2 ^ 64 - 4096), 4096, 0. do 2 eexists. vm_compute. repeat split; discriminate. Qed.

(* ---- allocators: the reference remembers only the last successful installation ---- *)
Definition full (m r c f : option nat) : option alloctab :=
  match m, r, c, f with Some m, Some r, Some c, Some f => Some {| a_malloc := m; a_realloc := r; a_calloc := c; a_free := f |} | _, _, _, _ => None end.
Definition pick (t : alloctab) (w : which) : nat :=
  match w with Malloc => a_malloc t | Realloc => a_realloc t | Calloc => a_calloc t | Free => a_free t end.
Fixpoint ref_calls (t : alloctab) (l : list aop) : list (which * nat) :=
  match l with
  | [] => []
  | ASet m r c f :: k => ref_calls (match full m r c f with Some t' => t' | None => t end) k
  | ACall w _ :: k => (w, pick t w) :: ref_calls t k
  | AInit :: k => ref_calls t k
  end.

Lemma alloc_calls l : forall s, calls (do_aops None s l) = calls s ++ ref_calls (tab s) l.
Proof.
  induction l as [|o l IH]; intros s; cbn [do_aops fold_left ref_calls]; [now rewrite app_nil_r|].
  fold (do_aops None (do_aop None s o) l). rewrite IH.
  destruct o as [m r c f|w e|]; cbn [do_aop].
  - destruct m, r, c, f; reflexivity.
  - destruct w; cbn [call calls tab pick]; now rewrite <- app_assoc.
  - reflexivity.
Qed.

Lemma set_all_or_nothing s m r c f :
  (full m r c f = None /\ snd (set_allocator s m r c f) = -1 /\ errno (fst (set_allocator s m r c f)) = EINVAL /\ tab (fst (set_allocator s m r c f)) = tab s)
  \/ (exists t, full m r c f = Some t /\ snd (set_allocator s m r c f) = 0 /\ errno (fst (set_allocator s m r c f)) = errno s /\ tab (fst (set_allocator s m r c f)) = t).
Proof. destruct m, r, c, f; cbn; eauto 10. Qed.

Lemma free_errno s e : errno (call s Free e) = errno s.
Proof. reflexivity. Qed.

(* start-up throws away an allocator installed before it *)
Lemma init_replaces p s m r c f w e : pick (tab (do_aops (Some p) s [ASet (Some m) (Some r) (Some c) (Some f); AInit])) w = p /\
  exists k, calls (do_aops (Some p) s [ASet (Some m) (Some r) (Some c) (Some f); AInit; ACall w e]) = k ++ [(w, p)].
Proof. split; [destruct w; reflexivity|]. exists (calls s). destruct w; reflexivity. Qed.

(* ---- start-up and shutdown ---- *)
Inductive phase := Stopped | Running | Failed.
(* None: an allocation failed inside os_init, or the library is used while not running *)
Definition cref1 (ph : phase) (o : cop) : option phase :=
  match o, ph with
  | CInit true true ok, Stopped => Some (if ok then Running else Failed)
  | CInit _ _ _, Stopped => None
  | CInit _ _ _, ph => Some ph
  | CDeinit, _ => Some Stopped
  | CUse, Running => Some Running
  | CUse, _ => None
  end.
Fixpoint cref (ph : phase) (l : list cop) : option phase :=
  match l with [] => Some ph | o :: k => match cref1 ph o with Some p => cref p k | None => None end end.

Definition live (s : core) : nat := b2n (io_table s) + b2n (port s) + b2n (fds s) + b2n (local s) + b2n (gc s) + b2n (results s).
Definition balanced (s : core) := (allocs s = frees s + live s)%nat.
Definition inv (ph : phase) (s : core) : Prop :=
  balanced s /\
  match ph with
  | Stopped => started s = false /\ os_inited s = false /\ live s = 0%nat
  | Running => started s = true /\ shut s = false /\ os_inited s = true /\ io_table s = true /\ io_clean s = true /\ port s = true /\ fds s = true /\ local s = true /\ gc s = true
  | Failed => started s = true /\ shut s = false /\ os_inited s = false /\ live s = 0%nat
  end.

Lemma live0 s : live s = 0%nat -> io_table s = false /\ port s = false /\ fds s = false /\ local s = false /\ gc s = false /\ results s = false.
Proof. unfold live, b2n. destruct (io_table s), (port s), (fds s), (local s), (gc s), (results s); cbn; try discriminate; auto 10. Qed.

Lemma core_step ph s o ph' : inv ph s -> cref1 ph o = Some ph' -> exists s', do_cop s o = Ok s' /\ inv ph' s'.
Proof.
  destruct s as [st sh oi it ic po fd lo g re al fr].
  intros [B H] R. unfold inv, balanced, do_cop, ev_init, ev_deinit, os_init, os_shutdown in *.
  destruct ph; cbn [started shut os_inited io_table io_clean port fds local gc results allocs frees] in H.
  - destruct H as (-> & -> & L). apply live0 in L. cbn in L. destruct L as (-> & -> & -> & -> & -> & ->). cbn in B.
    destruct o as [[] [] []| |]; cbn in R; try discriminate R; injection R as <-; cbn.
    + eexists; split; [reflexivity|]. cbn. split; [lia|auto 12].
    + eexists; split; [reflexivity|]. cbn. split; [lia|auto 12].
    + destruct sh; cbn; eexists; (split; [reflexivity|]); cbn; (split; [lia|auto]).
  - destruct H as (-> & -> & -> & -> & -> & -> & -> & -> & ->). cbn in B.
    destruct o as [[] [] []| |]; cbn in R; injection R as <-; cbn;
      (eexists; split; [reflexivity|]); cbn; (split; [destruct re; cbn in *; lia|auto 12]).
  - destruct H as (-> & -> & -> & L). apply live0 in L. cbn in L. destruct L as (-> & -> & -> & -> & -> & ->). cbn in B.
    destruct o as [[] [] []| |]; cbn in R; try discriminate R; injection R as <-; cbn;
      (eexists; split; [reflexivity|]); cbn; (split; [lia|auto 12]).
Qed.

Lemma core_run l : forall ph s ph', inv ph s -> cref ph l = Some ph' -> exists s', do_cops s l = Ok s' /\ inv ph' s'.
Proof.
  induction l as [|o l IH]; intros ph s ph' I R; cbn in *.
  - injection R as <-. eauto.
  - destruct (cref1 ph o) as [p|] eqn:E; [|discriminate].
    destruct (core_step ph s o p I E) as (s1 & -> & I1). cbn. exact (IH p s1 ph' I1 R).
Qed.

Lemma inv0 : inv Stopped core0.
Proof. split; [reflexivity|]. repeat split. Qed.

(* nothing is released twice or forgotten, whatever the history *)
Lemma core_history l ph : cref Stopped l = Some ph -> exists s, do_cops core0 l = Ok s /\
  allocs s = (frees s + live s)%nat /\ (ph <> Running -> live s = 0%nat) /\
  (ph = Running -> io_table s = true /\ port s = true /\ fds s = true /\ local s = true /\ gc s = true).
Proof.
  intros R. destruct (core_run l Stopped core0 ph inv0 R) as (s & E & B & H). exists s.
  split; [exact E|]. split; [exact B|]. destruct ph; split; intros K; try discriminate; try (now destruct K); tauto.
Qed.

Lemma init_again s a b c : started s = true -> ev_init s a b c = Ok (s, 0).
Proof. intros H. unfold ev_init. now rewrite H. Qed.

Lemma init_starts s a b c s' r : ev_init s a b c = Ok (s', r) -> started s' = true.
Proof.
  unfold ev_init, os_init, os_shutdown. destruct (started s) eqn:E; [now intros [= <- _]|].
  destruct s as [st sh oi it ic po fd lo g re al fr]; cbn. cbn in E.
  destruct oi, a, b, c, po, it, ic; cbn; now intros [= <- _].
Qed.

Lemma init_twice s a b c s' r a' b' c' : ev_init s a b c = Ok (s', r) -> ev_init s' a' b' c' = Ok (s', 0).
Proof. intros H. apply init_again. exact (init_starts _ _ _ _ _ _ H). Qed.

Lemma deinit_shuts s s' : ev_deinit s = Ok s' -> shut s' = true.
Proof.
  unfold ev_deinit, os_shutdown. destruct (shut s) eqn:E; [now intros [= <-]|].
  destruct s as [st sh oi it ic po fd lo g re al fr]; cbn.
  destruct oi, it, ic; cbn; now intros [= <-].
Qed.
Lemma deinit_twice s s' : ev_deinit s = Ok s' -> ev_deinit s' = Ok s'.
Proof. intros H. apply deinit_shuts in H. unfold ev_deinit. now rewrite H. Qed.

(* a failed start-up is remembered as a successful one: the next call reports success with nothing allocated *)
Lemma failed_start_reports_success :
  exists s s1, ev_init core0 true true false = Ok (s, -1) /\ ev_init s true true true = Ok (s1, 0) /\ live s1 = 0%nat.
Proof. do 2 eexists. repeat split. Qed.
(* a failed table allocation makes shutdown (run at exit) dereference NULL; a failed eventfd walks raw memory *)
Lemma failed_table_crashes : do_cops core0 [CInit false true true; CDeinit] = UB /\ do_cops core0 [CInit true false true] = UB.
Proof. split; reflexivity. Qed.

(* the platform's part on its own: initialising an initialised platform acquires nothing *)
Lemma os_init_twice s a b s' a' b' : os_init s a b = Ok (s', 0) -> os_init s' a' b' = Ok (s', 0).
Proof.
  unfold os_init. destruct (os_inited s) eqn:E.
  - intros [= <-]. now rewrite E.
  - destruct a; [|discriminate]. destruct (port s); [intros [= <-]; reflexivity|].
    destruct b; [intros [= <-]; reflexivity|]. destruct (os_shutdown _); cbn [bind]; discriminate.
Qed.
