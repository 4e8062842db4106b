From Coq Require Import Permutation.
From Verif Require Import Base DequeModel DequeConcModel DequeConcProofs.

(* ---- Specification: the history replays on a double-ended queue.  The owner [o] adds at the back and
   removes at either end, everybody else removes at the front. ---- *)
Inductive replays (o : nat) : list event -> list Z -> Prop :=
| rp_nil : replays o [] []
| rp_push log l w : replays o log l -> replays o (log ++ [Pushed o w]) (l ++ [w])
| rp_front log l i x : replays o log (x :: l) -> replays o (log ++ [Got i x]) l
| rp_back log l x : replays o log (l ++ [x]) -> replays o (log ++ [Got o x]) l
| rp_empty log i : replays o log [] -> replays o (log ++ [SawEmpty i]) []
| rp_abort log l i : replays o log l -> replays o (log ++ [Aborted i]) l.

(* schedules: any step of anybody, or a take of the owner from start to end without a step in between.
   Only [o] pushes; the mark for "empty" is not pushed. *)
Inductive move := Any (l : label) | Take.
Definition expand (o : nat) (m : move) : list label :=
  match m with Any l => [l] | Take => LTake o :: repeat (LRun o) 7 end.
Definition allowed2 (o : nat) (m : move) : Prop :=
  match m with
  | Any (LPush i w) => i = o /\ w <> EMPTY
  | Any (LTake _) => False
  | _ => True
  end.
Definition schedule (o : nat) (ms : list move) : list label := flat_map (expand o) ms.

(* ---- invariant ---- *)
Definition word_ok (p : pc) : Prop :=
  match p with
  | PL w | PT w _ | PA w _ _ | RA w _ | RT w _ _ | RB w _ _ _ | RC w _ _ _ _ | RS w _ _ _ | RF w _ _
  | PR w _ | PS w _ _ | PB w _ => w <> EMPTY
  | _ => True
  end.
Record Inv2 (o : nat) (s : st) (h : list Z) : Prop := {
  j_le : top s <= bot s;
  j_len : length h = bot s;
  j_word : Forall (fun w => w <> EMPTY) h;
  j_replay : replays o (log s) (skipn (top s) h);
  j_cur : full_of s h (cur s) 0;
  j_thr : forall i p, nth_error (thr s) i = Some p -> tinv o s h i p /\ word_ok p;
  j_pushed : pushed (log s) <> [] -> 1 <= bot s }.

Lemma init_inv2 o size threads : 1 <= size -> Inv2 o (init size threads) [].
Proof.
  intros H. constructor; cbn [init top bot log length skipn]; auto.
  - constructor.
  - eexists; split; [reflexivity|]. cbn. rewrite repeat_length. repeat split; auto; lia.
  - intros i p E. cbn [thr init] in E. apply nth_error_In, repeat_spec in E. subst. split; exact I.
  - intros X. now destruct X.
Qed.

Lemma inv2_local o s h i p : Inv2 o s h -> tinv o s h i p -> word_ok p -> Inv2 o (go_to s i p) h.
Proof.
  intros [H1 H2 H3 H4 H5 H6 H7] Hp Hw. constructor; auto.
  intros j q Hq. apply nth_go in Hq. destruct Hq as [[-> ->]|[_ Hq]].
  - split; [apply tinv_ext with s; auto|auto].
  - destruct (H6 j q Hq). split; [apply tinv_ext with s; auto|auto].
Qed.

Lemma inv2_finish o s h i e : Inv2 o s h -> pushed [e] = [] ->
  replays o (log s ++ [e]) (skipn (top s) h) -> Inv2 o (finish s i e) h.
Proof.
  intros [H1 H2 H3 H4 H5 H6 H7] Ep Er. constructor; auto.
  - intros j q Hq. change (thr (finish s i e)) with (thr (go_to s i Idle)) in Hq.
    apply nth_go in Hq. destruct Hq as [[-> ->]|[_ Hq]]; [split; exact I|].
    destruct (H6 j q Hq). split; [apply tinv_ext with s; auto|auto].
  - cbn [finish log bot]. rewrite pushed_app, Ep, app_nil_r. auto.
Qed.

Lemma inv2_got o s h i x : Inv2 o s h -> top s < bot s -> nth_error h (top s) = Some x ->
  Inv2 o (finish (set_top s (top s + 1)) i (Got i x)) h.
Proof.
  intros [H1 H2 H3 H4 H5 H6 H7] Hlt Hx.
  constructor; cbn [finish set_top log top bot cur]; auto; try lia.
  - apply rp_front. rewrite Nat.add_1_r, <- skipn_nth; auto.
  - apply full_top with s; auto. cbn. lia.
  - intros j q Hq.
    change (thr (finish (set_top s (top s + 1)) i (Got i x))) with (thr (go_to s i Idle)) in Hq.
    apply nth_go in Hq. destruct Hq as [[-> ->]|[_ Hq]]; [split; exact I|].
    destruct (H6 j q Hq). split; [apply tinv_top with s; auto; cbn; lia|auto].
Qed.

Lemma inv2_owner o s s' h p : Inv2 o s h ->
  top s' = top s -> bot s' = bot s -> log s' = log s -> thr s' = thr (go_to s o p) ->
  length (arrs s) <= length (arrs s') ->
  (forall a t v, top s = t -> t < bot s -> holds (arrs s) a t v -> holds (arrs s') a t v) ->
  full_of s' h (cur s') 0 -> tinv o s' h o p -> word_ok p -> Inv2 o s' h.
Proof.
  intros [H1 H2 H3 H4 H5 H6 H7] Et Eb El Eth Ea Eh Hf Hp Hw.
  constructor; rewrite ?Et, ?Eb, ?El; auto.
  intros j q Hq. rewrite Eth in Hq. apply nth_go in Hq. destruct Hq as [[-> ->]|[N Hq]]; auto.
  destruct (H6 j q Hq). split; [apply tinv_thief with s h; auto; lia|auto].
Qed.

Lemma step2_RC o s h w b a t b2 s' : Inv2 o s h -> tinv o s h o (RC w b a t b2) -> w <> EMPTY ->
  run_pc s o (RC w b a t b2) = Ok s' -> Inv2 o s' h.
Proof.
  intros HI (_ & -> & -> & Ht & -> & (A & HA & Hb)) Hw E. cbn [run_pc] in E.
  pose proof HI as [H1 H2 _ _ (A' & HA' & Al & Sz & Fit & Cell) _ _].
  rewrite HA in HA'. injection HA' as <-.
  unfold get_arr in E. rewrite HA, Al in E. cbn [bind] in E.
  destruct (copy_spec (bot s - t) t (abuf A) (repeat 0%Z (2 * length (abuf A)))) as (new & EC & L & C & _);
    rewrite ?repeat_length; try lia.
  rewrite EC in E. cbn [bind] in E. injection E as <-. rewrite repeat_length in L, C.
  assert (NA : forall k, k < length (arrs s) ->
     nth_error (arrs s ++ [{| abuf := new; alive := true |}]) k = nth_error (arrs s) k)
    by (intros; now apply nth_error_app1).
  assert (cur s < length (arrs s)) by (apply nth_error_Some; congruence).
  apply inv2_owner with s (RS w (bot s) (cur s) (length (arrs s))); auto.
  - cbn. rewrite app_length. lia.
  - cbn. intros a t' v _ _ Hh. pose proof Hh as (B & HB & _).
    apply holds_ext with (arrs s); auto. apply NA. apply nth_error_Some. congruence.
  - exists A. cbn. rewrite NA by auto. repeat split; auto.
  - cbn [tinv]. repeat split; auto; [cbn; lia|].
    exists {| abuf := new; alive := true |}. cbn. rewrite nth_error_app2, Nat.sub_diag by lia.
    repeat split; auto; try lia.
    intros i v Hi Hv. rewrite L. replace i with (t + (i - t)) by lia. rewrite C by lia.
    apply Cell; auto; [lia|]. now replace (t + (i - t)) with i by lia.
Qed.

Lemma step2_RS o s h w b a n s' : Inv2 o s h -> tinv o s h o (RS w b a n) -> w <> EMPTY ->
  run_pc s o (RS w b a n) = Ok s' -> Inv2 o s' h.
Proof.
  intros HI (_ & -> & -> & Hn & HF) Hw E. cbn [run_pc] in E. injection E as <-.
  pose proof HI as [H1 H2 _ _ (A & HA & Al & Sz & Fit & Cell) _ _].
  assert (HF' : full_of (go_to (set_cur s n) o (RF w (bot s) (cur s))) h n 1)
    by (apply full_ext with s; auto).
  apply inv2_owner with s (RF w (bot s) (cur s)); auto.
  - destruct HF' as (B & HB & Bl & B1 & B2 & B3). exists B. repeat split; auto. lia.
  - cbn [tinv]. repeat split; auto. exists A. auto.
Qed.

Lemma step2_RF o s h w b a s' : Inv2 o s h -> tinv o s h o (RF w b a) -> w <> EMPTY ->
  run_pc s o (RF w b a) = Ok s' -> Inv2 o s' h.
Proof.
  intros HI (_ & -> & Hn & HF & (A & HA & Al)) Hw E. cbn [run_pc] in E.
  unfold get_arr in E. rewrite HA, Al in E. cbn [bind] in E. injection E as <-.
  pose proof HI as [H1 H2 _ _ Hc _ _].
  assert (FE : forall h r, full_of s h (cur s) r -> full_of (go_to
    (set_arrs s (set_nth a {| abuf := abuf A; alive := false |} (arrs s))) o (PR w (bot s))) h (cur s) r).
  { intros h' r (B & HB & Hx). exists B. cbn. rewrite set_nth_other by auto. auto. }
  apply inv2_owner with s (PR w (bot s)); auto.
  - cbn. now rewrite set_nth_length.
  - cbn. intros a' t v _ _ (B & HB & Hv). destruct (Nat.eq_dec a a') as [<-|N].
    + rewrite HA in HB. injection HB as <-. eexists. rewrite set_nth_same by (apply nth_error_Some; congruence).
      split; [reflexivity|exact Hv].
    + exists B. rewrite set_nth_other by auto. auto.
  - cbn [tinv]. repeat split; auto.
Qed.

Lemma step2_PS o s h w b a s' : Inv2 o s h -> tinv o s h o (PS w b a) -> w <> EMPTY ->
  run_pc s o (PS w b a) = Ok s' -> Inv2 o s' h.
Proof.
  intros HI (_ & -> & -> & (A & HA & Al & Sz & Fit & Cell)) Hw E. cbn [run_pc] in E.
  unfold get_arr in E. rewrite HA, Al in E. cbn [bind] in E.
  destruct (idx_ok (bot s) _ Sz) as [EI LI]. rewrite EI in E. cbn [bind] in E.
  rewrite wr_ok in E by auto. cbn [bind] in E. injection E as <-.
  pose proof HI as [H1 H2 _ _ _ _ _].
  set (B := {| abuf := set_nth (bot s mod length (abuf A)) w (abuf A); alive := true |}).
  assert (HB : nth_error (set_nth (cur s) B (arrs s)) (cur s) = Some B).
  { apply set_nth_same. apply nth_error_Some. congruence. }
  assert (LB : length (abuf B) = length (abuf A)) by apply set_nth_length.
  assert (CB : forall i v, top s <= i < bot s ->
     nth_error (abuf A) (Nat.modulo i (length (abuf A))) = Some v ->
     nth_error (abuf B) (Nat.modulo i (length (abuf B))) = Some v).
  { intros i v Hi Hv. rewrite LB. cbn [abuf B]. rewrite set_nth_other; auto.
    intros X. symmetry in X. revert X. apply mod_neq. lia. }
  assert (FB : full_of (go_to (set_arrs s (set_nth (cur s) B (arrs s))) o (PB w (bot s))) h (cur s) 1).
  { exists B. cbn [go_to set_arrs arrs top bot]. repeat split; auto; try lia. }
  apply inv2_owner with s (PB w (bot s)); auto.
  - cbn. now rewrite set_nth_length.
  - cbn [go_to set_arrs arrs]. intros a' t v Et Hlt (C & HC & Hv). destruct (Nat.eq_dec (cur s) a') as [<-|N].
    + rewrite HA in HC. injection HC as <-. exists B. split; auto. apply CB; auto. lia.
    + exists C. rewrite set_nth_other by auto. auto.
  - destruct FB as (C & F1 & F2 & F3 & F4 & F5). exists C. repeat split; auto. lia.
  - cbn [tinv]. repeat split; auto. exists B. split; [exact HB|]. rewrite LB. cbn [abuf B].
    now apply set_nth_same.
Qed.

Lemma step2_PB o s h w b s' : Inv2 o s h -> tinv o s h o (PB w b) -> w <> EMPTY ->
  run_pc s o (PB w b) = Ok s' -> Inv2 o s' (h ++ [w]).
Proof.
  intros HI (_ & -> & (A & HA & Al & Sz & Fit & Cell) & (A' & HA' & Hw)) Hn E. cbn [run_pc] in E.
  injection E as <-. rewrite HA in HA'. injection HA' as <-.
  pose proof HI as [H1 H2 H3 H4 H5 H6 H7].
  set (s' := finish (set_bot s (bot s + 1)) o (Pushed o w)).
  constructor; cbn [s' finish set_bot log top bot cur]; auto; try lia.
  - rewrite app_length, H2. cbn [length]. lia.
  - apply Forall_app. split; auto.
  - rewrite skipn_app. replace (top s - length h) with 0 by lia. cbn [skipn]. now apply rp_push.
  - exists A. cbn [s' finish set_bot arrs top bot]. repeat split; auto; try lia.
    intros i v Hi Hv. destruct (Nat.eq_dec i (bot s)) as [->|N].
    + rewrite nth_error_app2, H2, Nat.sub_diag in Hv by lia. injection Hv as <-. exact Hw.
    + rewrite nth_error_app1 in Hv by lia. apply Cell; auto. lia.
  - intros j q Hq.
    change (thr s') with (thr (go_to s o Idle)) in Hq.
    apply nth_go in Hq. destruct Hq as [[-> ->]|[N Hq]]; [split; exact I|].
    destruct (H6 j q Hq). split; [|auto].
    apply tinv_thief with s h; auto; cbn; try lia.
    intros t Lt. apply nth_error_app1. lia.
Qed.

Lemma step2_inv o s h l s' : Inv2 o s h -> allowed2 o (Any l) -> step s l = Ok s' -> exists h', Inv2 o s' h'.
Proof.
  intros HI Ha E. pose proof HI as [H1 H2 H3 H4 H5 H6 H7].
  destruct l as [i w|i|i|i]; cbn [step allowed2] in *; unfold start in *; [|destruct Ha| |].
  - destruct Ha as [-> Hw]. exists h. destruct (nth_error (thr s) o) as [[]|]; injection E as <-; auto.
    apply inv2_local; cbn [tinv word_ok]; auto.
  - exists h. destruct (nth_error (thr s) i) as [[]|]; injection E as <-; auto.
    apply inv2_local; cbn [tinv word_ok]; auto.
  - destruct (nth_error (thr s) i) as [p|] eqn:Ep; [|injection E as <-; eauto].
    destruct (H6 i p Ep) as [Hp Hw]. destruct p; try (destruct Hp; fail); cbn [word_ok] in Hw.
    + injection E as <-; eauto.
    + exists h. injection E as <-. apply inv2_local; cbn [tinv word_ok] in *; auto.
    + exists h. injection E as <-. apply inv2_local; cbn [tinv word_ok] in *; intuition auto.
    + exists h. destruct Hp as (-> & -> & Ht). cbn [run_pc] in E.
      destruct H5 as (A & HA & Al & Sz & Fit & Cell). unfold get_arr in E. rewrite HA, Al in E.
      cbn [bind] in E. injection E as <-.
      destruct (Nat.ltb_spec (length (abuf A)) (bot s - t + 1)) as [L|L]; apply inv2_local; cbn [tinv word_ok]; auto.
      repeat split; auto. exists A. repeat split; auto. lia.
    + exists h. injection E as <-. apply inv2_local; cbn [tinv word_ok] in *; intuition auto.
    + exists h. injection E as <-. destruct Hp as (-> & -> & ->). apply inv2_local; cbn [tinv word_ok] in *; auto.
      repeat split; auto. destruct H5 as (A & HA & _ & _ & Fit & _). exists A. split; auto. lia.
    + exists h. injection E as <-. apply inv2_local; cbn [tinv word_ok] in *; intuition auto.
    + exists h. pose proof Hp as [-> _]. eapply step2_RC; eauto.
    + exists h. pose proof Hp as [-> _]. eapply step2_RS; eauto.
    + exists h. pose proof Hp as [-> _]. eapply step2_RF; eauto.
    + exists h. injection E as <-. destruct Hp as (-> & -> & HF). apply inv2_local; cbn [tinv word_ok]; auto.
    + exists h. pose proof Hp as [-> _]. eapply step2_PS; eauto.
    + pose proof Hp as [-> _]. eexists. eapply step2_PB; eauto.
    + exists h. injection E as <-. apply inv2_local; cbn [tinv word_ok] in *; auto.
    + exists h. cbn [tinv run_pc] in *. destruct (Nat.ltb_spec t (bot s)) as [L|L]; injection E as <-.
      * apply inv2_local; cbn [tinv word_ok]; auto.
      * apply inv2_finish; auto. rewrite skipn_all2 in * by lia. now constructor.
    + exists h. cbn [tinv run_pc] in *. injection E as <-. destruct Hp as [P1 P2].
      apply inv2_local; cbn [tinv word_ok]; auto. destruct H5 as (A & HA & _ & _ & _ & Cell).
      repeat split; auto; [apply nth_error_Some; congruence|].
      intros Et v Hv. exists A. split; auto. apply Cell; auto. lia.
    + exists h. cbn [tinv run_pc] in *. destruct Hp as (P1 & P2 & P3 & P4).
      destruct (get_arr s a) as [buf| | |] eqn:G; try discriminate. cbn [bind] in E.
      apply get_arr_inv in G. destruct G as (A & HA & Al & <-).
      unfold idx in E. destruct (Nat.eqb_spec (length (abuf A)) 0); try discriminate. cbn [bind] in E.
      destruct (rd (abuf A) (Nat.modulo t (length (abuf A)))) as [x| | |] eqn:R; try discriminate.
      cbn [bind] in E. injection E as <-. apply rd_inv in R.
      apply inv2_local; cbn [tinv word_ok]; auto. repeat split; auto. intros Et.
      destruct (nth_error h t) as [v|] eqn:Hv.
      * destruct (P4 Et v eq_refl) as (B & HB & Hx). rewrite HA in HB. injection HB as <-. congruence.
      * apply nth_error_None in Hv. lia.
    + exists h. cbn [tinv run_pc] in *. destruct Hp as (P1 & P2 & P3).
      destruct (Nat.eqb_spec (top s) t) as [Et|Nt]; injection E as <-.
      * subst t. apply inv2_got; auto.
      * apply inv2_finish; auto. now constructor.
Qed.

(* ---- the take ---- *)
Lemma run_app a : forall s b, run s (a ++ b) = do s' <- run s a; run s' b.
Proof.
  induction a as [|l a IH]; intros s b; cbn [run app bind]; auto.
  destruct (step s l); cbn [bind]; auto.
Qed.

Lemma idle_runs o n : forall s, nth_error (thr s) o = Some Idle -> run s (repeat (LRun o) n) = Ok s.
Proof.
  induction n as [|n IH]; intros s H; cbn [run repeat]; auto. cbn [step]. rewrite H. cbn [run_pc bind]. auto.
Qed.
Lemma none_runs o n : forall s, nth_error (thr s) o = None -> run s (repeat (LRun o) n) = Ok s.
Proof.
  induction n as [|n IH]; intros s H; cbn [run repeat]; auto. cbn [step]. rewrite H. cbn [bind]. auto.
Qed.

(* the take as one action *)
Definition take1 (s : st) (o : nat) : outcome st :=
  match bot s with
  | O => UB
  | S b =>
    if Nat.leb (top s) b then
      do buf <- get_arr s (cur s);
      do d <- idx b (length buf);
      do x <- rd buf d;
      if Nat.eqb (top s) b then Ok (finish (set_top s (b + 1)) o (result o x)) else Ok (finish (set_bot s b) o (result o x))
    else Ok (finish s o (result o EMPTY))
  end.

Lemma set_nth_twice {A} (l : list A) : forall i x y, set_nth i x (set_nth i y l) = set_nth i x l.
Proof. induction l as [|z l IH]; intros [|i] x y; cbn; auto. now rewrite IH. Qed.

Lemma run_S l ls s : run s (l :: ls) = do s' <- step s l; run s' ls.
Proof. reflexivity. Qed.

Ltac one SAME := rewrite run_S; cbn [step thr]; rewrite SAME by (rewrite ?set_nth_length; auto); cbn [run_pc];
  unfold go_to, finish, set_bot, set_top, get_arr; cbn [bind top bot cur arrs thr log]; rewrite ?set_nth_twice.

Lemma take_block s o : nth_error (thr s) o = Some Idle -> run s (expand o Take) = take1 s o.
Proof.
  intros H. assert (L : o < length (thr s)) by (apply nth_error_Some; congruence).
  assert (SAME : forall (p : pc) l, length l = length (thr s) -> nth_error (set_nth o p l) o = Some p)
    by (intros; apply set_nth_same; lia).
  cbn [expand repeat]. rewrite run_S. cbn [step]. unfold start. rewrite H. unfold go_to. cbn [bind].
  rewrite run_S. cbn [step thr]. rewrite SAME by auto. cbn [run_pc bot]. unfold take1. destruct (bot s) as [|b] eqn:B; [reflexivity|].
  unfold go_to. cbn [bind top bot cur arrs thr log]. rewrite set_nth_twice.
  one SAME. one SAME. one SAME. one SAME. destruct (Nat.leb (top s) b).
  - destruct (nth_error (arrs s) (cur s)) as [A|]; [|reflexivity]. destruct (alive A); [|reflexivity]. cbn [bind].
    destruct (idx b (length (abuf A))) as [d| | |]; try reflexivity. cbn [bind].
    destruct (rd (abuf A) d) as [x| | |]; try reflexivity. cbn [bind].
    destruct (Nat.eqb_spec (top s) b) as [E|N].
    + cbn [bind]. one SAME. rewrite Nat.eqb_refl. cbn [bind]. one SAME. cbn [run]. rewrite B.
      replace (S b) with (b + 1) by lia. now rewrite E.
    + cbn [bind]. change ([LRun o; LRun o]) with (repeat (LRun o) 2). rewrite ?set_nth_twice, idle_runs; [reflexivity|]. cbn [thr]. apply SAME; now rewrite ?set_nth_length.
  - cbn [bind]. one SAME. change ([LRun o]) with (repeat (LRun o) 1). rewrite idle_runs by (cbn [thr]; apply SAME; now rewrite ?set_nth_length).
    unfold finish. rewrite B. replace (S b) with (b + 1) by lia. reflexivity.
Qed.

Lemma firstn_all_but (h : list Z) b x : nth_error h b = Some x -> length h = S b -> h = firstn b h ++ [x].
Proof. intros H L. rewrite <- firstn_nth by auto. symmetry. apply firstn_all2. lia. Qed.

Lemma take1_ok o s h : Inv2 o s h -> 1 <= bot s -> exists s' h', take1 s o = Ok s' /\ Inv2 o s' h'.
Proof.
  intros HI Hb. pose proof HI as [H1 H2 H3 H4 (A & HA & Al & Sz & Fit & Cell) H6 H7].
  unfold take1. destruct (bot s) as [|b] eqn:B; [lia|]. clear Hb. destruct (Nat.leb_spec (top s) b) as [Lb|Lb].
  - unfold get_arr. rewrite HA, Al. cbn [bind]. destruct (idx_ok b _ Sz) as [-> LI]. cbn [bind].
    destruct (nth_error h b) as [x|] eqn:Hx; [|apply nth_error_None in Hx; lia].
    rewrite (rd_ok _ _ x) by (apply Cell; auto; lia). cbn [bind].
    assert (NE : x <> EMPTY) by (rewrite Forall_forall in H3; apply H3; eapply nth_error_In; eauto).
    unfold result. apply Z.eqb_neq in NE. rewrite NE. destruct (Nat.eqb_spec (top s) b) as [E|N].
    + eexists _, h. split; [reflexivity|]. rewrite <- E. apply inv2_got; auto; [lia|]. now rewrite E.
    + eexists _, (firstn b h). split; [reflexivity|].
      assert (HS : h = firstn b h ++ [x]) by (apply firstn_all_but; auto).
      assert (LF : length (firstn b h) = b) by (rewrite firstn_length; lia).
      constructor; cbn [finish set_bot log top bot cur]; auto; try lia.
      * rewrite HS in H3. apply Forall_app in H3. tauto.
      * apply rp_back. rewrite HS, skipn_app in H4. replace (top s - length (firstn b h)) with 0 in H4 by lia. exact H4.
      * exists A. cbn [finish set_bot arrs top bot]. repeat split; auto; try lia.
        intros i v Hi Hv. apply Cell; [lia|]. rewrite HS, nth_error_app1 by lia. exact Hv.
      * intros j q Hq. change (thr (finish (set_bot s b) o (Got o x))) with (thr (go_to s o Idle)) in Hq.
        apply nth_go in Hq. destruct Hq as [[-> ->]|[Nj Hq]]; [split; exact I|].
        destruct (H6 j q Hq) as [Hp Hw]. split; auto.
        assert (EQ : forall t, t < b -> nth_error (firstn b h) t = nth_error h t).
        { intros t Lt. rewrite HS at 2. rewrite nth_error_app1; auto. lia. }
        destruct q; cbn [tinv finish set_bot top bot cur arrs] in *; auto; try (destruct Hp; congruence); try lia.
        -- destruct Hp as (P1 & P2 & P3 & P4). repeat split; auto; try lia. intros Et v Hv. rewrite EQ in Hv by lia. auto.
        -- destruct Hp as (P1 & P2 & P3). repeat split; auto; try lia. intros Et. rewrite EQ by lia. auto.
  - eexists _, h. split; [reflexivity|]. unfold result. replace (EMPTY =? EMPTY)%Z with true by reflexivity.
    apply inv2_finish; auto. rewrite skipn_all2 in * by lia. now constructor.
Qed.

Lemma owner_runs o n : forall s h s', Inv2 o s h -> run s (repeat (LRun o) n) = Ok s' -> exists h', Inv2 o s' h'.
Proof.
  induction n as [|n IH]; intros s h s' HI; cbn [repeat run].
  - intros [= <-]. eauto.
  - destruct (step s (LRun o)) as [s1| | |] eqn:E; try discriminate. cbn [bind]. intros R.
    destruct (step2_inv o s h (LRun o) s1 HI I E) as [h1 HI1]. eauto.
Qed.

Lemma take_inv o s h s' : Inv2 o s h -> run s (expand o Take) = Ok s' -> exists h', Inv2 o s' h'.
Proof.
  intros HI E. destruct (nth_error (thr s) o) as [p|] eqn:P.
  - assert (D : p = Idle \/ start s o TL = Ok s) by (unfold start; rewrite P; destruct p; auto).
    destruct D as [->|D].
    + rewrite take_block in E by auto. destruct (bot s) as [|b] eqn:B.
      * unfold take1 in E. rewrite B in E. discriminate.
      * destruct (take1_ok o s h HI) as (s1 & h1 & E1 & HI1); [lia|]. rewrite E1 in E. injection E as <-. eauto.
    + unfold expand in E. rewrite run_S in E. cbn [step] in E. rewrite D in E. cbn [bind] in E. eapply owner_runs; eauto.
  - unfold expand in E. rewrite run_S in E. cbn [step] in E. unfold start in E. rewrite P in E. cbn [bind] in E.
    rewrite none_runs in E by auto. injection E as <-. eauto.
Qed.

Lemma run_inv2 o ms : forall s h s', Inv2 o s h -> Forall (allowed2 o) ms -> run s (schedule o ms) = Ok s' ->
  exists h', Inv2 o s' h'.
Proof.
  induction ms as [|m ms IH]; intros s h s' HI HA E; cbn [schedule flat_map] in E.
  - injection E as <-. eauto.
  - inversion HA as [|? ? Hm Hr]; subst. rewrite run_app in E. destruct (run s (expand o m)) as [s1| | |] eqn:E1; try discriminate.
    cbn [bind] in E. assert (exists h1, Inv2 o s1 h1) as [h1 HI1]; [|eauto].
    destruct m as [l|].
    + cbn [expand run] in E1. destruct (step s l) as [s2| | |] eqn:E2; try discriminate. cbn [bind] in E1. injection E1 as <-.
      eapply step2_inv; eauto.
    + eapply take_inv; eauto.
Qed.

Lemma replays_perm o log l : replays o log l -> Permutation (pushed log) (got log ++ l).
Proof.
  induction 1; rewrite ?pushed_app, ?got_app; cbn [pushed got flat_map app]; rewrite ?app_nil_r; auto.
  - rewrite app_assoc. now apply Permutation_app_tail.
  - rewrite IHreplays, <- app_assoc. reflexivity.
  - rewrite IHreplays, <- app_assoc. apply Permutation_app_head, Permutation_app_comm.
  - now rewrite app_nil_r in IHreplays.
Qed.

Lemma deque_linearizable o size threads ms s : 1 <= size -> Forall (allowed2 o) ms ->
  run (init size threads) (schedule o ms) = Ok s ->
  exists rest, replays o (log s) rest /\ Permutation (pushed (log s)) (got (log s) ++ rest).
Proof.
  intros Hs HA E. destruct (run_inv2 o ms _ _ _ (init_inv2 o size threads Hs) HA E) as [h [_ _ _ H _ _ _]].
  exists (skipn (top s) h). split; auto. eapply replays_perm; eauto.
Qed.

(* once a task was pushed, a take does nothing undefined *)
Lemma take_safe o size threads ms s : 1 <= size -> Forall (allowed2 o) ms ->
  run (init size threads) (schedule o ms) = Ok s -> nth_error (thr s) o = Some Idle -> pushed (log s) <> [] ->
  exists s' rest, run s (expand o Take) = Ok s' /\ nth_error (thr s') o = Some Idle /\ replays o (log s) rest /\
    ((rest = [] /\ log s' = log s ++ [SawEmpty o]) \/
     (exists r x, rest = r ++ [x] /\ log s' = log s ++ [Got o x] /\ replays o (log s') r)).
Proof.
  intros Hs HA E Hi Hp. destruct (run_inv2 o ms _ _ _ (init_inv2 o size threads Hs) HA E) as [h HI].
  pose proof HI as [H1 H2 H3 H4 (A & HA' & Al & Sz & Fit & Cell) H6 H7]. specialize (H7 Hp).
  assert (L : o < length (thr s)) by (apply nth_error_Some; congruence).
  rewrite take_block by auto. unfold take1. destruct (bot s) as [|b] eqn:B; [lia|].
  destruct (Nat.leb_spec (top s) b) as [Lb|Lb].
  - unfold get_arr. rewrite HA', Al. cbn [bind]. destruct (idx_ok b _ Sz) as [-> LI]. cbn [bind].
    destruct (nth_error h b) as [x|] eqn:Hx; [|apply nth_error_None in Hx; lia].
    rewrite (rd_ok _ _ x) by (apply Cell; auto; lia). cbn [bind].
    assert (NE : x <> EMPTY) by (rewrite Forall_forall in H3; apply H3; eapply nth_error_In; eauto).
    unfold result. apply Z.eqb_neq in NE. rewrite NE.
    assert (HS : skipn (top s) h = skipn (top s) (firstn b h) ++ [x]).
    { assert (HS : h = firstn b h ++ [x]) by (apply firstn_all_but; auto). rewrite HS at 1. rewrite skipn_app.
      rewrite firstn_length. replace (top s - Nat.min b (length h)) with 0 by lia. reflexivity. }
    exists (if Nat.eqb (top s) b then finish (set_top s (b + 1)) o (Got o x) else finish (set_bot s b) o (Got o x)), (skipn (top s) h).
    split; [destruct (Nat.eqb (top s) b); reflexivity|]. split.
    { destruct (Nat.eqb (top s) b); cbn [finish thr set_top set_bot]; now apply set_nth_same. }
    split; auto. right. exists (skipn (top s) (firstn b h)), x.
    assert (LG : log (if Nat.eqb (top s) b then finish (set_top s (b + 1)) o (Got o x) else finish (set_bot s b) o (Got o x)) = log s ++ [Got o x])
      by (destruct (Nat.eqb (top s) b); reflexivity).
    split; auto. split; auto. rewrite LG. apply rp_back. now rewrite <- HS.
  - exists (finish s o (SawEmpty o)), (skipn (top s) h). split; [reflexivity|]. split.
    { cbn [finish thr]. now apply set_nth_same. }
    split; auto. left. split; auto. apply skipn_all2. lia.
Qed.
