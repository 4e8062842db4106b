(* Specification and proofs for WaitModel. *)
From Verif Require Import Base WaitModel.
From Coq Require Import Permutation.

(* each member collected exactly once, at a time when it had ended *)
Definition collected (ended : nat -> nat -> bool) (g : list nat) (out : list (nat * nat)) : Prop :=
  Permutation g (map fst out) /\ forall x t, In (x, t) out -> ended t x = true.

Lemma remove_at_perm i g x : nth_error g i = Some x -> Permutation g (x :: remove_at i g).
Proof.
  revert g. induction i as [|i IH]; intros [|y g] H; try discriminate; cbn in H.
  - injection H as ->. reflexivity.
  - unfold remove_at. cbn [firstn skipn app]. rewrite (IH g H) at 1. apply perm_swap.
Qed.
Section W.
Variable ended : nat -> nat -> bool.
Variables dv dr dp : nat.
Notation wl := (wait_loop ended dv dr dp).
Lemma wl_sound fuel : forall t i g out t' out', wl fuel t i g out = Ok (t', out') -> exists o, out' = out ++ o /\ collected ended g o.
Proof.
  induction fuel as [|f IH]; intros t i g out t' out' H; [discriminate|]. cbn [wait_loop] in H. destruct (nth_error g i) as [x|] eqn:E.
  - destruct (ended t x) eqn:D.
    + destruct (IH _ _ _ _ _ _ H) as (o & -> & P & V). exists ((x, t) :: o). rewrite <- app_assoc. split; [reflexivity|]. split.
      * cbn [map fst]. rewrite (remove_at_perm i g x E). now constructor.
      * intros y s [Y|Y]; [injection Y as <- <-; exact D|auto].
    + exact (IH _ _ _ _ _ _ H).
  - destruct g as [|y g].
    + injection H as <- <-. exists []. rewrite app_nil_r. split; [reflexivity|]. split; [constructor|contradiction].
    + exact (IH _ _ _ _ _ _ H).
Qed.
Lemma wl_not_bad fuel : forall t i g out, wl fuel t i g out <> UB /\ wl fuel t i g out <> Exn.
Proof.
  induction fuel as [|f IH]; intros t i g out; cbn [wait_loop]; [split; discriminate|]. destruct (nth_error g i) as [x|]; [destruct (ended t x); apply IH|].
  destruct g; [split; discriminate|apply IH].
Qed.
Lemma wl_fuel fuel : forall t i g out r, wl fuel t i g out = Ok r -> wl (S fuel) t i g out = Ok r.
Proof.
  induction fuel as [|f IH]; intros t i g out r H; [discriminate|]. remember (S f) as f1. cbn [wait_loop]. rewrite Heqf1 in H. cbn [wait_loop] in H. subst f1.
  destruct (nth_error g i) as [x|]; [destruct (ended t x); apply IH, H|]. destruct g; [exact H|apply IH, H].
Qed.
Lemma wl_fuel_le a b t i g out r : a <= b -> wl a t i g out = Ok r -> wl b t i g out = Ok r.
Proof. induction 1; [auto|]. intros H1. apply wl_fuel, IHle, H1. Qed.
Lemma remove_at_length i g x : nth_error g i = Some x -> S (length (remove_at i g)) = length g.
Proof. intros H. pose proof (Permutation_length (remove_at_perm i g x H)). cbn in *. lia. Qed.
Lemma remove_at_in i g y : In y (remove_at i g) -> In y g.
Proof. unfold remove_at. intros H. apply in_app_or in H. rewrite <- (firstn_skipn i g). apply in_or_app. destruct H as [H|H]; [now left|right]. 
  clear -H. revert g H. induction i as [|i IH]; intros [|z g] H; cbn in *; auto. Qed.
(* ends once every member has ended for good, if time passes in every pass without a removal *)
Lemma wl_ends N : 0 < dv + dp -> forall K t i g out, length g + (N - t) <= K -> (forall s x, N <= s -> In x g -> ended s x = true) -> exists fuel r, wl fuel t i g out = Ok r.
Proof.
  intros D. induction K as [K IHK] using lt_wf_ind.
  (* one pass from index i, having already made progress or not *)
  assert (PASS : forall m t i g out, length g - i = m -> length g + (N - t) <= K -> (forall s x, N <= s -> In x g -> ended s x = true) ->
    (i = 0 \/ length g + (N - t) < K) -> exists fuel r, wl fuel t i g out = Ok r).
  { induction m as [m IHm] using lt_wf_ind. intros t i g out M L E P. destruct (nth_error g i) as [x|] eqn:X.
    - pose proof (nth_error_In _ _ X) as IX. assert (LI : i < length g) by (apply nth_error_Some; congruence). destruct (ended t x) eqn:DX.
      + pose proof (remove_at_length i g x X) as RL. destruct (IHK (K - 1)) with (t := t + dr) (i := S i) (g := remove_at i g) (out := out ++ [(x, t)]) as (f & r & R); [lia|lia| |].
        { intros s y S Y. apply E; [exact S|]. eapply remove_at_in; eauto. }
        exists (S f), r. cbn [wait_loop]. rewrite X, DX. exact R.
      + assert (TN : t < N). { destruct (Nat.lt_ge_cases t N); [assumption|]. rewrite (E t x) in DX by assumption. discriminate. }
        destruct (Nat.eq_dec dv 0) as [Z|Z].
        * (* no tick here: the pass goes on *)
          destruct (Nat.eq_dec i 0) as [->|NI].
          -- (* first member: carry on to the end of the pass, where time passes *)
             assert (REST : forall k j, length g - j = k -> exists fuel r, wl fuel t j g out = Ok r).
             { induction k as [k IHk] using lt_wf_ind. intros j J. destruct (nth_error g j) as [y|] eqn:Y.
               - assert (LJ : j < length g) by (apply nth_error_Some; congruence). destruct (ended t y) eqn:DY.
                 + pose proof (remove_at_length j g y Y). destruct (IHK (K - 1)) with (t := t + dr) (i := S j) (g := remove_at j g) (out := out ++ [(y, t)]) as (f & r & R); [lia|lia| |].
                   { intros s z S Z1. apply E; [exact S|]. eapply remove_at_in; eauto. }
                   exists (S f), r. cbn [wait_loop]. rewrite Y, DY. exact R.
                 + destruct (IHk (length g - S j) ltac:(lia) (S j) eq_refl) as (f & r & R). exists (S f), r. cbn [wait_loop]. rewrite Y, DY. replace (t + dv) with t by lia. exact R.
               - destruct g as [|z g']; [discriminate|]. destruct (IHK (K - 1)) with (t := t + dp) (i := 0) (g := z :: g') (out := out) as (f & r & R); [lia|lia|exact E|].
                 exists (S f), r. cbn [wait_loop]. rewrite Y. exact R. }
             apply (REST (length g - 0) 0 eq_refl).
          -- destruct P as [P|P]; [contradiction|]. destruct (IHm (length g - S i) ltac:(lia) t (S i) g out eq_refl L E (or_intror P)) as (f & r & R).
             exists (S f), r. cbn [wait_loop]. rewrite X, DX. replace (t + dv) with t by lia. exact R.
        * destruct (IHK (K - 1)) with (t := t + dv) (i := S i) (g := g) (out := out) as (f & r & R); [lia|lia|exact E|]. exists (S f), r. cbn [wait_loop]. rewrite X, DX. exact R.
    - destruct g as [|z g]; [exists 1; eexists; cbn; rewrite X; reflexivity|]. destruct P as [->|P]; [discriminate|].
      destruct (IHK (length (z :: g) + (N - t))) with (t := t + dp) (i := 0) (g := z :: g) (out := out) as (f & r & R); [exact P|lia|exact E|].
      exists (S f), r. cbn [wait_loop]. rewrite X. exact R. }
  intros t i g out L E. destruct (Nat.eq_dec i 0) as [->|NI]; [exact (PASS _ t 0 g out eq_refl L E (or_introl eq_refl))|].
  destruct (Nat.eq_dec (length g + (N - t)) K) as [EK|EK]; [|apply (PASS _ t i g out eq_refl L E); right; lia].
  (* starting in the middle of a pass *)
  assert (REST : forall k j t, t + 0 <= t -> length g + (N - t) <= K -> length g - j = k -> exists fuel r, wl fuel t j g out = Ok r).
  { induction k as [k IHk] using lt_wf_ind. intros j t0 _ L0 J. destruct (nth_error g j) as [y|] eqn:Y.
    - assert (LJ : j < length g) by (apply nth_error_Some; congruence). destruct (ended t0 y) eqn:DY.
      + pose proof (remove_at_length j g y Y). destruct (IHK (K - 1)) with (t := t0 + dr) (i := S j) (g := remove_at j g) (out := out ++ [(y, t0)]) as (f & r & R); [lia|lia| |].
        { intros s z S Z1. apply E; [exact S|]. eapply remove_at_in; eauto. }
        exists (S f), r. cbn [wait_loop]. rewrite Y, DY. exact R.
      + destruct (IHk (length g - S j) ltac:(lia) (S j) (t0 + dv) ltac:(lia) ltac:(lia) eq_refl) as (f & r & R). exists (S f), r. cbn [wait_loop]. rewrite Y, DY. exact R.
    - destruct g as [|z g']; [exists 1; eexists; cbn; rewrite Y; reflexivity|]. destruct (PASS _ (t0 + dp) 0 (z :: g') out eq_refl ltac:(cbn in *; lia) E (or_introl eq_refl)) as (f & r & R).
      exists (S f), r. cbn [wait_loop]. rewrite Y. exact R. }
  exact (REST _ i t ltac:(lia) L eq_refl).
Qed.
End W.
Lemma wait_collects ended result fuel g out ids : tasks_wait ended result fuel g = Ok (out, ids) ->
  collected ended g out /\ Permutation ids (flat_map (fun x => match result x with Some id => [id] | None => [] end) g).
Proof.
  unfold tasks_wait. intros H. destruct (wait_loop ended 1 0 0 fuel 1 0 g []) as [[t o]| | |] eqn:E; cbn [bind fst snd] in H; try discriminate. injection H as <- <-.
  destruct (wl_sound ended 1 0 0 _ _ _ _ _ _ _ E) as (o' & -> & P & V). cbn [app] in *. split; [split; assumption|].
  set (h := fun x => match result x with Some id => [id] | None => [] end). rewrite (Permutation_flat_map h P). clear. induction o' as [|[x s] o IH]; [constructor|]. cbn [map fst flat_map]. unfold h at 2. cbn.
  apply Permutation_app; [reflexivity|exact IH].
Qed.
Lemma wait_ends ended result N g : (forall s x, N <= s -> In x g -> ended s x = true) -> exists fuel r, tasks_wait ended result fuel g = Ok r.
Proof.
  intros H. destruct (wl_ends ended 1 0 0 N ltac:(lia) (length g + (N - 1)) 1 0 g [] ltac:(lia) H) as (f & r & R). exists f. unfold tasks_wait. rewrite R. cbn. eauto.
Qed.
(* a member that never ends keeps the loop going for ever *)
Lemma wait_blocks ended result g x : In x g -> (forall s, ended s x = false) -> forall fuel, tasks_wait ended result fuel g = Fuel.
Proof.
  intros I NE fuel. unfold tasks_wait. destruct (wait_loop ended 1 0 0 fuel 1 0 g []) as [[t o]| | |] eqn:E; cbn [bind]; try reflexivity.
  - destruct (wl_sound ended 1 0 0 _ _ _ _ _ _ _ E) as (o' & -> & P & V). apply (Permutation_in x P) in I. apply in_map_iff in I. destruct I as ([y s] & <- & J). exfalso. specialize (NE s). cbn in NE. rewrite (V _ _ J) in NE. discriminate.
  - destruct (wl_not_bad ended 1 0 0 fuel 1 0 g []) as (U & _). contradiction.
  - destruct (wl_not_bad ended 1 0 0 fuel 1 0 g []) as (_ & U). contradiction.
Qed.
