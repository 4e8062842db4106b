(* Spec and lemmas for C184, C185. *)
From Coq Require Import List Arith Bool Lia.
From Verif Require Import Base EnModel.
Import ListNotations.

(* ---- spec: what can be seen in the history of calls ---- *)
Definition defers (t : nat) (l : list op) : list nat :=
  flat_map (fun o => match o with Defer u f => if u =? t then [f] else [] | _ => [] end) l.
Definition depth (t : nat) (l : list op) : nat :=
  fold_left (fun d o => match o with Enter u => if u =? t then S d else d | Leave u => if u =? t then pred d else d | _ => d end) l 0.
(* every exception and signal was caught, and the program goes on *)
Definition quiet (l : list op) : Prop :=
  forall a o b, l = a ++ o :: b ->
  match o with Throw u _ | Signal u _ _ => 0 < depth u a | Within _ _ | Exit _ => False | _ => True end.
(* the first function that t deferred was deferred outside of its try blocks *)
Definition made_outside (t : nat) (l : list op) : Prop :=
  exists a f b, l = a ++ Defer t f :: b /\ defers t a = [] /\ depth t a = 0.
Definition returns (beh : nat -> option nat) (l : list nat) : Prop := forall f, In f l -> beh f = None.

Lemma defers_app t a b : defers t (a ++ b) = defers t a ++ defers t b.
Proof. unfold defers. apply flat_map_app. Qed.
Lemma depth_app t a o : depth t (a ++ [o]) =
  match o with Enter u => if u =? t then S (depth t a) else depth t a
             | Leave u => if u =? t then pred (depth t a) else depth t a | _ => depth t a end.
Proof. unfold depth. rewrite fold_left_app. reflexivity. Qed.

Lemma quiet_app a o : quiet (a ++ [o]) -> quiet a /\
  match o with Throw u _ | Signal u _ _ => 0 < depth u a | Within _ _ | Exit _ => False | _ => True end.
Proof.
  intros Q. split.
  - intros x p y E. apply (Q x p (y ++ [o])). rewrite E, <- app_assoc. reflexivity.
  - exact (Q a o [] eq_refl).
Qed.

Record inv (beh : nat -> option nat) (a : list op) (s : st) : Prop := mkInv {
  i_over : over s = false; i_out : out s = []; i_unst : unst s = false; i_msg : msg s = None; i_term : term s = true;
  i_alive : forall u, alive s u = true <-> ~ In (EndThread u) a;
  i_tries : forall u, ~ In (EndThread u) a -> length (tries s u) = depth u a;
  i_scope : forall u, ~ In (EndThread u) a -> scope s u = match defers u a with [] => Absent | l => Live (rev l) end;
  i_root : forall u, ~ In (EndThread u) a -> (root s u = true <-> made_outside u a);
  i_sig : (forall u e b, ~ In (Signal u e b) a) -> sig s = false;
  i_sig2 : forall u e b, In (Signal u e b) a -> ~ In (EndThread u) a -> sig s = true;
  i_ctl : (forall u e, ~ In (Signal u e true) a) -> ctl s = false;
  i_ctl2 : forall u e, In (Signal u e true) a -> ~ In (EndThread u) a -> ctl s = true;
  i_first : forall u p f q, a = p ++ Defer u f :: q -> (forall v g, ~ In (Defer v g) p) -> ~ In (EndThread u) p ->
            first s = Some u;
  i_first0 : (forall v g, ~ In (Defer v g) a) -> first s = None /\ regs s = 0;
  i_regs2 : forall u p f q, a = p ++ Defer u f :: q -> ~ In (EndThread u) p -> 0 < regs s }.

Lemma run_app beh l1 : forall s l2, run beh s (l1 ++ l2) = bind (run beh s l1) (fun s => run beh s l2).
Proof. induction l1 as [|o l1 IH]; intros s l2; [reflexivity|]. cbn. destruct (step beh s o); cbn; auto. Qed.

Lemma snoc_cases {A} (a p q : list A) (o x : A) : a ++ [o] = p ++ x :: q ->
  (q = [] /\ a = p /\ o = x) \/ exists q', q = q' ++ [o] /\ a = p ++ x :: q'.
Proof.
  destruct (rev q) as [|y r] eqn:R.
  - apply (f_equal (@rev A)) in R. rewrite rev_involutive in R. cbn in R. subst q. intros E.
    apply app_inj_tail in E. left. intuition.
  - apply (f_equal (@rev A)) in R. rewrite rev_involutive in R. cbn in R. subst q. intros E.
    rewrite app_comm_cons, app_assoc in E. apply app_inj_tail in E. destruct E as [E1 E2]. right. exists (rev r).
    subst. split; [reflexivity|]. reflexivity.
Qed.

Lemma made_app t a o : made_outside t (a ++ [o]) <->
  made_outside t a \/ (defers t a = [] /\ depth t a = 0 /\ exists f, o = Defer t f).
Proof.
  split.
  - intros (p & f & q & E & D & P). destruct (snoc_cases _ _ _ _ _ E) as [(-> & -> & ->)|(q' & -> & ->)].
    + right. eauto.
    + left. exists p, f, q'. auto.
  - intros [(p & f & q & E & D & P)|(D & P & f & ->)].
    + exists p, f, (q ++ [o]). rewrite E, <- app_assoc. auto.
    + exists a, f, []. auto.
Qed.
Lemma made_defers t a : made_outside t a -> defers t a <> [].
Proof.
  intros (p & f & q & -> & D & _). rewrite defers_app, D. cbn. rewrite Nat.eqb_refl. discriminate.
Qed.

Lemma not_in_app {A} (x : A) a b : ~ In x (a ++ b) <-> ~ In x a /\ ~ In x b.
Proof. rewrite in_app_iff. tauto. Qed.
Lemma not_in_one {A} (x y : A) : ~ In x [y] <-> y <> x.
Proof. cbn. intuition. Qed.
Lemma defers_in u f a : In (Defer u f) a -> defers u a <> [].
Proof.
  intros H E. induction a as [|o a IH]; [destruct H|]. cbn in E. apply app_eq_nil in E. destruct E as [E1 E2].
  destruct H as [->|H]; [rewrite Nat.eqb_refl in E1; discriminate|auto].
Qed.
Lemma no_defers a u : (forall v g, ~ In (Defer v g) a) -> defers u a = [].
Proof.
  intros H. induction a as [|o a IH]; [reflexivity|]. change (defers u (o :: a)) with (defers u ([o] ++ a)). rewrite defers_app, IH; [|intros v g C; apply (H v g); right; exact C].
  destruct o; try reflexivity. exfalso. eapply H. left. reflexivity.
Qed.

Lemma defers_split u a : defers u a <> [] -> exists p f q, a = p ++ Defer u f :: q.
Proof.
  induction a as [|o a IH]; [intros C; contradiction C; reflexivity|]. intros D.
  destruct o as [v f| | | | | | |];
    try (destruct (IH D) as (p & f' & q & ->); eexists (_ :: p), f', q; reflexivity).
  destruct (Nat.eq_dec v u) as [->|N]; [exists [], f, a; reflexivity|].
  cbn in D. rewrite (proj2 (Nat.eqb_neq v u) N) in D. destruct (IH D) as (p & f' & q & ->).
  exists (Defer v f :: p), f', q. reflexivity.
Qed.
Lemma inv_regs beh a s u : inv beh a s -> ~ In (EndThread u) a -> defers u a <> [] -> 0 < regs s.
Proof.
  intros V N D. destruct (defers_split u a D) as (p & f & q & ->). eapply (i_regs2 _ _ _ V); [reflexivity|].
  apply not_in_app in N. tauto.
Qed.

Lemma inv_init beh : inv beh [] init.
Proof.
  constructor; cbn; try reflexivity; try tauto; intros.
  - split; [discriminate|]. intros (p & f & q & E & _). destruct p; discriminate.
  - destruct p; discriminate.
  - destruct p; discriminate.
Qed.

Ltac norm := repeat first [rewrite defers_app in * | rewrite depth_app in * | rewrite not_in_app in * | rewrite not_in_one in * | rewrite made_app in *].

Ltac snoc H := let q' := fresh "q'" in apply snoc_cases in H; destruct H as [(-> & <- & H)|(q' & -> & ->)].

(* an operation that changes nothing *)
Lemma inv_same beh a o s : inv beh a s ->
  (forall u, o = EndThread u -> False) -> (In (EndThread (op_thread o)) a \/ match o with Throw _ _ => True | _ => False end) ->
  inv beh (a ++ [o]) s.
Proof.
  intros V NE H. destruct V. constructor; auto; intros.
  - rewrite i_alive0. norm. split; [|tauto]. intros N. split; [exact N|]. intros ->. eapply NE. reflexivity.
  - norm. destruct H0 as [N _]. rewrite (i_tries0 u N). destruct H as [H|H]; destruct o as [v ?|v|v|v ?|v ? ?|v ?|v|v]; cbn in H; try contradiction; try reflexivity;
      (destruct (v =? u) eqn:E; [apply Nat.eqb_eq in E; subst; contradiction|reflexivity]).
  - norm. destruct H0 as [N _]. rewrite (i_scope0 u N). destruct H as [H|H]; destruct o as [v ?|v|v|v ?|v ? ?|v ?|v|v]; cbn in H |- *; try contradiction; rewrite ?app_nil_r; try reflexivity.
    destruct (v =? u) eqn:E; [apply Nat.eqb_eq in E; subst; contradiction|rewrite ?app_nil_r; reflexivity].
  - norm. destruct H0 as [N _]. rewrite (i_root0 u N). split; [tauto|]. intros [M|(D & P & f & ->)]; [exact M|].
    cbn in H. destruct H; contradiction.
  - apply i_sig0. intros u e b C. apply (H0 u e b). apply in_or_app. left. exact C.
  - norm. apply in_app_or in H0. destruct H1 as [N _]. destruct H0 as [H0|[->|[]]]; [eauto|]. cbn in H. destruct H; contradiction.
  - apply i_ctl0. intros u e C. apply (H0 u e). apply in_or_app. left. exact C.
  - norm. apply in_app_or in H0. destruct H1 as [N _]. destruct H0 as [H0|[->|[]]]; [eauto|]. cbn in H. destruct H; contradiction.
  - snoc H0; [subst o; cbn in H; destruct H; contradiction|]. eauto.
  - apply i_first2. intros v g C. apply (H0 v g). apply in_or_app. left. exact C.
  - snoc H0; [subst o; cbn in H; destruct H; contradiction|]. eauto.
Qed.

Lemma upd_same {A} (m : nat -> A) k v : upd m k v k = v.
Proof. unfold upd. rewrite Nat.eqb_refl. reflexivity. Qed.
Lemma upd_other {A} (m : nat -> A) k v j : j <> k -> upd m k v j = m j.
Proof. intros N. unfold upd. rewrite (proj2 (Nat.eqb_neq j k) N). reflexivity. Qed.

Lemma notin_l {A} (x : A) a b : ~ In x (a ++ b) -> ~ In x a.
Proof. rewrite not_in_app. tauto. Qed.

(* fields that only depend on the history *)
Ltac oldf V :=
  first
  [ apply (i_sig _ _ _ V); intros ? ? ? C; match goal with H : forall u e b, ~ In (Signal u e b) _ |- _ => eapply H end; apply in_or_app; left; exact C
  | apply (i_ctl _ _ _ V); intros ? ? C; match goal with H : forall u e, ~ In (Signal u e true) _ |- _ => eapply H end; apply in_or_app; left; exact C
  | apply (i_first0 _ _ _ V); intros ? ? C; match goal with H : forall u e, ~ In (Defer u e) _ |- _ => eapply H end; apply in_or_app; left; exact C
  | match goal with H : In (Signal _ _ _) (_ ++ _) |- _ => apply in_app_or in H; destruct H as [H|[H|[]]]; [|discriminate] end;
    match goal with H : ~ In _ (_ ++ _) |- _ => apply notin_l in H end;
    first [eapply (i_sig2 _ _ _ V); eassumption | eapply (i_ctl2 _ _ _ V); eassumption]
  | match goal with H : _ ++ _ = _ ++ Defer _ _ :: _ |- _ => snoc H; [discriminate|] end;
    first [eapply (i_first _ _ _ V); [reflexivity|eassumption..] | eapply (i_regs2 _ _ _ V); [reflexivity|eassumption..]] ].

Lemma inv_enter beh a s t : inv beh a s -> alive s t = true ->
  inv beh (a ++ [Enter t]) (mkS (alive s) (scope s) (first s) (regs s) (upd (tries s) t (false :: tries s t)) (root s) (sig s) (ctl s) (term s) (unst s) (msg s) (over s) (out s)).
Proof.
  intros V L. constructor; cbn [over out unst msg term alive tries scope root sig ctl first regs]; try apply V; intros; try solve [oldf V].
  - rewrite (i_alive _ _ _ V). norm. split; [|tauto]. intros N. split; [exact N|discriminate].
  - norm. destruct H as [N _]. destruct (t =? u) eqn:E.
    + apply Nat.eqb_eq in E. subst u. rewrite upd_same. cbn. rewrite (i_tries _ _ _ V t N). reflexivity.
    + apply Nat.eqb_neq in E. rewrite upd_other by auto. apply (i_tries _ _ _ V u N).
  - norm. cbn. rewrite app_nil_r. apply (i_scope _ _ _ V). tauto.
  - norm. rewrite (i_root _ _ _ V u) by tauto. split; [tauto|]. intros [M|(_ & _ & f & C)]; [exact M|discriminate].
Qed.
Lemma inv_leave beh a s t : inv beh a s -> alive s t = true ->
  inv beh (a ++ [Leave t]) (mkS (alive s) (scope s) (first s) (regs s) (upd (tries s) t (tl (tries s t))) (root s) (sig s) (ctl s) (term s) (unst s) (msg s) (over s) (out s)).
Proof.
  intros V L. constructor; cbn [over out unst msg term alive tries scope root sig ctl first regs]; try apply V; intros; try solve [oldf V].
  - rewrite (i_alive _ _ _ V). norm. split; [|tauto]. intros N. split; [exact N|discriminate].
  - norm. destruct H as [N _]. destruct (t =? u) eqn:E.
    + apply Nat.eqb_eq in E. subst u. rewrite upd_same. rewrite <- (i_tries _ _ _ V t N). destruct (tries s t); reflexivity.
    + apply Nat.eqb_neq in E. rewrite upd_other by auto. apply (i_tries _ _ _ V u N).
  - norm. cbn. rewrite app_nil_r. apply (i_scope _ _ _ V). tauto.
  - norm. rewrite (i_root _ _ _ V u) by tauto. split; [tauto|]. intros [M|(_ & _ & f & C)]; [exact M|discriminate].
Qed.
Lemma inv_endthread beh a s t : inv beh a s -> alive s t = true ->
  inv beh (a ++ [EndThread t]) (mkS (upd (alive s) t false) (scope s) (first s) (regs s) (tries s) (root s) (sig s) (ctl s) (term s) (unst s) (msg s) (over s) (out s)).
Proof.
  intros V L. constructor; cbn [over out unst msg term alive tries scope root sig ctl first regs]; try apply V; intros; try solve [oldf V].
  - norm. destruct (Nat.eq_dec u t) as [->|N].
    + rewrite upd_same. split; [discriminate|]. intros [_ C]. contradiction C. reflexivity.
    + rewrite upd_other by exact N. rewrite (i_alive _ _ _ V). split; [|tauto]. intros P. split; [exact P|congruence].
  - norm. apply (i_tries _ _ _ V u). tauto.
  - norm. cbn. rewrite app_nil_r. apply (i_scope _ _ _ V). tauto.
  - norm. rewrite (i_root _ _ _ V u) by tauto. split; [tauto|]. intros [M|(_ & _ & f & C)]; [exact M|discriminate].
Qed.
Lemma inv_signal beh a s t e b : inv beh a s -> alive s t = true ->
  inv beh (a ++ [Signal t e b]) (mkS (alive s) (scope s) (first s) (regs s) (tries s) (root s) true (ctl s || b) (term s) (unst s) (msg s) (over s) (out s)).
Proof.
  intros V L. constructor; cbn [over out unst msg term alive tries scope root sig ctl first regs]; try apply V; intros; try solve [oldf V]; try reflexivity.
  - rewrite (i_alive _ _ _ V). norm. split; [|tauto]. intros N. split; [exact N|discriminate].
  - norm. apply (i_tries _ _ _ V u). tauto.
  - norm. cbn. rewrite app_nil_r. apply (i_scope _ _ _ V). tauto.
  - norm. rewrite (i_root _ _ _ V u) by tauto. split; [tauto|]. intros [M|(_ & _ & f & C)]; [exact M|discriminate].
  - exfalso. apply (H t e b). apply in_or_app. right. left. reflexivity.
  - rewrite (i_ctl _ _ _ V); [|intros u e0 C; apply (H u e0); apply in_or_app; left; exact C]. destruct b; [|reflexivity].
    exfalso. apply (H t e). apply in_or_app. right. left. reflexivity.
  - apply notin_l in H0. apply in_app_or in H. destruct H as [H|[H|[]]].
    + rewrite (i_ctl2 _ _ _ V u e0 H H0). reflexivity.
    + injection H as -> -> ->. apply orb_true_r.
Qed.

Lemma live_inv beh a s t : inv beh a s -> alive s t = true -> ~ In (EndThread t) a.
Proof. intros V L. apply (i_alive _ _ _ V). exact L. Qed.

Lemma inv_defer_more beh a s t f l : inv beh a s -> alive s t = true -> scope s t = Live l -> inv beh (a ++ [Defer t f]) (set_scope t (Live (f :: l)) s).
Proof.
  intros V L S. pose proof (live_inv _ _ _ _ V L) as NE.
  assert (D : defers t a <> [] /\ rev (defers t a) = l).
  { rewrite (i_scope _ _ _ V t NE) in S. destruct (defers t a); [discriminate|]. injection S as <-. split; [discriminate|reflexivity]. }
  destruct D as [D <-].
  constructor; unfold set_scope; cbn [over out unst msg term alive tries scope root sig ctl first regs]; try apply V; intros; try solve [oldf V].
  - rewrite (i_alive _ _ _ V). norm. split; [|tauto]. intros N. split; [exact N|discriminate].
  - norm. apply (i_tries _ _ _ V u). tauto.
  - norm. destruct H as [H _]. destruct (Nat.eq_dec u t) as [->|N].
    + rewrite upd_same. cbn. rewrite Nat.eqb_refl.
      destruct (defers t a) as [|x r] eqn:E; [contradiction|]. change (Live (f :: rev (x :: r)) = Live (rev ((x :: r) ++ [f]))). rewrite rev_app_distr. reflexivity.
    + rewrite upd_other by exact N. cbn. rewrite (proj2 (Nat.eqb_neq t u)) by auto. cbn. rewrite app_nil_r. apply (i_scope _ _ _ V u H).
  - norm. destruct H as [H _]. rewrite (i_root _ _ _ V u H). split; [tauto|]. intros [M|(D' & _ & g & C)]; [exact M|]. injection C as -> ->. contradiction.
  - snoc H; [|eapply (i_first _ _ _ V); [reflexivity|eassumption..]]. injection H as <- <-.
    exfalso. apply D. apply no_defers. exact H0.
  - snoc H; [|eapply (i_regs2 _ _ _ V); [reflexivity|eassumption..]]. injection H as <- <-. apply (inv_regs _ _ _ _ V NE D).
Qed.

Lemma inv_defer_first beh a s t f : inv beh a s -> alive s t = true -> scope s t = Absent -> forall s', defer t f s = Ok s' -> inv beh (a ++ [Defer t f]) s'.
Proof.
  intros V L S s' E. pose proof (live_inv _ _ _ _ V L) as NE. unfold defer in E. rewrite S in E. injection E as <-.
  assert (D : defers t a = []).
  { rewrite (i_scope _ _ _ V t NE) in S. destruct (defers t a); [reflexivity|discriminate]. }
  constructor; cbn [over out unst msg term alive tries scope root sig ctl first regs]; try apply V; intros; try solve [oldf V].
  - rewrite (i_alive _ _ _ V). norm. split; [|tauto]. intros N. split; [exact N|discriminate].
  - norm. destruct H as [H _]. rewrite <- (i_tries _ _ _ V u H). destruct (tries s t) as [|c r] eqn:T; [reflexivity|].
    destruct (Nat.eq_dec u t) as [->|N]; [rewrite upd_same, T; reflexivity|rewrite upd_other by exact N; reflexivity].
  - norm. destruct H as [H _]. destruct (Nat.eq_dec u t) as [->|N].
    + rewrite upd_same, D. cbn. rewrite Nat.eqb_refl. reflexivity.
    + rewrite upd_other by exact N. cbn. rewrite (proj2 (Nat.eqb_neq t u)) by auto. cbn. rewrite app_nil_r. apply (i_scope _ _ _ V u H).
  - norm. destruct H as [H _]. pose proof (i_tries _ _ _ V t NE) as LT. destruct (tries s t) as [|c r].
    + destruct (Nat.eq_dec u t) as [->|N].
      * rewrite upd_same. split; [|reflexivity]. intros _. right. split; [exact D|]. split; [symmetry; exact LT|eauto].
      * rewrite upd_other by exact N. rewrite (i_root _ _ _ V u H). split; [tauto|]. intros [M|(_ & _ & g & C)]; [exact M|congruence].
    + rewrite (i_root _ _ _ V u H). split; [tauto|]. intros [M|(_ & P & g & C)]; [exact M|]. injection C as -> _. cbn in LT. rewrite P in LT. discriminate.
  - snoc H.
    + injection H as <- <-. destruct (i_first0 _ _ _ V H0) as [-> _]. reflexivity.
    + rewrite (i_first _ _ _ V u p f0 q' eq_refl H0 H1). reflexivity.
  - exfalso. apply (H t f). apply in_or_app. right. left. reflexivity.
  - lia.
Qed.

Lemma run_inv beh : forall a, quiet a -> exists s, run beh init a = Ok s /\ inv beh a s.
Proof.
  induction a as [|o a IH] using rev_ind; intros Q; [exists init; split; [reflexivity|apply inv_init]|].
  destruct (quiet_app _ _ Q) as [Q1 Q2]. destruct (IH Q1) as (s & R & V).
  assert (exists s', step beh s o = Ok s' /\ inv beh (a ++ [o]) s') as (s' & E & V').
  2:{ exists s'. split; [|exact V']. rewrite run_app, R. cbn. rewrite E. reflexivity. }
  unfold step. replace (over s || negb (alive s (op_thread o))) with (negb (alive s (op_thread o))) by (rewrite (i_over _ _ _ V); reflexivity).
  destruct (alive s (op_thread o)) eqn:L; cbn [negb].
  - pose proof (live_inv _ _ _ _ V L) as NE.
    destruct o as [t f|t|t|t e|t e b|t e|t|t]; cbn [op_thread] in *; try contradiction.
    + unfold defer. rewrite (i_scope _ _ _ V t NE). destruct (scope s t) as [|l| |] eqn:S; rewrite (i_scope _ _ _ V t NE) in S.
      * destruct (defers t a) eqn:D; [|discriminate]. eexists. split; [reflexivity|].
        eapply (inv_defer_first beh a s t f V L); [rewrite (i_scope _ _ _ V t NE), D; reflexivity|].
        unfold defer. rewrite (i_scope _ _ _ V t NE), D. reflexivity.
      * destruct (defers t a) as [|x r] eqn:D; [discriminate|]. eexists. split; [reflexivity|].
        apply (inv_defer_more beh a s t f _ V L). rewrite (i_scope _ _ _ V t NE), D. reflexivity.
      * destruct (defers t a); discriminate.
      * destruct (defers t a); discriminate.
    + eexists. split; [reflexivity|]. apply inv_enter; assumption.
    + eexists. split; [reflexivity|]. apply inv_leave; assumption.
    + pose proof (i_tries _ _ _ V t NE) as LT. destruct (tries s t); [cbn in LT; lia|]. eexists. split; [reflexivity|].
      apply inv_same; [exact V|discriminate|right; exact Logic.I].
    + pose proof (i_tries _ _ _ V t NE) as LT. cbn [tries]. destruct (tries s t) eqn:T; [cbn in LT; lia|]. eexists. split; [reflexivity|].
      apply inv_signal; assumption.
    + eexists. split; [reflexivity|]. apply inv_endthread; assumption.
  - exists s. split; [reflexivity|].
    assert (DE : In (EndThread (op_thread o)) a).
    { destruct (in_dec (fun x y : op => ltac:(decide equality; try apply Nat.eq_dec; apply Bool.bool_dec)) (EndThread (op_thread o)) a) as [I|N]; [exact I|].
      apply (i_alive _ _ _ V) in N. congruence. }
    destruct o as [t f|t|t|t e|t e b|t e|t|t]; try (apply inv_same; [exact V|discriminate|left; exact DE]).
    cbn in DE. constructor; try apply V; intros; try solve [oldf V].
    + rewrite (i_alive _ _ _ V). norm. split; [|tauto]. intros N. split; [exact N|]. intros C. injection C as ->. contradiction.
    + norm. apply (i_tries _ _ _ V u). tauto.
    + norm. cbn. rewrite app_nil_r. apply (i_scope _ _ _ V). tauto.
    + norm. rewrite (i_root _ _ _ V u) by tauto. split; [tauto|]. intros [M|(_ & _ & f & C)]; [exact M|discriminate].
Qed.

(* ---- the endings ---- *)
Lemma emit_scoped t e s : scoped t (emit e s) = scoped t s.
Proof. reflexivity. Qed.

Fixpoint emits (l : list event) (s : st) : st := match l with [] => s | e :: r => emits r (emit e s) end.
Lemma emits_eq l : forall s, emits l s =
  mkS (alive s) (scope s) (first s) (regs s) (tries s) (root s) (sig s) (ctl s) (term s) (unst s) (msg s) (over s) (out s ++ l).
Proof.
  induction l as [|e l IH]; intros s; cbn; [rewrite app_nil_r; destruct s; reflexivity|].
  rewrite IH. unfold emit. cbn. rewrite <- app_assoc. reflexivity.
Qed.

Lemma runs_ok beh t u : forall l some s, returns beh l -> runs beh t u l some s = Ok (emits (map (Ran u) l) s, false, []).
Proof.
  induction l as [|f l IH]; intros some s H; [reflexivity|]. cbn [runs map emits]. rewrite (H f (or_introl eq_refl)).
  apply IH. intros g I. apply H. right. exact I.
Qed.
Lemma unwind_ok beh t u l some s : returns beh l -> unwind beh t u l some s = Ok (set_scope u Gone (emits (map (Ran u) l) s), false).
Proof. intros H. unfold unwind. rewrite (runs_ok beh t u l some s H). reflexivity. Qed.

Lemma destroy_gone beh t s : scope s t = Gone -> destroy beh t s = Ok (s, false).
Proof. intros H. unfold destroy, destroy_of. rewrite H. reflexivity. Qed.
Lemma handlers_gone beh t : forall n s, scope s t = Gone -> handlers beh t n s = Ok (finish true s).
Proof. induction n as [|n IH]; intros s H; [reflexivity|]. cbn. rewrite (destroy_gone beh t s H). cbn. apply IH. exact H. Qed.
Lemma handlers_none beh t : forall n s, scope s t = Absent -> first s = None -> handlers beh t n s = Ok (finish true s).
Proof. induction n as [|n IH]; intros s H F; [reflexivity|]. cbn. unfold destroy. rewrite H, F. cbn. apply IH; assumption. Qed.

Lemma destroy_live beh t s l : scope s t = Live l -> returns beh l ->
  destroy beh t s = Ok (set_scope t Gone (emits (map (Ran t) l) s), false).
Proof. intros H R. unfold destroy, destroy_of. rewrite H. apply unwind_ok. exact R. Qed.

Lemma handlers_live beh t n s l : scope s t = Live l -> returns beh l -> 0 < n ->
  handlers beh t n s = Ok (finish true (set_scope t Gone (emits (map (Ran t) l) s))).
Proof.
  intros H R N. destruct n as [|n]; [lia|]. cbn [handlers]. rewrite (destroy_live beh t s l H R). cbn [bind].
  apply handlers_gone. unfold set_scope. cbn. apply upd_same.
Qed.

Lemma returns_rev beh l : returns beh l -> returns beh (rev l).
Proof. intros H f I. apply H. apply in_rev. exact I. Qed.
Lemma inv_live beh a s t : inv beh a s -> ~ In (EndThread t) a -> defers t a <> [] -> scope s t = Live (rev (defers t a)).
Proof. intros V N D. rewrite (i_scope _ _ _ V t N). destruct (defers t a); [contradiction|reflexivity]. Qed.
Lemma inv_alive beh a s t : inv beh a s -> ~ In (EndThread t) a -> (over s || negb (alive s t)) = false.
Proof. intros V N. rewrite (i_over _ _ _ V), (proj2 (i_alive _ _ _ V t) N). reflexivity. Qed.

Lemma last_step beh a s o s' : run beh init a = Ok s -> step beh s o = Ok s' -> run beh init (a ++ [o]) = Ok s'.
Proof. intros R E. rewrite run_app, R. cbn. rewrite E. reflexivity. Qed.
Lemma last_ub beh a s o : run beh init a = Ok s -> step beh s o = UB -> run beh init (a ++ [o]) = UB.
Proof. intros R E. rewrite run_app, R. cbn. rewrite E. reflexivity. Qed.

(* exit *)
Lemma exit_runs beh a t : quiet a -> ~ In (EndThread t) a -> defers t a <> [] -> returns beh (defers t a) ->
  exists s, run beh init (a ++ [Exit t]) = Ok s /\ over s = true /\ out s = map (Ran t) (rev (defers t a)) ++ [Done true].
Proof.
  intros Q N D R. destruct (run_inv beh a Q) as (s & E & V). eexists. split; [|split].
  - apply (last_step _ _ _ _ _ E). unfold step. cbn [op_thread]. rewrite (inv_alive _ _ _ _ V N).
    apply (handlers_live beh t _ s _ (inv_live _ _ _ _ V N D) (returns_rev _ _ R) (inv_regs _ _ _ _ V N D)).
  - reflexivity.
  - cbn. rewrite emits_eq. cbn. rewrite (i_out _ _ _ V). reflexivity.
Qed.
Lemma exit_nothing beh a t : quiet a -> ~ In (EndThread t) a -> (forall u f, ~ In (Defer u f) a) ->
  exists s, run beh init (a ++ [Exit t]) = Ok s /\ over s = true /\ out s = [Done true].
Proof.
  intros Q N D. destruct (run_inv beh a Q) as (s & E & V). destruct (i_first0 _ _ _ V D) as [F G].
  eexists. split; [|split].
  - apply (last_step _ _ _ _ _ E). unfold step. cbn [op_thread]. rewrite (inv_alive _ _ _ _ V N), G. reflexivity.
  - reflexivity.
  - cbn. rewrite (i_out _ _ _ V). reflexivity.
Qed.
(* exit in a thread that deferred nothing *)
Lemma exit_foreign beh a t u p f q : quiet a -> ~ In (EndThread t) a -> defers t a = [] ->
  a = p ++ Defer u f :: q -> (forall v g, ~ In (Defer v g) p) -> ~ In (EndThread u) p ->
  (~ In (EndThread u) a -> returns beh (defers u a) ->
     exists s, run beh init (a ++ [Exit t]) = Ok s /\ out s = map (Ran u) (rev (defers u a)) ++ [Done true]) /\
  (In (EndThread u) a -> run beh init (a ++ [Exit t]) = UB).
Proof.
  intros Q N D EA P PE. destruct (run_inv beh a Q) as (s & E & V).
  pose proof (i_first _ _ _ V u p f q EA P PE) as F. pose proof (i_regs2 _ _ _ V u p f q EA PE) as G.
  pose proof (i_scope _ _ _ V t N) as S. rewrite D in S.
  assert (UT : u <> t).
  { intros ->. apply (defers_in t f a); [|exact D]. rewrite EA. apply in_or_app. right. left. reflexivity. }
  split.
  - intros NU R. eexists. split.
    + apply (last_step _ _ _ _ _ E). unfold step. cbn [op_thread]. rewrite (inv_alive _ _ _ _ V N).
      destruct (regs s) as [|n]; [lia|]. cbn [handlers]. unfold destroy. rewrite S, F. cbn [set_first alive].
      rewrite (proj2 (i_alive _ _ _ V u) NU). unfold destroy_of. cbn [set_first scope].
      assert (DU : defers u a <> []) by (apply (defers_in u f); rewrite EA; apply in_or_app; right; left; reflexivity).
      rewrite (inv_live _ _ _ _ V NU DU). rewrite unwind_ok by (apply returns_rev; exact R). cbn [bind].
      apply handlers_none; [|cbn; rewrite emits_eq; reflexivity]. cbn. rewrite upd_other by auto. rewrite emits_eq. cbn. exact S.
    + cbn. rewrite emits_eq. cbn. rewrite (i_out _ _ _ V). reflexivity.
  - intros IU. apply (last_ub _ _ _ _ E). unfold step. cbn [op_thread]. rewrite (inv_alive _ _ _ _ V N).
    destruct (regs s) as [|n]; [lia|]. cbn [handlers]. unfold destroy. rewrite S, F. cbn [set_first alive].
    destruct (alive s u) eqn:L; [apply (i_alive _ _ _ V) in L; contradiction|reflexivity].
Qed.

Lemma inv_root beh a s t : inv beh a s -> ~ In (EndThread t) a -> depth t a = 0 -> tries s t = [].
Proof. intros V N D. pose proof (i_tries _ _ _ V t N) as H. rewrite D in H. destruct (tries s t); [reflexivity|discriminate]. Qed.

Lemma told_eq e s : unst s = false -> told e s =
  mkS (alive s) (scope s) (first s) (regs s) (tries s) (root s) (sig s) (ctl s) (term s) (unst s) (Some e) (over s) (out s ++ [Told (Some e)]).
Proof. intros H. unfold told, emit, set_msg. cbn. rewrite H. reflexivity. Qed.

Lemma calls_eq s : calls s =
  mkS (alive s) (scope s) (first s) (regs s) (tries s) (root s) (sig s) false false (unst s) (msg s) (over s)
      ((out s ++ (if ctl s then [CtrlC] else [])) ++ (if term s then [Term] else [])).
Proof. destruct s as [? ? ? ? ? ? ? [|] [|] ? ? ? ?]; cbn; rewrite ?app_nil_r; reflexivity. Qed.

(* an exception nobody catches *)
Lemma throw_runs beh a t e : quiet a -> ~ In (EndThread t) a -> defers t a <> [] -> returns beh (defers t a) ->
  depth t a = 0 -> (forall u e b, ~ In (Signal u e b) a) ->
  exists s, run beh init (a ++ [Throw t e]) = Ok s /\ over s = true /\
    (made_outside t a -> out s = Told (Some e) :: map (Ran t) (rev (defers t a)) ++ [Term; Done true]) /\
    (~ made_outside t a -> out s = Told (Some e) :: Term :: map (Ran t) (rev (defers t a)) ++ [Done true]).
Proof.
  intros Q N D R P SG. destruct (run_inv beh a Q) as (s & E & V).
  pose proof (inv_root _ _ _ _ V N P) as T. pose proof (inv_live _ _ _ _ V N D) as S. pose proof (returns_rev _ _ R) as RR.
  pose proof (i_sig _ _ _ V SG) as G. assert (C : ctl s = false) by (apply (i_ctl _ _ _ V); intros u x; apply SG).
  pose proof (i_term _ _ _ V) as TM. pose proof (i_out _ _ _ V) as O. pose proof (inv_regs _ _ _ _ V N D) as RG.
  assert (ST : step beh s (Throw t e) = terminate beh t (told e s)).
  { unfold step. cbn [op_thread]. rewrite (inv_alive _ _ _ _ V N), T. reflexivity. }
  destruct (root s t) eqn:RT.
  - assert (M : made_outside t a) by (apply (i_root _ _ _ V t N); exact RT).
    eexists. split; [|split; [|split]].
    + apply (last_step _ _ _ _ _ E). rewrite ST. unfold terminate, scoped. rewrite (told_eq e s (i_unst _ _ _ V)). cbn [tries root].
      rewrite T, RT. rewrite (destroy_live beh t _ (rev (defers t a))) by (try exact RR; cbn; exact S). cbn [bind fst].
      rewrite emits_eq. cbn [alive scope first regs tries root sig ctl term unst msg over out].
      rewrite calls_eq. unfold set_scope. cbn [alive scope first regs tries root sig ctl term unst msg over out]. rewrite C, TM, G.
      rewrite handlers_gone by (cbn; apply upd_same). reflexivity.
    + reflexivity.
    + intros _. cbn. rewrite O. cbn. rewrite <- !app_assoc. reflexivity.
    + intros NM. contradiction.
  - assert (M : ~ made_outside t a). { intros M. apply (i_root _ _ _ V t N) in M. congruence. }
    eexists. split; [|split; [|split]].
    + apply (last_step _ _ _ _ _ E). rewrite ST. unfold terminate, scoped. rewrite (told_eq e s (i_unst _ _ _ V)). cbn [tries root].
      rewrite T, RT. cbn [bind].
      rewrite calls_eq. cbn [alive scope first regs tries root sig ctl term unst msg over out]. rewrite C, TM, G.
      rewrite (handlers_live beh t _ _ (rev (defers t a))) by (try exact RR; cbn; assumption). reflexivity.
    + reflexivity.
    + intros NM. contradiction.
    + intros _. cbn. rewrite emits_eq. cbn. rewrite O. cbn. reflexivity.
Qed.

Ltac flds := cbn [alive scope first regs tries root sig ctl term unst msg over out].

(* a signal nobody catches *)
Lemma signal_runs beh a t e b : quiet a -> ~ In (EndThread t) a -> defers t a <> [] -> returns beh (defers t a) ->
  depth t a = 0 -> (forall u e, ~ In (Signal u e true) a) ->
  exists s, run beh init (a ++ [Signal t e b]) = Ok s /\ over s = true /\
    (made_outside t a -> out s = Told (Some e) :: map (Ran t) (rev (defers t a)) ++ (if b then [CtrlC] else []) ++ [Term; Done false]) /\
    (~ made_outside t a -> out s = Told (Some e) :: (if b then [CtrlC] else []) ++ [Term; Done false]).
Proof.
  intros Q N D R P SG. destruct (run_inv beh a Q) as (s & E & V).
  pose proof (inv_root _ _ _ _ V N P) as T. pose proof (inv_live _ _ _ _ V N D) as S. pose proof (returns_rev _ _ R) as RR.
  assert (C : ctl s = false) by (apply (i_ctl _ _ _ V); exact SG).
  pose proof (i_term _ _ _ V) as TM. pose proof (i_out _ _ _ V) as O.
  assert (ST : step beh s (Signal t e b) =
    terminate beh t (told e (mkS (alive s) (scope s) (first s) (regs s) (tries s) (root s) true b (term s) (unst s) (msg s) (over s) (out s)))).
  { unfold step. cbn [op_thread]. rewrite (inv_alive _ _ _ _ V N). flds. rewrite T, C. reflexivity. }
  destruct (root s t) eqn:RT.
  - assert (M : made_outside t a) by (apply (i_root _ _ _ V t N); exact RT).
    destruct b; eexists; (split; [|split; [|split]]).
    + apply (last_step _ _ _ _ _ E). rewrite ST. unfold terminate, scoped. rewrite told_eq by (flds; exact (i_unst _ _ _ V)). flds.
      rewrite T, RT. rewrite (destroy_live beh t _ (rev (defers t a))) by (try exact RR; cbn; exact S). cbn [bind fst].
      rewrite emits_eq. flds. rewrite calls_eq. unfold set_scope. flds. rewrite TM. reflexivity.
    + reflexivity.
    + intros _. cbn; rewrite O; cbn; rewrite <- ?app_assoc; cbn; rewrite <- ?app_assoc; reflexivity.
    + intros NM. contradiction.
    + apply (last_step _ _ _ _ _ E). rewrite ST. unfold terminate, scoped. rewrite told_eq by (flds; exact (i_unst _ _ _ V)). flds.
      rewrite T, RT. rewrite (destroy_live beh t _ (rev (defers t a))) by (try exact RR; cbn; exact S). cbn [bind fst].
      rewrite emits_eq. flds. rewrite calls_eq. unfold set_scope. flds. rewrite TM. reflexivity.
    + reflexivity.
    + intros _. cbn; rewrite O; cbn; rewrite <- ?app_assoc; cbn; rewrite <- ?app_assoc; reflexivity.
    + intros NM. contradiction.
  - assert (M : ~ made_outside t a). { intros M. apply (i_root _ _ _ V t N) in M. congruence. }
    destruct b; eexists; (split; [|split; [|split]]).
    + apply (last_step _ _ _ _ _ E). rewrite ST. unfold terminate, scoped. rewrite told_eq by (flds; exact (i_unst _ _ _ V)). flds.
      rewrite T, RT. cbn [bind]. rewrite calls_eq. flds. rewrite TM. reflexivity.
    + reflexivity.
    + intros NM. contradiction.
    + intros _. cbn; rewrite O; cbn; rewrite <- ?app_assoc; cbn; rewrite <- ?app_assoc; reflexivity.
    + apply (last_step _ _ _ _ _ E). rewrite ST. unfold terminate, scoped. rewrite told_eq by (flds; exact (i_unst _ _ _ V)). flds.
      rewrite T, RT. cbn [bind]. rewrite calls_eq. flds. rewrite TM. reflexivity.
    + reflexivity.
    + intros NM. contradiction.
    + intros _. cbn; rewrite O; cbn; rewrite <- ?app_assoc; cbn; rewrite <- ?app_assoc; reflexivity.
Qed.

(* an exception nobody catches, after a signal that was caught *)
Lemma throw_after_signal beh a t e u x b : quiet a -> ~ In (EndThread t) a -> defers t a <> [] ->
  depth t a = 0 -> ~ made_outside t a -> In (Signal u x b) a -> ~ In (EndThread u) a ->
  exists s, run beh init (a ++ [Throw t e]) = Ok s /\ over s = true /\ (forall v f, ~ In (Ran v f) (out s)) /\ In (Done false) (out s).
Proof.
  intros Q N D P M SG NU. destruct (run_inv beh a Q) as (s & E & V).
  pose proof (inv_root _ _ _ _ V N P) as T. pose proof (i_sig2 _ _ _ V u x b SG NU) as G.
  pose proof (i_term _ _ _ V) as TM. pose proof (i_out _ _ _ V) as O.
  assert (RT : root s t = false) by (destruct (root s t) eqn:RT; [apply (i_root _ _ _ V t N) in RT; contradiction|reflexivity]).
  assert (ST : step beh s (Throw t e) = terminate beh t (told e s)).
  { unfold step. cbn [op_thread]. rewrite (inv_alive _ _ _ _ V N), T. reflexivity. }
  destruct (ctl s) eqn:CS; eexists; (split; [|split; [|split]]).
  - apply (last_step _ _ _ _ _ E). rewrite ST. unfold terminate, scoped. rewrite (told_eq e s (i_unst _ _ _ V)). flds.
    rewrite T, RT. cbn [bind]. rewrite calls_eq. flds.
    rewrite CS, TM, G. reflexivity.
  - reflexivity.
  - intros v f I. cbn in I; rewrite O in I; cbn in I; intuition discriminate.
  - cbn; rewrite O; cbn; intuition.
  - apply (last_step _ _ _ _ _ E). rewrite ST. unfold terminate, scoped. rewrite (told_eq e s (i_unst _ _ _ V)). flds.
    rewrite T, RT. cbn [bind]. rewrite calls_eq. flds.
    rewrite CS, TM, G. reflexivity.
  - reflexivity.
  - intros v f I. cbn in I; rewrite O in I; cbn in I; intuition discriminate.
  - cbn; rewrite O; cbn; intuition.
Qed.

(* a deferred function that throws *)
Lemma runs_first_throws beh t u f e r s : beh f = Some e -> returns beh r -> tries s t = [] -> unst s = false -> root s t = true ->
  runs beh t u (f :: r) false s =
    Ok (emits (Ran u f :: Told (Some e) :: map (Ran u) r) (set_msg e s), true, []).
Proof.
  intros B R T U RT. cbn [runs]. rewrite B. unfold emit. flds. rewrite T. rewrite told_eq by exact U.
  unfold scoped. flds. rewrite T, RT. rewrite runs_ok by exact R. cbn [bind fst snd].
  rewrite !emits_eq. unfold set_msg. flds. rewrite <- !app_assoc. reflexivity.
Qed.

Lemma throw_first_throws beh a t e f d x : quiet a -> ~ In (EndThread t) a -> defers t a = d ++ [f] -> returns beh d -> beh f = Some x ->
  depth t a = 0 -> made_outside t a -> (forall u e b, ~ In (Signal u e b) a) ->
  exists s, run beh init (a ++ [Throw t e]) = Ok s /\
    out s = Told (Some e) :: Ran t f :: Told (Some x) :: map (Ran t) (rev d) ++ [Term; Done true].
Proof.
  intros Q N D R B P M SG. destruct (run_inv beh a Q) as (s & E & V).
  assert (DN : defers t a <> []) by (rewrite D; destruct d; discriminate).
  pose proof (inv_root _ _ _ _ V N P) as T. pose proof (inv_live _ _ _ _ V N DN) as S.
  rewrite D, rev_app_distr in S. cbn in S.
  pose proof (i_sig _ _ _ V SG) as G. assert (C : ctl s = false) by (apply (i_ctl _ _ _ V); intros u y; apply SG).
  pose proof (i_term _ _ _ V) as TM. pose proof (i_out _ _ _ V) as O. pose proof (proj2 (i_root _ _ _ V t N) M) as RT.
  pose proof (i_unst _ _ _ V) as U.
  assert (ST : step beh s (Throw t e) = terminate beh t (told e s)).
  { unfold step. cbn [op_thread]. rewrite (inv_alive _ _ _ _ V N), T. reflexivity. }
  eexists. split.
  - apply (last_step _ _ _ _ _ E). rewrite ST. unfold terminate, scoped at 1. rewrite (told_eq e s U). flds.
    rewrite T, RT. unfold destroy, destroy_of. flds. rewrite S. unfold unwind.
    rewrite (runs_first_throws beh t t f x (rev d)) by (try (flds; assumption); try exact B; apply returns_rev; exact R).
    cbn [bind]. rewrite emits_eq. unfold scoped, set_msg. flds. rewrite T, RT. cbn [andb negb fst].
    rewrite calls_eq. unfold set_scope. flds. rewrite C, TM, G.
    rewrite handlers_gone by (cbn; apply upd_same). reflexivity.
  - cbn. rewrite O. cbn. rewrite <- !app_assoc. reflexivity.
Qed.

Lemma runs_later_throws beh t u : forall l some f e r s, beh f = Some e -> returns beh l -> l <> [] \/ some = true -> root s t = true -> tries s t = [] -> unst s = false ->
  runs beh t u (l ++ f :: r) some s = UB.
Proof.
  induction l as [|g l IH]; intros some f e r s B R H RT T U.
  - destruct H as [H| ->]; [contradiction|]. cbn [app runs]. rewrite B. unfold emit. flds. rewrite T.
    rewrite told_eq by exact U. unfold scoped. flds. rewrite T, RT. reflexivity.
  - cbn [app runs]. rewrite (R g (or_introl eq_refl)). apply (IH true f e); auto. intros h I. apply R. right. exact I.
Qed.
Lemma later_throws beh a t e f d r x : quiet a -> ~ In (EndThread t) a -> defers t a = r ++ f :: d -> d <> [] -> returns beh d -> beh f = Some x ->
  depth t a = 0 -> made_outside t a ->
  run beh init (a ++ [Throw t e]) = UB /\ run beh init (a ++ [Exit t]) = UB.
Proof.
  intros Q N D DD R B P M. destruct (run_inv beh a Q) as (s & E & V).
  assert (DN : defers t a <> []) by (rewrite D; destruct r; discriminate).
  pose proof (inv_root _ _ _ _ V N P) as T. pose proof (inv_live _ _ _ _ V N DN) as S.
  assert (RD : rev (defers t a) = rev d ++ f :: rev r) by (rewrite D, rev_app_distr; cbn; rewrite <- app_assoc; reflexivity).
  rewrite RD in S. pose proof (proj2 (i_root _ _ _ V t N) M) as RT. pose proof (i_unst _ _ _ V) as U.
  assert (RN : rev d <> []). { intros C. apply (f_equal (@rev nat)) in C. rewrite rev_involutive in C. contradiction. }
  split; apply (last_ub _ _ _ _ E); unfold step; cbn [op_thread]; rewrite (inv_alive _ _ _ _ V N).
  - rewrite T. unfold terminate, scoped at 1. rewrite (told_eq e s U). flds. rewrite T, RT. unfold destroy, destroy_of. flds. rewrite S.
    unfold unwind. rewrite (runs_later_throws beh t t (rev d) false f x) by (try (flds; assumption); try exact B; try (apply returns_rev; exact R); left; exact RN).
    reflexivity.
  - pose proof (inv_regs _ _ _ _ V N DN) as G. destruct (regs s) as [|n]; [lia|]. cbn [handlers]. unfold destroy, destroy_of. rewrite S.
    unfold unwind. rewrite (runs_later_throws beh t t (rev d) false f x) by (try assumption; try (apply returns_rev; exact R); left; exact RN).
    reflexivity.
Qed.

(* ---- any calls: what is called at the end, and how often ---- *)
Definition is_term (e : event) : bool := match e with Term => true | _ => false end.
Definition is_ctrl (e : event) : bool := match e with CtrlC => true | _ => false end.
Definition times (p : event -> bool) (l : list event) : nat := length (filter p l).
Lemma times_app p a b : times p (a ++ b) = times p a + times p b.
Proof. unfold times. rewrite filter_app, app_length. reflexivity. Qed.

Definition b2n (b : bool) : nat := if b then 1 else 0.
Record mid (J : Prop) (s : st) : Prop := mkMid {
  m_over : over s = false;
  m_done : forall c, ~ In (Done c) (out s);
  m_term : times is_term (out s) + b2n (term s) <= 1;
  m_ctl : times is_ctrl (out s) + b2n (ctl s) <= 1;
  m_why : In CtrlC (out s) \/ ctl s = true -> J }.

Definition same (s s' : st) : Prop := over s' = over s /\ term s' = term s /\ ctl s' = ctl s /\ sig s' = sig s.
(* events of unwinding: lines and deferred functions *)
Definition plain (x : list event) : Prop := forall e, In e x -> match e with Told _ | Ran _ _ => True | _ => False end.
Definition goes (s s' : st) : Prop := same s s' /\ exists x, out s' = out s ++ x /\ plain x.

Lemma goes_refl s : goes s s.
Proof. split; [repeat split|]. exists []. rewrite app_nil_r. split; [reflexivity|intros e []]. Qed.
Lemma goes_trans a b c : goes a b -> goes b c -> goes a c.
Proof.
  intros [(A1 & A2 & A3 & A4) (x & X & PX)] [(B1 & B2 & B3 & B4) (y & Y & PY)]. split.
  - split; [congruence|]. split; [congruence|]. split; congruence.
  - exists (x ++ y). split; [rewrite Y, X, app_assoc; reflexivity|]. intros e I. apply in_app_or in I. destruct I as [I|I]; [apply (PX _ I)|apply (PY _ I)].
Qed.
Lemma goes_out s s' x : same s s' -> out s' = out s ++ x -> plain x -> goes s s'.
Proof. intros H1 H2 H3. split; [exact H1|]. exists x. auto. Qed.
Lemma goes_ran u f s : goes s (emit (Ran u f) s).
Proof. apply (goes_out _ _ [Ran u f]); [repeat split|reflexivity|]. intros e [<-|[]]. exact Logic.I. Qed.
Lemma goes_told e s : goes s (told e s).
Proof.
  unfold told. destruct (unst s).
  - apply (goes_out _ _ [Told (msg s)]); [repeat split|reflexivity|]. intros x [<-|[]]. exact Logic.I.
  - apply (goes_out _ _ [Told (Some e)]); [repeat split|reflexivity|]. intros x [<-|[]]. exact Logic.I.
Qed.
Lemma goes_scope u c s : goes s (set_scope u c s).
Proof. apply (goes_out _ _ []); [repeat split|cbn; rewrite app_nil_r; reflexivity|intros e []]. Qed.

Lemma goes_runs beh t u : forall l some s x, runs beh t u l some s = Ok x -> goes s (fst (fst x)).
Proof.
  induction l as [|f l IH]; intros some s x E.
  - injection E as <-. apply goes_refl.
  - cbn [runs] in E. destruct (beh f) as [e|].
    + destruct (match tries (emit (Ran u f) s) t with [] => false | _ :: _ => negb (unst (emit (Ran u f) s)) end); [discriminate|].
      eapply goes_trans; [apply goes_ran|]. eapply goes_trans; [apply goes_told|].
      destruct (scoped t (told e (emit (Ran u f) s))).
      * destruct some; [discriminate|]. destruct (runs beh t u l true (told e (emit (Ran u f) s))) as [y| | |] eqn:F; try discriminate.
        cbn in E. injection E as <-. cbn. apply (IH _ _ _ F).
      * injection E as <-. apply goes_refl.
    + eapply goes_trans; [apply goes_ran|]. apply (IH _ _ _ E).
Qed.
Lemma goes_unwind beh t u l some s x : unwind beh t u l some s = Ok x -> goes s (fst x).
Proof.
  unfold unwind. destruct (runs beh t u l some s) as [[[s1 th] r]| | |] eqn:F; try discriminate. cbn. intros E. injection E as <-.
  apply goes_runs in F. cbn in F. eapply goes_trans; [exact F|]. destruct (th && negb (scoped t s1)); apply goes_scope.
Qed.
Lemma goes_destroy_of beh t u s x : destroy_of beh t u s = Ok x -> goes s (fst x).
Proof.
  unfold destroy_of. destruct (scope s u) as [|l|[|] r|]; try discriminate; intros E;
    try (injection E as <-; apply goes_refl); eapply goes_unwind; exact E.
Qed.
Lemma goes_destroy beh t s x : destroy beh t s = Ok x -> goes s (fst x).
Proof.
  unfold destroy. destruct (scope s t); try apply goes_destroy_of.
  destruct (first s) as [u|]; [|intros E; injection E as <-; apply goes_refl].
  destruct (alive (set_first None s) u); [|discriminate]. intros E. apply goes_destroy_of in E.
  eapply goes_trans; [|exact E]. apply (goes_out _ _ []); [repeat split|cbn; rewrite app_nil_r; reflexivity|intros e []].
Qed.

Lemma plain_times p x : plain x -> (forall e, match e with Told _ | Ran _ _ => p e = false | _ => True end) -> times p x = 0.
Proof.
  intros P H. unfold times. induction x as [|e x IH]; [reflexivity|]. cbn.
  pose proof (P e (or_introl eq_refl)) as Q. pose proof (H e) as K. destruct e; try contradiction; rewrite K;
    apply IH; intros e' I; apply P; right; exact I.
Qed.
Lemma mid_goes J s s' : mid J s -> goes s s' -> mid J s'.
Proof.
  intros [A B C D E] [(S1 & S2 & S3 & S4) (x & X & P)]. constructor.
  - congruence.
  - intros c I. rewrite X in I. apply in_app_or in I. destruct I as [I|I]; [eapply B; exact I|apply (P _ I)].
  - rewrite X, times_app, (plain_times _ x P), S2; [lia|]. intros []; exact Logic.I || reflexivity.
  - rewrite X, times_app, (plain_times _ x P), S3; [lia|]. intros []; exact Logic.I || reflexivity.
  - rewrite X, S3. intros [I|I]; [|auto]. apply in_app_or in I. destruct I as [I|I]; [auto|]. destruct (P _ I).
Qed.
Lemma mid_calls J s : mid J s -> mid J (calls s).
Proof.
  intros [A B C D E]. rewrite calls_eq. constructor; flds.
  - exact A.
  - intros c I. apply in_app_or in I. destruct I as [I|I]; [apply in_app_or in I; destruct I as [I|I]; [eapply B; exact I|]|].
    + destruct (ctl s); cbn in I; intuition discriminate.
    + destruct (term s); cbn in I; intuition discriminate.
  - rewrite !times_app. destruct (ctl s), (term s); cbn in *; lia.
  - rewrite !times_app. destruct (ctl s), (term s); cbn in *; lia.
  - intros [I|I]; [|discriminate]. apply in_app_or in I. destruct I as [I|I]; [apply in_app_or in I; destruct I as [I|I]; [auto|]|].
    + destruct (ctl s); [auto|destruct I].
    + destruct (term s); cbn in I; intuition discriminate.
Qed.

Definition ended (J : Prop) (s : st) : Prop :=
  over s = true /\ exists p c, out s = p ++ [Done c] /\ (forall c, ~ In (Done c) p) /\
  times is_term p <= 1 /\ times is_ctrl p <= 1 /\ (In CtrlC p -> J).
Lemma ended_finish J c s : mid J s -> ended J (finish c s).
Proof.
  intros [A B C D E]. split; [reflexivity|]. exists (out s), c. split; [reflexivity|]. split; [exact B|].
  split; [lia|]. split; [lia|]. intros I. apply E. left. exact I.
Qed.
Lemma ended_handlers beh J t : forall n s s', mid J s -> handlers beh t n s = Ok s' -> ended J s'.
Proof.
  induction n as [|n IH]; intros s s' M E.
  - injection E as <-. apply ended_finish. exact M.
  - cbn [handlers] in E. destruct (destroy beh t s) as [[s1 th]| | |] eqn:F; try discriminate. cbn [bind] in E.
    apply goes_destroy in F. cbn in F. pose proof (mid_goes _ _ _ M F) as M1.
    destruct th; [|apply (IH _ _ M1 E)]. pose proof (mid_calls _ _ M1) as M2.
    destruct (sig (calls s1)); [injection E as <-; apply ended_finish; exact M2|apply (IH _ _ M2 E)].
Qed.
Lemma ended_terminate beh J t s s' : mid J s -> terminate beh t s = Ok s' -> ended J s'.
Proof.
  intros M E. unfold terminate in E.
  destruct (if scoped t s then do x <- destroy beh t s; Ok (fst x) else Ok s) as [s1| | |] eqn:F; try discriminate. cbn [bind] in E.
  assert (G : goes s s1).
  { destruct (scoped t s); [|injection F as <-; apply goes_refl]. destruct (destroy beh t s) as [x| | |] eqn:H; try discriminate.
    injection F as <-. apply (goes_destroy _ _ _ _ H). }
  pose proof (mid_calls _ _ (mid_goes _ _ _ M G)) as M2.
  destruct (sig (calls s1)); [injection E as <-; apply ended_finish; exact M2|apply (ended_handlers _ _ _ _ _ _ M2 E)].
Qed.

Lemma mid_same J s s' : mid J s -> over s' = over s -> out s' = out s -> term s' = term s -> ctl s' = ctl s -> mid J s'.
Proof. intros [A B C D E] H1 H2 H3 H4. constructor; rewrite ?H1, ?H2, ?H3, ?H4; assumption. Qed.

Lemma mid_more (J K : Prop) s : (J -> K) -> mid J s -> mid K s.
Proof. intros H [A B C D E]. constructor; auto. Qed.
Lemma ended_more (J K : Prop) s : (J -> K) -> ended J s -> ended K s.
Proof. intros H (A & p & c & B & C & D & E & F). split; [exact A|]. exists p, c. repeat (split; [assumption|]). auto. Qed.

Definition int_signal (l : list op) : Prop := exists t e, In (Signal t e true) l.

Lemma any_calls beh : forall l s, run beh init l = Ok s ->
  (over s = false /\ out s = [] /\ mid (int_signal l) s) \/ ended (int_signal l) s.
Proof.
  induction l as [|o l IH] using rev_ind; intros s E.
  - injection E as <-. left. split; [reflexivity|]. split; [reflexivity|]. constructor; cbn; try lia; try reflexivity; try tauto.
    all: try (intros [[]|C]; discriminate).
  - rewrite run_app in E. destruct (run beh init l) as [s0| | |] eqn:R; try discriminate. cbn in E.
    destruct (step beh s0 o) as [s1| | |] eqn:ST; try discriminate. cbn in E. injection E as <-.
    assert (UP : int_signal l -> int_signal (l ++ [o])) by (intros (t & e & I); exists t, e; apply in_or_app; left; exact I).
    destruct (IH s0 eq_refl) as [(OV & O & M)|F].
    2:{ unfold step in ST. rewrite (proj1 F) in ST. injection ST as <-. right. apply (ended_more _ _ _ UP F). }
    pose proof (mid_more _ _ _ UP M) as M'. clear M IH.
    unfold step in ST. destruct (over s0 || negb (alive s0 (op_thread o))); [injection ST as <-; left; auto|].
    destruct o as [t f|t|t|t e|t e b|t e|t|t].
    + left. unfold defer in ST. destruct (scope s0 t); try discriminate; injection ST as <-; (split; [exact OV|]; split; [exact O|]; eapply mid_same; [exact M'|reflexivity..]).
    + left. injection ST as <-. split; [exact OV|]. split; [exact O|]. eapply mid_same; [exact M'|reflexivity..].
    + left. injection ST as <-. split; [exact OV|]. split; [exact O|]. eapply mid_same; [exact M'|reflexivity..].
    + destruct (tries s0 t); [|left; injection ST as <-; auto]. right.
      apply (ended_terminate _ _ _ _ _ (mid_goes _ _ _ M' (goes_told e s0)) ST).
    + set (s2 := mkS (alive s0) (scope s0) (first s0) (regs s0) (tries s0) (root s0) true (ctl s0 || b) (term s0) (unst s0) (msg s0) (over s0) (out s0)) in *.
      assert (M2 : mid (int_signal (l ++ [Signal t e b])) s2).
      { destruct M' as [A B C D E]. constructor; subst s2; flds; try assumption.
        - rewrite O. destruct (ctl s0), b; cbn; lia.
        - rewrite O. intros [[]|H]. apply orb_prop in H. destruct H as [H|H]; [apply E; right; exact H|].
          subst b. exists t, e. apply in_or_app. right. left. reflexivity. }
      destruct (tries s2 t).
      * right. apply (ended_terminate _ _ _ _ _ (mid_goes _ _ _ M2 (goes_told e s2)) ST).
      * left. injection ST as <-. auto.
    + right. eapply ended_terminate; [|exact ST]. eapply mid_goes; [|apply goes_told]. eapply mid_same; [exact M'|reflexivity..].
    + right. apply (ended_handlers _ _ _ _ _ _ M' ST).
    + left. injection ST as <-. split; [exact OV|]. split; [exact O|]. eapply mid_same; [exact M'|reflexivity..].
Qed.

(* ---- what is told ---- *)
Definition more (s s' : st) : Prop := exists x, out s' = out s ++ x.
Lemma more_refl s : more s s. Proof. exists []. rewrite app_nil_r. reflexivity. Qed.
Lemma more_trans a b c : more a b -> more b c -> more a c.
Proof. intros [x X] [y Y]. exists (x ++ y). rewrite Y, X, app_assoc. reflexivity. Qed.
Lemma more_goes s s' : goes s s' -> more s s'.
Proof. intros [_ (x & X & _)]. exists x. exact X. Qed.
Lemma more_calls s : more s (calls s).
Proof. rewrite calls_eq. eexists. flds. rewrite <- app_assoc. reflexivity. Qed.
Lemma more_finish c s : more s (finish c s).
Proof. eexists. reflexivity. Qed.
Lemma more_handlers beh t : forall n s s', handlers beh t n s = Ok s' -> more s s'.
Proof.
  induction n as [|n IH]; intros s s' E.
  - injection E as <-. apply more_finish.
  - cbn [handlers] in E. destruct (destroy beh t s) as [[s1 th]| | |] eqn:F; try discriminate. cbn [bind] in E.
    apply goes_destroy in F. apply more_goes in F. cbn in F. eapply more_trans; [exact F|].
    destruct th; [|apply (IH _ _ E)]. eapply more_trans; [apply more_calls|].
    destruct (sig (calls s1)); [injection E as <-; apply more_finish|apply (IH _ _ E)].
Qed.
Lemma more_terminate beh t s s' : terminate beh t s = Ok s' -> more s s'.
Proof.
  intros E. unfold terminate in E.
  destruct (if scoped t s then do x <- destroy beh t s; Ok (fst x) else Ok s) as [s1| | |] eqn:F; try discriminate. cbn [bind] in E.
  assert (G : goes s s1).
  { destruct (scoped t s); [|injection F as <-; apply goes_refl]. destruct (destroy beh t s) as [x| | |] eqn:H; try discriminate.
    injection F as <-. apply (goes_destroy _ _ _ _ H). }
  eapply more_trans; [apply more_goes; exact G|]. eapply more_trans; [apply more_calls|].
  destruct (sig (calls s1)); [injection E as <-; apply more_finish|apply (more_handlers _ _ _ _ _ E)].
Qed.

Lemma told_throw beh a t e s : quiet a -> ~ In (EndThread t) a -> depth t a = 0 ->
  run beh init (a ++ [Throw t e]) = Ok s \/ (exists b, run beh init (a ++ [Signal t e b]) = Ok s) ->
  exists x, out s = Told (Some e) :: x.
Proof.
  intros Q N P R. destruct (run_inv beh a Q) as (s0 & E & V). pose proof (inv_root _ _ _ _ V N P) as T.
  destruct R as [R|(b & R)]; rewrite run_app, E in R; cbn [bind run] in R; unfold step in R; cbn [op_thread] in R;
    rewrite (inv_alive _ _ _ _ V N) in R; cbn [tries] in R; rewrite T in R.
  - destruct (terminate beh t (told e s0)) as [s1| | |] eqn:F; try discriminate. injection R as <-.
    apply more_terminate in F. destruct F as [x X]. rewrite told_eq in X by exact (i_unst _ _ _ V). cbn in X. rewrite (i_out _ _ _ V) in X. exists x. exact X.
  - match type of R with context [terminate beh t ?q] => destruct (terminate beh t q) as [s1| | |] eqn:F end; try discriminate. injection R as <-.
    apply more_terminate in F. destruct F as [x X]. rewrite told_eq in X by exact (i_unst _ _ _ V). cbn in X. rewrite (i_out _ _ _ V) in X. exists x. exact X.
Qed.
Lemma told_within beh a t e s : quiet a -> ~ In (EndThread t) a ->
  run beh init (a ++ [Within t e]) = Ok s -> exists x, out s = Told None :: x.
Proof.
  intros Q N R. destruct (run_inv beh a Q) as (s0 & E & V).
  rewrite run_app, E in R; cbn [bind run] in R; unfold step in R; cbn [op_thread] in R.
  rewrite (inv_alive _ _ _ _ V N) in R.
  match type of R with context [terminate beh t ?q] => destruct (terminate beh t q) as [s1| | |] eqn:F end; try discriminate. injection R as <-.
  apply more_terminate in F. destruct F as [x X]. cbn in X. rewrite (i_out _ _ _ V), (i_msg _ _ _ V) in X. exists x. exact X.
Qed.
