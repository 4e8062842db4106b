(* Deferred functions that throw when the first of them was deferred in a try block: the rest is not called, or at a later
   handler of exit; and an ending within a try block *)
From Coq Require Import List Arith Bool Lia.
From Verif Require Import Base EnModel EnProofs.
Import ListNotations.

Lemma runs_torn beh t u f x q : forall p some s, returns beh p -> beh f = Some x -> tries s t = [] -> root s t = false -> unst s = false ->
  runs beh t u (p ++ f :: q) some s = Ok (emits (map (Ran u) p ++ [Ran u f; Told (Some x)]) (set_msg x s), true, q).
Proof.
  induction p as [|g p IH]; intros some s R B T N U.
  - cbn [app runs map emits]. rewrite B. unfold emit. flds. rewrite T. rewrite told_eq by exact U. unfold scoped. flds. rewrite T, N. reflexivity.
  - cbn [app runs map emits]. rewrite (R g (or_introl eq_refl)). rewrite IH; [reflexivity|intros h H; apply R; right; exact H|exact B|exact T|exact N|exact U].
Qed.

Lemma unwind_torn beh t f x q p some s : returns beh p -> beh f = Some x -> tries s t = [] -> root s t = false -> unst s = false ->
  unwind beh t t (p ++ f :: q) some s =
    Ok (set_scope t (Torn (some || (0 <? length p)) q) (emits (map (Ran t) p ++ [Ran t f; Told (Some x)]) (set_msg x s)), true).
Proof.
  intros R B T N U. unfold unwind. rewrite (runs_torn beh t t f x q p some s R B T N U). cbn [bind].
  assert (Sc : scoped t (emits (map (Ran t) p ++ [Ran t f; Told (Some x)]) (set_msg x s)) = false).
  { rewrite emits_eq. unfold scoped, set_msg. flds. rewrite T, N. reflexivity. }
  rewrite Sc. cbn [negb andb]. replace (S (length q) <? length (p ++ f :: q)) with (0 <? length p); [reflexivity|].
  rewrite app_length. cbn [length]. destruct (Nat.ltb_spec 0 (length p)); symmetry; [apply Nat.ltb_lt|apply Nat.ltb_ge]; lia.
Qed.

(* how often exit calls scope_destroy: once for each thread that deferred *)
Lemma regs_list beh : forall a, quiet a -> forall s, run beh init a = Ok s ->
  exists L, NoDup L /\ length L = regs s /\ forall u, (In u L <-> scope s u <> Absent) /\ (scope s u <> Absent -> exists f, In (Defer u f) a).
Proof.
  induction a as [|o a IH] using rev_ind; intros Q s R.
  - injection R as <-. exists []. cbn. split; [constructor|]. split; [reflexivity|]. intros u. split; [split; [intros []|congruence]|congruence].
  - apply quiet_app in Q. destruct Q as [Q Qo]. destruct (run_inv beh a Q) as (s0 & E & V). rewrite run_app, E in R. cbn [bind run] in R.
    destruct (step beh s0 o) as [s1| | |] eqn:St; try discriminate. injection R as <-.
    destruct (IH Q s0 E) as (L & ND & LL & HL).
    assert (Keep : scope s1 = scope s0 -> regs s1 = regs s0 -> exists L, NoDup L /\ length L = regs s1 /\
      forall u, (In u L <-> scope s1 u <> Absent) /\ (scope s1 u <> Absent -> exists f, In (Defer u f) (a ++ [o]))).
    { intros -> ->. exists L. split; [exact ND|]. split; [exact LL|]. intros u. destruct (HL u) as [H1 H2]. split; [exact H1|].
      intros H. destruct (H2 H) as (f & I). exists f. apply in_or_app. left. exact I. }
    unfold step in St. destruct (over s0 || negb (alive s0 (op_thread o))) eqn:Al; [injection St as <-; apply Keep; reflexivity|].
    assert (NE : ~ In (EndThread (op_thread o)) a).
    { apply orb_false_iff in Al. destruct Al as [_ Al]. apply negb_false_iff in Al. apply (i_alive _ _ _ V). exact Al. }
    destruct o as [t f|t|t|t e|t e b|t e|t|t]; cbn [op_thread] in *.
    + unfold defer in St. destruct (scope s0 t) as [|l|b l|] eqn:S0; try discriminate.
      * injection St as <-. exists (t :: L). cbn [regs scope length]. split; [|split].
        -- constructor; [|exact ND]. intros I. apply (proj1 (HL t)) in I. congruence.
        -- rewrite LL. reflexivity.
        -- intros u. destruct (Nat.eq_dec u t) as [->|N].
           ++ rewrite upd_same. split; [split; [discriminate|intros _; left; reflexivity]|]. intros _. exists f. apply in_or_app. right. left. reflexivity.
           ++ rewrite upd_other by exact N. destruct (HL u) as [H1 H2]. split.
              ** split; [intros [C|I]; [congruence|apply H1; exact I]|intros H; right; apply H1; exact H].
              ** intros H. destruct (H2 H) as (g & I). exists g. apply in_or_app. left. exact I.
      * injection St as <-. exists L. cbn [set_scope regs scope]. split; [exact ND|]. split; [exact LL|]. intros u.
        destruct (HL u) as [H1 H2]. destruct (Nat.eq_dec u t) as [->|N].
        -- rewrite upd_same. split; [split; [discriminate|intros _; apply H1; congruence]|]. intros _. exists f. apply in_or_app. right. left. reflexivity.
        -- rewrite upd_other by exact N. split; [exact H1|]. intros H. destruct (H2 H) as (g & I). exists g. apply in_or_app. left. exact I.
    + injection St as <-. apply Keep; reflexivity.
    + injection St as <-. apply Keep; reflexivity.
    + pose proof (i_tries _ _ _ V t NE) as T. destruct (tries s0 t) as [|c r]; [cbn in T; lia|]. injection St as <-. apply Keep; reflexivity.
    + pose proof (i_tries _ _ _ V t NE) as T. cbn [tries] in St. destruct (tries s0 t) as [|c r]; [cbn in T; lia|]. injection St as <-. apply Keep; reflexivity.
    + contradiction.
    + contradiction.
    + injection St as <-. apply Keep; reflexivity.
Qed.

Lemma nodup_within (L M : list nat) : NoDup L -> incl L M -> length L <= length M.
Proof. apply NoDup_incl_length. Qed.

Section Inside.
Variables (beh : nat -> option nat) (a : list op) (t : nat) (f x : nat) (p q : list nat).
Hypotheses (Q : quiet a) (N : ~ In (EndThread t) a) (D : rev (defers t a) = p ++ f :: q) (R : returns beh p) (B : beh f = Some x)
  (P : depth t a = 0) (M : ~ made_outside t a) (SG : forall u e b, ~ In (Signal u e b) a).

(* the first call of scope_destroy *)
Lemma first_call : exists s s1, run beh init a = Ok s /\ inv beh a s /\ destroy beh t s = Ok (s1, true) /\
  scope s1 t = Torn (0 <? length p) q /\ tries s1 t = [] /\ root s1 t = false /\ unst s1 = false /\ sig s1 = false /\ ctl s1 = false /\ term s1 = true /\
  out s1 = map (Ran t) p ++ [Ran t f; Told (Some x)].
Proof.
  destruct (run_inv beh a Q) as (s & E & V).
  assert (DN : defers t a <> []) by (intros C; rewrite C in D; destruct p; discriminate).
  pose proof (inv_root _ _ _ _ V N P) as T. pose proof (inv_live _ _ _ _ V N DN) as S. rewrite D in S.
  pose proof (i_sig _ _ _ V SG) as G. assert (C : ctl s = false) by (apply (i_ctl _ _ _ V); intros u y; apply SG).
  assert (RT : root s t = false).
  { destruct (root s t) eqn:Er; [|reflexivity]. exfalso. apply M. apply (proj1 (i_root _ _ _ V t N)). exact Er. }
  pose proof (i_unst _ _ _ V) as U.
  exists s. eexists. split; [exact E|]. split; [exact V|]. unfold destroy, destroy_of. rewrite S.
  rewrite (unwind_torn beh t f x q p false s R B T RT U). split; [reflexivity|].
  rewrite emits_eq. unfold set_scope, set_msg. flds. rewrite upd_same, (i_out _ _ _ V).
  split; [reflexivity|]. split; [exact T|]. split; [exact RT|]. split; [exact U|]. split; [exact G|]. split; [exact C|].
  split; [apply (i_term _ _ _ V)|reflexivity].
Qed.

Lemma some_regs s : run beh init a = Ok s -> exists n, regs s = S n.
Proof.
  intros E. destruct (run_inv beh a Q) as (s' & E' & V). rewrite E in E'. injection E' as <-.
  pose proof (inv_regs beh a s t V N) as H. destruct (regs s); [|eauto].
  assert (DN : defers t a <> []) by (intros C; rewrite C in D; destruct p; discriminate). specialize (H DN). lia.
Qed.

(* no other thread deferred: those after it are not called *)
Lemma stops : (forall u g, In (Defer u g) a -> u = t) ->
  exists s, run beh init (a ++ [Exit t]) = Ok s /\ out s = map (Ran t) p ++ [Ran t f; Told (Some x); Term; Done true].
Proof.
  intros Only. destruct first_call as (s & s1 & E & V & De & Sc & T & RT & U & G & C & TM & O).
  assert (Rg : regs s = 1).
  { destruct (some_regs s E) as (n & Hn). destruct (regs_list beh a Q s E) as (L & ND & LL & HL).
    assert (I : incl L [t]). { intros u I. left. apply (proj1 (HL u)) in I. apply (proj2 (HL u)) in I. destruct I as (g & I). symmetry. apply (Only u g I). }
    pose proof (NoDup_incl_length ND I). cbn in H. lia. }
  eexists. split.
  - eapply last_step; [exact E|]. unfold step. cbn [op_thread]. rewrite (inv_alive _ _ _ _ V N), Rg. cbn [handlers].
    rewrite De. cbn [bind]. rewrite calls_eq. flds. rewrite G. reflexivity.
  - unfold finish. flds. rewrite O, C, TM, app_nil_r, <- !app_assoc. reflexivity.
Qed.

Lemma two_regs s u : run beh init a = Ok s -> u <> t -> defers u a <> [] -> ~ In (EndThread u) a -> exists n, regs s = S (S n).
Proof.
  intros E Nu Du Eu. destruct (run_inv beh a Q) as (s' & E' & V). rewrite E in E'. injection E' as <-.
  assert (DN : defers t a <> []) by (intros C; rewrite C in D; destruct p; discriminate).
  destruct (regs_list beh a Q s E) as (L & ND & LL & HL).
  assert (I : incl [t; u] L).
  { intros v [<-|[<-|[]]]; apply (proj1 (HL _)).
    - rewrite (inv_live _ _ _ _ V N DN). discriminate.
    - rewrite (inv_live _ _ _ _ V Eu Du). discriminate. }
  assert (N2 : NoDup [t; u]) by (constructor; [cbn; intuition congruence|constructor; [intros []|constructor]]).
  pose proof (NoDup_incl_length N2 I) as H. cbn in H. destruct (regs s) as [|[|n]]; [lia|lia|eauto].
Qed.

(* another did: undefined if one was called before it *)
Lemma again_ub u : u <> t -> defers u a <> [] -> ~ In (EndThread u) a -> p <> [] -> run beh init (a ++ [Exit t]) = UB.
Proof.
  intros Nu Du Eu NP. destruct first_call as (s & s1 & E & V & De & Sc & T & RT & U & G & C & TM & O).
  destruct (two_regs s u E Nu Du Eu) as (n & Rg).
  eapply last_ub; [exact E|]. unfold step. cbn [op_thread]. rewrite (inv_alive _ _ _ _ V N), Rg. cbn [handlers].
  rewrite De. cbn [bind]. rewrite calls_eq. flds. rewrite G. unfold destroy, destroy_of. flds. rewrite Sc.
  destruct p; [congruence|]. reflexivity.
Qed.

(* ... and the rest is called by the next handler if it was the first *)
Lemma again_rest u : u <> t -> defers u a <> [] -> ~ In (EndThread u) a -> p = [] -> returns beh q ->
  exists s, run beh init (a ++ [Exit t]) = Ok s /\ out s = Ran t f :: Told (Some x) :: Term :: map (Ran t) q ++ [Done true].
Proof.
  intros Nu Du Eu NP Rq. destruct first_call as (s & s1 & E & V & De & Sc & T & RT & U & G & C & TM & O).
  destruct (two_regs s u E Nu Du Eu) as (n & Rg). rewrite NP in Sc, O. cbn in Sc, O.
  eexists. split.
  - eapply last_step; [exact E|]. unfold step. cbn [op_thread]. rewrite (inv_alive _ _ _ _ V N), Rg. cbn [handlers].
    rewrite De. cbn [bind]. rewrite calls_eq. flds. rewrite G. unfold destroy at 1, destroy_of. flds. rewrite Sc.
    rewrite unwind_ok by exact Rq. cbn [bind]. rewrite handlers_gone; [reflexivity|]. unfold set_scope. flds. apply upd_same.
  - rewrite emits_eq. unfold finish, set_scope. flds. rewrite O, C, TM, app_nil_r. cbn. reflexivity.
Qed.

(* the rest throws as well, with three threads that deferred: undefined *)
Lemma twice_ub u v g y r : u <> t -> defers u a <> [] -> ~ In (EndThread u) a -> v <> t -> v <> u -> defers v a <> [] -> ~ In (EndThread v) a ->
  p = [] -> q = g :: r -> beh g = Some y -> run beh init (a ++ [Exit t]) = UB.
Proof.
  intros Nu Du Eu Nv Nvu Dv Ev NP Eq By. destruct first_call as (s & s1 & E & V & De & Sc & T & RT & U & G & C & TM & O).
  assert (DN : defers t a <> []) by (intros X; rewrite X in D; destruct p; discriminate).
  destruct (regs_list beh a Q s E) as (L & ND & LL & HL).
  assert (I : incl [t; u; v] L).
  { intros w [<-|[<-|[<-|[]]]]; apply (proj1 (HL _)).
    - rewrite (inv_live _ _ _ _ V N DN). discriminate.
    - rewrite (inv_live _ _ _ _ V Eu Du). discriminate.
    - rewrite (inv_live _ _ _ _ V Ev Dv). discriminate. }
  assert (N2 : NoDup [t; u; v]) by (constructor; [cbn; intuition congruence|constructor; [cbn; intuition congruence|constructor; [intros []|constructor]]]).
  pose proof (NoDup_incl_length N2 I) as H. cbn in H. rewrite LL in H.
  destruct (regs s) as [|[|[|n]]] eqn:Rg; try lia. rewrite NP in Sc. cbn in Sc. rewrite Eq in Sc.
  eapply last_ub; [exact E|]. unfold step. cbn [op_thread]. rewrite (inv_alive _ _ _ _ V N), Rg. cbn [handlers].
  rewrite De. cbn [bind]. rewrite calls_eq. flds. rewrite G. unfold destroy at 1, destroy_of. flds. rewrite Sc.
  change (g :: r) with ([] ++ g :: r). rewrite (unwind_torn beh t g y r [] true) by (flds; auto; intros h []). cbn [bind orb].
  rewrite calls_eq, emits_eq. unfold set_scope, set_msg. flds. rewrite ?G. unfold destroy, destroy_of. flds. rewrite upd_same. reflexivity.
Qed.
End Inside.

(* the end within a try block that nothing was deferred in *)
Lemma within_try beh a t e : quiet a -> ~ In (EndThread t) a -> defers t a <> [] -> returns beh (defers t a) -> (forall u e b, ~ In (Signal u e b) a) ->
  exists s, run beh init (a ++ [Enter t; Within t e]) = Ok s /\ out s = Told None :: Term :: map (Ran t) (rev (defers t a)) ++ [Done true].
Proof.
  intros Q N D R SG. destruct (run_inv beh a Q) as (s & E & V).
  pose proof (inv_live _ _ _ _ V N D) as S. pose proof (returns_rev _ _ R) as RR.
  pose proof (i_sig _ _ _ V SG) as G. assert (C : ctl s = false) by (apply (i_ctl _ _ _ V); intros u y; apply SG).
  pose proof (inv_regs beh a s t V N D) as Rg. pose proof (inv_alive _ _ _ _ V N) as Al.
  eexists. split.
  - rewrite run_app, E. cbn [bind run]. unfold step at 1. cbn [op_thread]. rewrite Al. cbn [bind]. unfold step. flds. cbn [op_thread]. rewrite Al.
    unfold terminate, told. flds. unfold scoped, emit. flds. rewrite upd_same. cbn [bind]. rewrite calls_eq. flds. rewrite G.
    rewrite (handlers_live beh t (regs s) _ (rev (defers t a))); [|flds; exact S|exact RR|exact Rg]. reflexivity.
  - rewrite emits_eq. unfold finish, set_scope. flds. rewrite (i_out _ _ _ V), (i_msg _ _ _ V), C, (i_term _ _ _ V), app_nil_r. cbn. reflexivity.
Qed.
