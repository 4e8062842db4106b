(* Specification and proofs for PromiseModel. *)
From Verif Require Import Base WaitModel WaitProofs PromiseModel.
From Coq Require Import Permutation.

(* ---- specification ---- *)
(* what collecting a job that returned w gives *)
Definition delivered (w : word) : option got :=
  match w with WNull => Some (GWord (WInt 0)) | WInt z => Some (GWord (WInt z)) | WArr l => Some (GTuple l) | WOther _ => None end.

(* ---- C44 ---- *)
Definition is_set (c : ppc) : bool := match c with S0 _ | S1 _ | S2 _ | S3 _ | S4 | SEnd => true | _ => false end.
Record pinv (w : word) (g : got) (own_ok : bool) (s : pst) (pcs : nat -> ppc) : Prop := {
  pi_set : match pcs 0 with
           | S0 x => x = w /\ plock s = false /\ pval s = GWord (WInt 0) /\ pdone s = false
           | S1 x => x = w /\ plock s = true /\ pval s = GWord (WInt 0) /\ pdone s = false
           | S2 x => x = w /\ plock s = true /\ pval s = g /\ pdone s = false
           | S3 x => x = w /\ plock s = false /\ pval s = g /\ pdone s = false
           | S4 | SEnd => plock s = false /\ pval s = g /\ pdone s = true
           | _ => False end;
  pi_wait : forall x, x <> 0 -> match pcs x with W0 o => own_ok = false -> o = false | W1 o => (own_ok = false -> o = false) /\ pdone s = true
            | W2 o r => (own_ok = false -> o = false) /\ r = g /\ pdone s = true | WEnd r => r = g /\ pdone s = true | _ => False end }.
Lemma pstep_inv w g s pcs x : delivered w = Some g -> pinv w g false s pcs -> pfreed s = false ->
  exists s' c, pstep s (pcs x) = Ok (s', c) /\ pinv w g false s' (fun y => if y =? x then c else pcs y) /\ pfreed s' = false.
Proof.
  intros D I F. destruct (Nat.eq_dec x 0) as [->|NX].
  - assert (OTH : forall s' c, pdone s' = pdone s \/ pdone s' = true -> match c with S0 x => x = w /\ plock s' = false /\ pval s' = GWord (WInt 0) /\ pdone s' = false
           | S1 x => x = w /\ plock s' = true /\ pval s' = GWord (WInt 0) /\ pdone s' = false
           | S2 x => x = w /\ plock s' = true /\ pval s' = g /\ pdone s' = false
           | S3 x => x = w /\ plock s' = false /\ pval s' = g /\ pdone s' = false
           | S4 | SEnd => plock s' = false /\ pval s' = g /\ pdone s' = true | _ => False end -> pinv w g false s' (fun y => if y =? 0 then c else pcs y)).
    { intros s' c PD C. constructor; [cbn; exact C|]. intros y Y. destruct (Nat.eqb_spec y 0); [contradiction|]. pose proof (pi_wait _ _ _ _ _ I y Y) as H.
      destruct (pcs y); try exact H; intuition congruence. }
    pose proof (pi_set _ _ _ _ _ I) as H. destruct (pcs 0) eqn:E; cbn [pstep]; rewrite ?F.
    + destruct H as (-> & L & V & DN). rewrite L. do 2 eexists. split; [reflexivity|]. split; [|exact F]. apply OTH; [now left|]. cbn. auto.
    + destruct H as (-> & L & V & DN). destruct w; cbn [delivered] in D; [| | |discriminate]; injection D as <-.
      * do 2 eexists. split; [reflexivity|]. split; [|exact F]. apply OTH; [now left|]. auto.
      * do 2 eexists. split; [reflexivity|]. split; [|exact F]. apply OTH; [now left|]. cbn. auto.
      * do 2 eexists. split; [reflexivity|]. split; [|exact F]. apply OTH; [now left|]. cbn. auto.
    + destruct H as (-> & L & V & DN). do 2 eexists. split; [reflexivity|]. split; [|exact F]. apply OTH; [now left|]. cbn. auto.
    + destruct H as (-> & L & V & DN). do 2 eexists. split; [reflexivity|]. split; [|exact F]. apply OTH; [now right|]. cbn. auto.
    + do 2 eexists. split; [reflexivity|]. split; [|exact F]. apply OTH; [now left|]. exact H.
    + do 2 eexists. split; [reflexivity|]. split; [|exact F]. apply OTH; [now left|]. exact H.
    + contradiction.
    + contradiction.
    + contradiction.
    + contradiction.
  - pose proof (pi_wait _ _ _ _ _ I x NX) as H. pose proof (pi_set _ _ _ _ _ I) as H0.
    assert (OTH : forall c, match c with W0 o => false = false -> o = false | W1 o => (false = false -> o = false) /\ pdone s = true
            | W2 o r => (false = false -> o = false) /\ r = g /\ pdone s = true | WEnd r => r = g /\ pdone s = true | _ => False end -> pinv w g false s (fun y => if y =? x then c else pcs y)).
    { intros c C. constructor.
      - destruct (Nat.eqb_spec 0 x); [lia|]. exact H0.
      - intros y Y. destruct (y =? x); [exact C|]. exact (pi_wait _ _ _ _ _ I y Y). }
    destruct (pcs x) as [| | | | | |o|o|o r|r] eqn:E; cbn [pstep]; rewrite ?F; try contradiction.
    + do 2 eexists. split; [reflexivity|]. split; [|exact F]. apply OTH. destruct (pdone s) eqn:DN; auto.
    + do 2 eexists. split; [reflexivity|]. split; [|exact F]. apply OTH. destruct H as (O & DN). split; [exact O|]. split; [|exact DN].
      destruct (pcs 0); try contradiction; intuition congruence.
    + destruct H as (O & -> & DN). rewrite (O eq_refl). do 2 eexists. split; [reflexivity|]. split; [|exact F]. apply OTH. auto.
    + do 2 eexists. split; [reflexivity|]. split; [|exact F]. apply OTH. exact H.
Qed.
Definition start (w : word) (own : nat -> bool) (x : nat) : ppc := match x with 0 => S0 w | _ => W0 (own x) end.
(* every schedule of one setter and any number of waiters that leave the promise alone: no error; who has the value has the delivered
   one, and the setter had finished *)
Lemma promise_delivers w g sched : delivered w = Some g -> exists s pcs, prun pst0 (start w (fun _ => false)) sched = Ok (s, pcs) /\
  forall x r, pcs x = WEnd r -> r = g /\ (pcs 0 = S4 \/ pcs 0 = SEnd).
Proof.
  intros D. assert (G : forall s pcs, pinv w g false s pcs -> pfreed s = false -> exists s' pcs', prun s pcs sched = Ok (s', pcs') /\ pinv w g false s' pcs').
  { induction sched as [|x k IH]; intros s pcs I F; cbn [prun]; [eauto|]. destruct (pstep_inv w g s pcs x D I F) as (s1 & c & -> & I1 & F1). cbn [bind fst snd]. exact (IH _ _ I1 F1). }
  destruct (G pst0 (start w (fun _ => false))) as (s & pcs & R & I).
  - constructor; [cbn; auto|]. intros [|x] N; [contradiction|]. cbn. auto.
  - reflexivity.
  - exists s, pcs. split; [exact R|]. intros x r E. destruct (Nat.eq_dec x 0) as [->|NX].
    + pose proof (pi_set _ _ _ _ _ I) as H. rewrite E in H. contradiction.
    + pose proof (pi_wait _ _ _ _ _ I x NX) as H. rewrite E in H. destruct H as (-> & DN). split; [reflexivity|]. pose proof (pi_set _ _ _ _ _ I) as H0.
      destruct (pcs 0); try contradiction; auto; destruct H0 as (_ & _ & _ & X); congruence.
Qed.
(* no waiter is stuck: after the setter's steps, three steps of any waiter complete it *)
Lemma promise_completes w g x : delivered w = Some g -> x <> 0 -> exists s pcs, prun pst0 (start w (fun _ => false)) [0; 0; 0; 0; 0; x; x; x] = Ok (s, pcs) /\ pcs x = WEnd g.
Proof.
  intros D NX. destruct x as [|x]; [contradiction|]. cbn [prun start pstep pst0 pfreed plock bind fst snd Nat.eqb].
  destruct w; cbn [delivered] in D; [| | |discriminate]; injection D as <-; cbn; rewrite ?Nat.eqb_refl; cbn; rewrite ?Nat.eqb_refl; do 2 eexists; (split; [reflexivity|]); cbn; rewrite ?Nat.eqb_refl; reflexivity.
Qed.
Lemma wild_word z own : prun pst0 (start (WOther z) own) [0; 0] = UB.
Proof. reflexivity. Qed.
(* a waiter that frees the promise: safe if the setter has ended first ... *)
Lemma freed_early w g : delivered w = Some g -> prun pst0 (start w (fun _ => true)) [0; 0; 0; 0; 1; 1; 1; 0] = UB.
Proof. intros D. destruct w; cbn [delivered] in D; try discriminate; reflexivity. Qed.
Lemma setter_first w g x : delivered w = Some g -> x <> 0 -> exists s pcs, prun pst0 (start w (fun _ => true)) [0; 0; 0; 0; 0; x; x; x] = Ok (s, pcs) /\ pcs x = WEnd g /\ pcs 0 = SEnd /\ pfreed s = true.
Proof.
  intros D NX. destruct x as [|x]; [contradiction|]. cbn [prun start pstep pst0 pfreed plock bind fst snd Nat.eqb].
  destruct w; cbn [delivered] in D; [| | |discriminate]; injection D as <-; cbn; rewrite ?Nat.eqb_refl; cbn; rewrite ?Nat.eqb_refl; do 2 eexists; (split; [reflexivity|]); cbn; rewrite ?Nat.eqb_refl; auto.
Qed.

(* ---- C45 ---- *)
(* jobs a submitter has still to append *)
Definition appended (c : jpc) : bool := match c with J3 _ | J4 _ => true | _ => false end.
Definition holds_lock (c : jpc) : bool := match c with J2 _ _ | J3 _ | K3 | K4 _ => true | _ => false end.
Fixpoint countf (f : nat -> bool) (n : nat) : nat := match n with 0 => 0 | S k => (if f k then 1 else 0) + countf f k end.
Lemma countf_upd (f g : nat -> bool) n x : x < n -> (forall y, y <> x -> f y = g y) -> countf f n + (if g x then 1 else 0) = countf g n + (if f x then 1 else 0).
Proof.
  induction n as [|n IH]; intros X H; [lia|]. cbn [countf]. destruct (Nat.eq_dec x n) as [->|NE].
  - assert (E : countf f n = countf g n). { clear IH X. assert (Q : forall m, m <= n -> countf f m = countf g m). { induction m as [|m IHm]; intros M; [reflexivity|]. cbn [countf]. rewrite IHm, H by lia. reflexivity. } apply Q. lia. }
    lia.
  - rewrite (H n) by lia. specialize (IH ltac:(lia) H). lia.
Qed.
Lemma countf_same (f g : nat -> bool) n : (forall y, f y = g y) -> countf f n = countf g n.
Proof. intros H. induction n as [|n IH]; [reflexivity|]. cbn [countf]. now rewrite IH, H. Qed.
(* n threads: 0 is the worker, the others submit *)
Record jinv (n : nat) (s : jst) (pcs : nat -> jpc) : Prop := {
  ji_worker : match pcs 0 with J0 _ | J1 _ _ | J2 _ _ | J3 _ | J4 _ => False | _ => True end;
  ji_subs : forall x, x <> 0 -> match pcs x with J0 _ | J1 _ _ | J2 _ _ | J3 _ | J4 _ => True | _ => False end;
  ji_rest : forall x, n <= x -> pcs x = J0 [];
  ji_len : length (jq s) = javail s + countf (fun x => appended (pcs x)) n + (match pcs 0 with K2 | K3 => 1 | _ => 0 end);
  ji_pos : pcs 0 = K1 -> 0 < javail s;
  ji_all : jsub s = jran s ++ (match pcs 0 with K4 j => [j] | _ => [] end) ++ jq s }.
Lemma jstep_inv n s pcs x m : 0 < n -> jinv n s pcs -> jdangling s = false -> (m = false \/ length (jq s) < jcap s) ->
  exists s' c, jstep m s (pcs x) = Ok (s', c) /\ jinv n s' (fun y => if y =? x then c else pcs y) /\ jdangling s' = false.
Proof.
  intros NP I DG MV. destruct I as [W SB RS LN PS AL].
  assert (UPD : forall c, x < n -> countf (fun y => appended (if y =? x then c else pcs y)) n + (if appended (pcs x) then 1 else 0) = countf (fun y => appended (pcs y)) n + (if appended c then 1 else 0)).
  { intros c X. pose proof (countf_upd (fun y => appended (if y =? x then c else pcs y)) (fun y => appended (pcs y)) n x X) as H. cbn in H. rewrite Nat.eqb_refl in H. apply H.
    intros y Y. apply Nat.eqb_neq in Y. now rewrite Y. }
  destruct (Nat.eq_dec x 0) as [->|NX].
  - (* the worker *)
    assert (MK : forall s' c, match c with J0 _ | J1 _ _ | J2 _ _ | J3 _ | J4 _ => False | _ => True end -> appended (pcs 0) = false -> appended c = false ->
      (countf (fun y => appended (pcs y)) n = countf (fun y => appended (if y =? 0 then c else pcs y)) n -> length (jq s') = javail s' + countf (fun x => appended (pcs x)) n + (match c with K2 | K3 => 1 | _ => 0 end)) ->
      (c = K1 -> 0 < javail s') -> jsub s' = jran s' ++ (match c with K4 j => [j] | _ => [] end) ++ jq s' -> jinv n s' (fun y => if y =? 0 then c else pcs y)).
    { intros s' c C A1 A2 L P Q. pose proof (UPD c NP) as U. rewrite A1, A2 in U. constructor; cbn [Nat.eqb].
      - exact C.
      - intros y Y. destruct (Nat.eqb_spec y 0); [contradiction|]. apply SB. exact Y.
      - intros y Y. destruct (Nat.eqb_spec y 0); [lia|]. apply RS. exact Y.
      - rewrite L by lia. lia.
      - exact P.
      - exact Q. }
    destruct (pcs 0) as [| | | | | | | | |j] eqn:E; try contradiction; cbn [jstep].
    + do 2 eexists. split; [reflexivity|]. split; [|exact DG]. destruct (Nat.ltb_spec 0 (javail s)); apply MK; auto; intros; try lia; try discriminate.
    + do 2 eexists. split; [reflexivity|]. split; [|exact DG]. specialize (PS eq_refl). apply MK; auto; cbn; intros; try discriminate. lia.
    + destruct (jlock s).
      * do 2 eexists. split; [reflexivity|]. split; [|exact DG]. apply MK; auto; discriminate.
      * do 2 eexists. split; [reflexivity|]. split; [|exact DG]. apply MK; auto; cbn; discriminate.
    + rewrite DG. destruct (jq s) as [|j r] eqn:Q; [cbn in LN; lia|]. do 2 eexists. split; [reflexivity|]. split; [|reflexivity]. apply MK; auto; cbn.
      * intros _. cbn in LN. lia.
      * discriminate.
    + do 2 eexists. split; [reflexivity|]. split; [|exact DG]. apply MK; auto; cbn; [discriminate|]. rewrite AL, <- app_assoc. reflexivity.
  - assert (XN : pcs x <> J0 [] -> x < n). { intros H. destruct (Nat.lt_ge_cases x n); [assumption|]. rewrite RS in H by assumption. contradiction. }
    pose proof (SB x NX) as SX.
    assert (MK : forall s' c, x < n -> match c with J0 _ | J1 _ _ | J2 _ _ | J3 _ | J4 _ => True | _ => False end ->
      length (jq s') + (if appended (pcs x) then 1 else 0) + javail s = javail s' + length (jq s) + (if appended c then 1 else 0) -> (javail s <= javail s') -> jsub s' = jran s' ++ (match pcs 0 with K4 j => [j] | _ => [] end) ++ jq s' ->
      jinv n s' (fun y => if y =? x then c else pcs y)).
    { intros s' c X C L P Q. pose proof (UPD c X) as U. assert (E0 : (if 0 =? x then c else pcs 0) = pcs 0) by (destruct (Nat.eqb_spec 0 x); [lia|reflexivity]).
      constructor; rewrite ?E0.
      - exact W.
      - intros y Y. destruct (y =? x); [exact C|]. apply SB. exact Y.
      - intros y Y. destruct (Nat.eqb_spec y x); [lia|]. apply RS. exact Y.
      - lia.
      - intros K. specialize (PS K). lia.
      - exact Q. }
    destruct (pcs x) as [[|j r]|j r|j r|r|r| | | | |] eqn:E; try contradiction; cbn [jstep].
    + do 2 eexists. split; [reflexivity|]. split; [|exact DG]. constructor; auto.
      * destruct (Nat.eqb_spec 0 x); [lia|]. exact W.
      * intros y Y. destruct (y =? x); [exact Logic.I|]. apply SB. exact Y.
      * intros y Y. destruct (y =? x); [reflexivity|]. apply RS. exact Y.
      * destruct (Nat.eqb_spec 0 x); [lia|]. rewrite LN. f_equal. f_equal. apply countf_same. intros y. destruct (Nat.eqb_spec y x) as [->|]; [now rewrite E|reflexivity].
      * destruct (Nat.eqb_spec 0 x); [lia|]. exact PS.
      * destruct (Nat.eqb_spec 0 x); [lia|]. exact AL.
    + assert (x < n) by (apply XN; discriminate). do 2 eexists. split; [reflexivity|]. split; [|exact DG]. apply MK; auto; rewrite ?E; cbn; lia.
    + assert (x < n) by (apply XN; discriminate). destruct (jlock s); do 2 eexists; (split; [reflexivity|]); (split; [|exact DG]); apply MK; auto; rewrite ?E; cbn; lia.
    + assert (x < n) by (apply XN; discriminate). rewrite DG. do 2 eexists. split; [reflexivity|]. split.
      * apply MK; [assumption|exact Logic.I| | |]; rewrite ?E; cbn [jq javail jsub jran appended]; [rewrite app_length; cbn; lia|lia|rewrite AL, <- !app_assoc; reflexivity].
      * cbn. destruct MV as [->|MV]; [apply andb_false_r|]. destruct (Nat.leb_spec (jcap s) (length (jq s))); [lia|reflexivity].
    + assert (x < n) by (apply XN; discriminate). do 2 eexists. split; [reflexivity|]. split; [|exact DG]. apply MK; auto; rewrite ?E; cbn; lia.
    + assert (x < n) by (apply XN; discriminate). do 2 eexists. split; [reflexivity|]. split; [|exact DG]. apply MK; auto; rewrite ?E; cbn; lia.
Qed.
Definition jstart (n : nat) (todo : nat -> list nat) (x : nat) : jpc := match x with 0 => K0 | _ => if x <? n then J0 (todo x) else J0 [] end.
(* every schedule in which a growing job array stays in place: no job is NULL; what ran, in order, followed by what waits, is what was submitted in order *)
Lemma jobs_in_order n cap todo sched : 0 < n -> (forall t m, In (t, m) sched -> m = false) ->
  exists s pcs, jrun (jst0 cap) (jstart n todo) sched = Ok (s, pcs) /\ jsub s = jran s ++ (match pcs 0 with K4 j => [j] | _ => [] end) ++ jq s.
Proof.
  intros NP. assert (G : forall s pcs, jinv n s pcs -> jdangling s = false -> (forall t m, In (t, m) sched -> m = false) -> exists s' pcs', jrun s pcs sched = Ok (s', pcs') /\ jinv n s' pcs').
  { induction sched as [|[x m] k IH]; intros s pcs I D M; cbn [jrun]; [eauto|]. destruct (jstep_inv n s pcs x m NP I D) as (s1 & c & -> & I1 & D1); [left; apply (M x); now left|].
    cbn [bind fst snd]. apply IH; [exact I1|exact D1|]. intros t b H. apply (M t). now right. }
  intros M. destruct (G (jst0 cap) (jstart n todo)) as (s & pcs & R & I).
  - constructor; cbn.
    + exact Logic.I.
    + intros [|x] X; [contradiction|]. cbn [jstart]. destruct (S x <? n); exact Logic.I.
    + intros [|x] X; [lia|]. cbn [jstart]. destruct (Nat.ltb_spec (S x) n); [lia|reflexivity].
    + assert (Z : forall k, countf (fun x => appended (jstart n todo x)) k = 0).
      { induction k as [|k IH]; [reflexivity|]. cbn [countf]. rewrite IH. destruct k as [|k]; [reflexivity|]. cbn [jstart]. destruct (S k <? n); reflexivity. }
      rewrite Z. reflexivity.
    + discriminate.
    + reflexivity.
  - reflexivity.
  - exact M.
  - exists s, pcs. split; [exact R|]. exact (ji_all _ _ _ I).
Qed.
(* once nobody submits, the worker empties the queue in order *)
Fixpoint wturns (n : nat) : list (nat * bool) := match n with 0 => [] | S k => [(0, false); (0, false); (0, false); (0, false); (0, false)] ++ wturns k end.
Lemma jrun_app l1 l2 : forall s pcs, jrun s pcs (l1 ++ l2) = do r <- jrun s pcs l1; jrun (fst r) (snd r) l2.
Proof. induction l1 as [|[x m] l1 IH]; intros s pcs; [reflexivity|]. cbn [app jrun]. destruct (jstep m s (pcs x)) as [[s1 c]| | |]; cbn [bind fst snd]; try reflexivity. apply IH. Qed.
Lemma worker_drains q : forall s pcs, jq s = q -> javail s = length q -> pcs 0 = K0 -> jlock s = false -> jdangling s = false ->
  exists s' pcs', jrun s pcs (wturns (length q)) = Ok (s', pcs') /\ jran s' = jran s ++ q /\ jq s' = [].
Proof.
  induction q as [|j q IH]; intros s pcs Q A P L D; cbn [length wturns].
  - exists s, pcs. split; [reflexivity|]. rewrite app_nil_r. auto.
  - rewrite jrun_app. cbn [jrun]. rewrite P. cbn [jstep bind fst snd]. rewrite A. cbn [length Nat.ltb Nat.leb bind fst snd Nat.eqb jstep]. cbn [jlock]. rewrite L.
    cbn [bind fst snd Nat.eqb jstep jdangling jq]. rewrite D, Q. cbn [bind fst snd Nat.eqb jstep].
    match goal with |- context [jrun ?s1 ?p1 (wturns _)] => destruct (IH s1 p1) as (s' & p' & R & RN & E) end.
    + reflexivity.
    + cbn [javail]. rewrite A. cbn. lia.
    + reflexivity.
    + reflexivity.
    + cbn. first [exact D|reflexivity].
    + exists s', p'. split; [exact R|]. split; [|exact E]. rewrite RN. cbn [jran]. now rewrite <- app_assoc.
Qed.
(* a burst of one more job than the array holds, with a realloc that moves: the next access is to freed memory *)
Fixpoint burst (n : nat) : list (nat * bool) := match n with 0 => [] | S k => [(1, true); (1, true); (1, true); (1, true); (1, true)] ++ burst k end.
Lemma burst_runs cap k : forall s pcs todo r, pcs 1 = J0 (todo ++ r) -> length todo = k -> length (jq s) + k <= jcap s -> jlock s = false -> jdangling s = false -> jcap s = cap ->
  exists s' pcs', jrun s pcs (burst k) = Ok (s', pcs') /\ jq s' = jq s ++ todo /\ jcap s' = cap /\ pcs' 1 = J0 r /\ jlock s' = false /\ jdangling s' = false /\ (forall y, y <> 1 -> pcs' y = pcs y) /\ javail s' = javail s + k.
Proof.
  induction k as [|k IH]; intros s pcs todo r P T C L D CE.
  - destruct todo; [|discriminate]. exists s, pcs. cbn [burst jrun]. rewrite app_nil_r, Nat.add_0_r. cbn [app] in P. split; [reflexivity|]. auto 10.
  - destruct todo as [|j todo]; [discriminate|]. cbn [burst]. rewrite jrun_app. cbn [jrun app] in *. rewrite P. cbn [jstep bind fst snd Nat.eqb]. rewrite L. cbn [bind fst snd Nat.eqb jstep jdangling]. rewrite D.
    cbn [bind fst snd Nat.eqb jstep jq jcap]. destruct (Nat.leb_spec (jcap s) (length (jq s))); [lia|]. cbn [andb].
    match goal with |- context [jrun ?s1 ?p1 (burst _)] => destruct (IH s1 p1 todo r) as (s' & p' & R & RQ & RC & RP & RL & RD & RO & RA) end.
    + reflexivity.
    + cbn in T. lia.
    + cbn [jq jcap]. rewrite app_length. cbn. lia.
    + reflexivity.
    + reflexivity.
    + exact CE.
    + exists s', p'. split; [exact R|]. split; [rewrite RQ; cbn [jq]; now rewrite <- app_assoc|]. split; [exact RC|]. split; [exact RP|]. split; [exact RL|]. split; [exact RD|]. split.
      * intros y Y. rewrite RO by exact Y. apply Nat.eqb_neq in Y. now rewrite Y.
      * rewrite RA. cbn [javail]. lia.
Qed.
Lemma burst_breaks cap jobs j j2 : length jobs = cap -> exists sched, jrun (jst0 cap) (jstart 2 (fun _ => jobs ++ [j; j2])) sched = UB.
Proof.
  intros L. destruct (burst_runs cap cap (jst0 cap) (jstart 2 (fun _ => jobs ++ [j; j2])) jobs [j; j2]) as (s & p & R & RQ & RC & RP & RL & RD & RO & RA); [reflexivity|exact L|cbn; lia|reflexivity|reflexivity|reflexivity|].
  exists (burst cap ++ [(1, true); (1, true); (1, true); (1, true); (1, true); (1, true); (1, true); (1, true)]). rewrite jrun_app, R. cbn [bind fst snd jrun]. rewrite RP. cbn [jstep bind fst snd Nat.eqb]. rewrite RL.
  cbn [bind fst snd Nat.eqb jstep jdangling]. rewrite RD. cbn [bind fst snd Nat.eqb jstep jq jcap]. rewrite RC, RQ. cbn [jq jst0 app]. rewrite L, Nat.leb_refl. reflexivity.
Qed.

(* ---- C46, C47 ---- *)
Lemma thens_spec l : forall coll c calls frees, thens coll l = (c, calls, frees) -> frees = l /\ (NoDup l -> (forall j, In j l -> coll j = false) -> calls = l).
Proof.
  induction l as [|j l IH]; intros coll c calls frees H; cbn [thens] in H.
  - injection H as <- <- <-. auto.
  - destruct (thens (fun x => if x =? j then true else coll x) l) as [[c1 k1] f1] eqn:E. injection H as <- <- <-. destruct (IH _ _ _ _ E) as (-> & K). split; [reflexivity|].
    intros ND C. rewrite (C j (or_introl eq_refl)). f_equal. apply K; [now inversion ND|]. intros x X. destruct (Nat.eqb_spec x j) as [->|]; [inversion ND; contradiction|]. apply C. now right.
Qed.
Lemma wait_calls_each done fuel work out calls frees : NoDup work -> queue_wait done fuel (fun _ => false) work = Ok (out, calls, frees) ->
  Permutation work calls /\ calls = map fst out /\ (forall j t, In (j, t) out -> done t j = true) /\ NoDup frees.
Proof.
  intros ND H. unfold queue_wait in H. destruct (wait_loop done 0 1 1 fuel 0 0 work []) as [[t o]| | |] eqn:E; cbn [bind snd] in H; try discriminate.
  destruct (thens (fun _ => false) (map fst o)) as [[c k] f] eqn:T. injection H as <- <- <-. destruct (wl_sound done 0 1 1 _ _ _ _ _ _ _ E) as (o' & EO & P & V). cbn [app] in EO. subst o'.
  destruct (thens_spec _ _ _ _ _ T) as (-> & K). assert (NO : NoDup (map fst o)) by (eapply Permutation_NoDup; eauto). rewrite (K NO (fun _ _ => eq_refl)). auto.
Qed.
Lemma wait_returns done work N : (forall s x, N <= s -> In x work -> done s x = true) -> exists fuel r, queue_wait done fuel (fun _ => false) work = Ok r.
Proof.
  intros H. destruct (wl_ends done 0 1 1 N ltac:(lia) (length work + N) 0 0 work [] ltac:(lia) H) as (f & r & R). exists f. unfold queue_wait. rewrite R. cbn [bind].
  destruct (thens (fun _ => false) (map fst (snd r))) as [[c k] f0]. eauto.
Qed.
(* first collection gives the value, later ones raise *)
Lemma get_once j : (jarr j = 0 \/ jarr j = 1)%Z -> exists j', queue_get j = Ok (j', jvalue j) /\ queue_get j' = Exn.
Proof. intros [H|H]; unfold queue_get; rewrite H; cbn; eexists; (split; [reflexivity|]); reflexivity. Qed.
Fixpoint gets (n : nat) (j : job) : list (option Z) := match n with 0 => [] | S k => match queue_get j with Ok (j', v) => Some v :: gets k j' | _ => None :: gets k j end end.
Lemma gets_once n j : (jarr j = 0 \/ jarr j = 1)%Z -> gets (S n) j = Some (jvalue j) :: repeat None n.
Proof.
  intros H. destruct (get_once j H) as (j' & G & E). cbn [gets]. rewrite G. f_equal. induction n as [|n IH]; [reflexivity|]. cbn [gets repeat]. rewrite E. now rewrite IH.
Qed.
(* collecting the same job by get and by wait, or naming it twice in one wait, frees it twice when the scope ends *)
Lemma nodup_pair j : nodup Nat.eq_dec [j; j] = [j].
Proof. cbn [nodup]. destruct (in_dec Nat.eq_dec j [j]) as [|H]; [|exfalso; apply H; now left]. destruct (in_dec Nat.eq_dec j []) as [H|]; [destruct H|reflexivity]. Qed.
Lemma get_then_wait j : scope_run [QGet j; QWait [j]] = UB.
Proof. unfold scope_run. cbn -[nodup]. rewrite nodup_pair. reflexivity. Qed.
Lemma wait_twice j : scope_run [QWait [j; j]] = UB.
Proof. unfold scope_run. cbn -[nodup]. rewrite nodup_pair. reflexivity. Qed.
Lemma nodup_id (l : list nat) : NoDup l -> nodup Nat.eq_dec l = l.
Proof. induction 1 as [|x l N ND IH]; [reflexivity|]. cbn. destruct (in_dec Nat.eq_dec x l); [contradiction|]. now rewrite IH. Qed.
Lemma gets_safe l : NoDup l -> scope_run (map QGet l) = Ok tt.
Proof.
  intros ND. assert (G : forall l coll f, NoDup l -> (forall j, In j l -> coll j = false) -> cops coll f (map QGet l) = Ok (f ++ l)).
  { clear. induction l as [|j l IH]; intros coll f ND H; cbn [map cops]; [now rewrite app_nil_r|]. rewrite (H j (or_introl eq_refl)). inversion ND. subst.
    rewrite IH; [now rewrite <- app_assoc|assumption|]. intros x X. destruct (Nat.eqb_spec x j) as [->|]; [contradiction|]. apply H. now right. }
  unfold scope_run. rewrite (G l (fun _ => false) [] ND (fun _ _ => eq_refl)). cbn [bind app]. rewrite nodup_id by exact ND. now rewrite Nat.eqb_refl.
Qed.
