From Verif Require Import Base DllModel DllProofs EpollModel EpollProofs AwaitModel.
Local Open Scope Z_scope.

(* ================= reference ================= *)
(* ready tasks in order, who waits for which descriptor and for what, finished tasks *)
Record wspec := { ready : list nat; waits : nat -> option (nat * Z); pcs : nat -> nat; fin : nat -> bool; hist : list wev }.

Section Spec.
Variable maxfd n : nat.
Variable prog : nat -> nat -> wact.
Variable sys : nat -> bool.
Definition unfinished (z : wspec) : nat := length (filter (fun t => negb (sys t) && negb (fin z t)) (seq 0 n)).

(* a report that shows reading, writing or hang-up wakes the task that waits for the descriptor *)
Fixpoint spec_poll (batch : list (nat * Z)) (z : wspec) : option wspec :=
  match batch with
  | [] => Some z
  | (f, m) :: rest =>
    if (f <? maxfd)%nat then
      match waits z f with
      | Some (t, _) =>
        if flags m =? 0 then spec_poll rest z
        else spec_poll rest {| ready := ready z ++ [t]; waits := upd (waits z) f None; pcs := pcs z; fin := fin z; hist := hist z ++ [WWoke t f (flags m)] |}
      | None => spec_poll rest z
      end
    else None
  end.
Definition interest (rw : Z) : option Z := if rw =? 114 then Some 1 else if rw =? 119 then Some 2 else None.
(* Some = allowed: one task at a time waits for a descriptor, which is in range; one that is waited for is not closed *)
Definition spec_segment (z : wspec) (t : nat) : option wspec :=
  let z0 := {| ready := ready z; waits := waits z; pcs := upd (pcs z) t (S (pcs z t)); fin := fin z; hist := hist z ++ [WRan t] |} in
  match prog t (pcs z t) with
  | WYield => Some {| ready := ready z0 ++ [t]; waits := waits z0; pcs := pcs z0; fin := fin z0; hist := hist z0 |}
  | WWait f rw =>
    match interest rw, waits z f with
    | Some i, None => if (f <? maxfd)%nat then Some {| ready := ready z0; waits := upd (waits z0) f (Some (t, i)); pcs := pcs z0; fin := fin z0; hist := hist z0 |} else None
    | _, _ => None
    end
  | WClose f => match waits z f with None => Some {| ready := ready z0 ++ [t]; waits := waits z0; pcs := pcs z0; fin := fin z0; hist := hist z0 |} | Some _ => None end
  | WEnd => Some {| ready := ready z0; waits := waits z0; pcs := pcs z0; fin := upd (fin z0) t true; hist := hist z0 |}
  end.
Definition spec_wstep (batch : list (nat * Z)) (z : wspec) : option wspec :=
  match ready z with
  | [] => Some z
  | t :: r =>
    match spec_poll batch {| ready := r; waits := waits z; pcs := pcs z; fin := fin z; hist := hist z |} with
    | None => None
    | Some z1 => spec_segment z1 t
    end
  end.
(* ends when every task that is not a system task is finished *)
Fixpoint spec_wrun (batches : list (list (nat * Z))) (z : wspec) : option wspec :=
  match batches with
  | [] => Some z
  | b :: r => if Nat.eqb (unfinished z) 0 then Some z else match spec_wstep b z with None => None | Some z1 => spec_wrun r z1 end
  end.
Definition wspec0 : wspec := {| ready := seq 0 n; waits := fun _ => None; pcs := fun _ => O; fin := fun _ => false; hist := [] |}.
End Spec.

(* how many descriptors are waited for *)
Definition waiting (maxfd : nat) (w : nat -> option (nat * Z)) : nat := length (filter (fun f => match w f with Some _ => true | None => false end) (seq 0 maxfd)).

(* ================= simulation ================= *)
Section Sim.
Variable maxfd l n : nat.
Variable pollable : nat -> bool.
Variable prog : nat -> nat -> wact.
Variable sys : nat -> bool.
Hypothesis Hl : l <> 0%nat.

(* every task is in one place: [cur] is the one being run *)
Record WI (cur : option nat) (s : aw) (z : wspec) : Prop := {
  wi_q : Rep (wq s) (ready z);
  wi_lt : forall t, In t (ready z) -> (t < n)%nat;
  wi_pc : forall t, wpc s t = pcs z t;
  wi_log : wlog s = hist z;
  wi_cnt : wcount s = Z.of_nat (unfinished n sys z);
  wi_act : active (wep s) l = Z.of_nat (waiting maxfd (waits z));
  wi_none : forall f, waits z f = None -> tloop (wep s) f = 0%nat;
  wi_some : forall f t i, waits z f = Some (t, i) -> (f < maxfd)%nat /\ (t < n)%nat /\ (i = 1 \/ i = 2) /\ tloop (wep s) f = l /\ warg s f = t /\
    Z.land (tev (wep s) f) RW = i /\ (pollable f = true -> kern (wep s) l f = Some (kmask i)) /\ ~ In t (ready z) /\ fin z t = false /\
    forall g j, waits z g = Some (t, j) -> g = f;
  wi_cur : forall t, cur = Some t -> (t < n)%nat /\ fin z t = false /\ ~ In t (ready z) /\ forall f i, waits z f <> Some (t, i);
  wi_all : forall t, (t < n)%nat -> (fin z t = true /\ ~ In t (ready z)) \/
    (fin z t = false /\ (cur = Some t \/ In t (ready z) \/ exists f i, waits z f = Some (t, i))) }.

Lemma waiting_set w f v : (f < maxfd)%nat -> w f = None -> Z.of_nat (waiting maxfd (upd w f (Some v))) = Z.of_nat (waiting maxfd w) + 1.
Proof.
  intros Hf Hw. unfold waiting.
  set (P := fun g => match upd w f (Some v) g with Some _ => true | None => false end). set (Q := fun g => match w g with Some _ => true | None => false end).
  pose proof (filter_upd P Q f) as F. assert (E : forall g, g <> f -> P g = Q g) by (intros g G; unfold P, Q; now rewrite upd_other).
  specialize (F E (seq 0 maxfd) (seq_NoDup _ _)). assert (I : In f (seq 0 maxfd)) by (apply in_seq; lia).
  assert (PF : P f = true) by (unfold P; now rewrite upd_same). assert (QF : Q f = false) by (unfold Q; now rewrite Hw).
  rewrite PF, QF in F. destruct (in_dec Nat.eq_dec f (seq 0 maxfd)); [|contradiction]. lia.
Qed.
Lemma waiting_clear w f v : (f < maxfd)%nat -> w f = Some v -> Z.of_nat (waiting maxfd (upd w f None)) = Z.of_nat (waiting maxfd w) - 1.
Proof.
  intros Hf Hw. unfold waiting.
  set (P := fun g => match upd w f None g with Some _ => true | None => false end). set (Q := fun g => match w g with Some _ => true | None => false end).
  pose proof (filter_upd P Q f) as F. assert (E : forall g, g <> f -> P g = Q g) by (intros g G; unfold P, Q; now rewrite upd_other).
  specialize (F E (seq 0 maxfd) (seq_NoDup _ _)). assert (I : In f (seq 0 maxfd)) by (apply in_seq; lia).
  assert (PF : P f = false) by (unfold P; now rewrite upd_same). assert (QF : Q f = true) by (unfold Q; now rewrite Hw).
  rewrite PF, QF in F. destruct (in_dec Nat.eq_dec f (seq 0 maxfd)); [|contradiction]. lia.
Qed.
Lemma unfinished_end z t : (t < n)%nat -> fin z t = false ->
  Z.of_nat (unfinished n sys z) = Z.of_nat (length (filter (fun x => negb (sys x) && negb (upd (fin z) t true x)) (seq 0 n))) + if sys t then 0 else 1.
Proof.
  intros Ht Hf. unfold unfinished.
  set (Q := fun x => negb (sys x) && negb (upd (fin z) t true x)). set (P := fun x => negb (sys x) && negb (fin z x)).
  pose proof (filter_upd P Q t) as F. assert (E : forall g, g <> t -> P g = Q g) by (intros g G; unfold P, Q; now rewrite upd_other).
  specialize (F E (seq 0 n) (seq_NoDup _ _)). assert (I : In t (seq 0 n)) by (apply in_seq; lia).
  assert (PF : P t = negb (sys t)) by (unfold P; now rewrite Hf, andb_true_r). assert (QF : Q t = false) by (unfold Q; now rewrite upd_same, andb_false_r).
  rewrite PF, QF in F. destruct (in_dec Nat.eq_dec t (seq 0 n)); [|contradiction]. destruct (sys t); cbn [negb] in *; lia.
Qed.

Lemma wake_ok cur s z f t i rev : WI cur s z -> waits z f = Some (t, i) ->
  exists s', wait_cb maxfd pollable s f rev = Ok s' /\
    WI cur s' {| ready := ready z ++ [t]; waits := upd (waits z) f None; pcs := pcs z; fin := fin z; hist := hist z ++ [WWoke t f rev] |}.
Proof.
  intros H W. destruct (wi_some _ _ _ H f t i W) as (Hf & Ht & Hi & TL & AR & TE & KE & NR & NF & UQ).
  unfold wait_cb, ev_del. rewrite (proj2 (Nat.ltb_lt f maxfd) Hf), TL, (proj2 (Nat.eqb_neq l 0) Hl).
  unfold update_internal. change (Z.land DEL RW) with 0. destruct (Z.eqb_spec 0 (tev (wep s) f)) as [E0|_]; [rewrite <- E0 in TE; cbn in TE; lia|].
  change (has DEL DEL) with true. cbn [bind]. eexists. split; [reflexivity|].
  constructor; cbn [wq warg wpc wcount wlog wep set_ev set_loop set_active active tloop tev kern ready waits pcs fin hist].
  - rewrite AR. apply enqueue_rep; [apply (wi_q _ _ _ H) | exact NR].
  - intros x X. apply in_app_iff in X. destruct X as [X|[<-|[]]]; [apply (wi_lt _ _ _ H x X) | exact Ht].
  - apply (wi_pc _ _ _ H).
  - rewrite AR. now rewrite (wi_log _ _ _ H).
  - apply (wi_cnt _ _ _ H).
  - rewrite upd_same. rewrite (wi_act _ _ _ H). rewrite (waiting_clear _ _ _ Hf W). lia.
  - intros g G. destruct (Nat.eq_dec g f) as [->|N]; [apply upd_same|]. rewrite upd_other in G by exact N. rewrite upd_other by exact N. apply (wi_none _ _ _ H g G).
  - intros g t' i' G. destruct (Nat.eq_dec g f) as [->|N]; [rewrite upd_same in G; discriminate|]. rewrite (upd_other (waits z)) in G by exact N.
    destruct (wi_some _ _ _ H g t' i' G) as (A1 & A2 & A3 & A4 & A5 & A6 & A7 & A8 & A9 & A10).
    rewrite !upd_other by exact N. split; [exact A1|]. split; [exact A2|]. split; [exact A3|]. split; [exact A4|]. split; [exact A5|]. split; [exact A6|]. split; [exact A7|].
    assert (NT : t' <> t). { intros ->. apply N. symmetry. apply (A10 f i W). }
    split; [intros X; apply in_app_iff in X; destruct X as [X|[X|[]]]; [contradiction | congruence]|]. split; [exact A9|].
    intros h j Q. destruct (Nat.eq_dec h f) as [->|N2]; [rewrite upd_same in Q; discriminate|]. rewrite upd_other in Q by exact N2. apply (A10 h j Q).
  - intros x X. destruct (wi_cur _ _ _ H x X) as (B1 & B2 & B3 & B4). split; [exact B1|]. split; [exact B2|]. split.
    + intros Y. apply in_app_iff in Y. destruct Y as [Y|[<-|[]]]; [contradiction | apply (B4 f i W)].
    + intros g j. destruct (Nat.eq_dec g f) as [->|N]; [rewrite upd_same; discriminate|]. rewrite upd_other by exact N. apply B4.
  - intros x X. destruct (wi_all _ _ _ H x X) as [[C1 C2]|[C1 [C2|[C2|(g & j & C2)]]]].
    + left. split; [exact C1|]. intros Y. apply in_app_iff in Y. destruct Y as [Y|[<-|[]]]; [contradiction | congruence].
    + right. split; [exact C1|]. left. exact C2.
    + right. split; [exact C1|]. right. left. apply in_or_app. left. exact C2.
    + right. split; [exact C1|]. right. destruct (Nat.eq_dec g f) as [->|N].
      * left. apply in_or_app. right. left. congruence.
      * right. exists g, j. rewrite upd_other by exact N. exact C2.
Qed.

Lemma kern_ok cur s z k : WI cur s z -> (forall f t i, waits z f = Some (t, i) -> k l f = kern (wep s) l f) ->
  WI cur {| wep := set_kern (wep s) k; wq := wq s; warg := warg s; wpc := wpc s; wcount := wcount s; wlog := wlog s |} z.
Proof.
  intros H K. destruct H as [H1 H2 H3 H4 H5 H6 H7 H8 H9 H10]. constructor; cbn [wq warg wpc wcount wlog wep set_kern active tloop tev kern]; auto.
  intros f t i W. destruct (H8 f t i W) as (A1 & A2 & A3 & A4 & A5 & A6 & A7 & A8). rewrite (K f t i W). tauto.
Qed.

Lemma poll_ok cur b : forall s z z', WI cur s z -> spec_poll maxfd b z = Some z' ->
  exists s', wpoll maxfd l pollable b s = Ok s' /\ WI cur s' z'.
Proof.
  induction b as [|[f m] b IH]; intros s z z' H; cbn [spec_poll wpoll]; [intros [= <-]; eauto|].
  destruct (f <? maxfd)%nat eqn:Hf; [|discriminate]. rewrite revents_flags. destruct (waits z f) as [[t i]|] eqn:W.
  - destruct (wi_some _ _ _ H f t i W) as (_ & _ & Hi & TL & _ & TE & _). rewrite TL, Nat.eqb_refl, TE.
    destruct (Z.eqb_spec i 0) as [->|_]; [lia|]. cbn [negb andb]. destruct (flags m =? 0); [apply IH; exact H|]. intros E.
    destruct (wake_ok cur s z f t i (flags m) H W) as (s1 & -> & H1). cbn [bind]. apply (IH s1 _ z' H1 E).
  - rewrite (wi_none _ _ _ H f W), (proj2 (Nat.eqb_neq l 0) Hl). cbn [andb]. intros E. apply (IH _ z z'); [|exact E].
    apply kern_ok; [exact H|]. intros g t i G. unfold ctl_del. apply updk_other. congruence.
Qed.

Lemma interest_bits rw i : interest rw = Some i -> wbits rw = i /\ (i = 1 \/ i = 2).
Proof. unfold interest, wbits, READ, WRITE. destruct (rw =? 114); [intros [= <-]; auto|]. destruct (rw =? 119); [intros [= <-]; auto | discriminate]. Qed.

(* the task that runs goes back to the ready ones *)
Lemma yield_ok s z t : WI (Some t) s z -> WI None
  {| wep := wep s; wq := enqueue (wq s) t; warg := warg s; wpc := wpc s; wcount := wcount s; wlog := wlog s |}
  {| ready := ready z ++ [t]; waits := waits z; pcs := pcs z; fin := fin z; hist := hist z |}.
Proof.
  intros H. destruct (wi_cur _ _ _ H t eq_refl) as (B1 & B2 & B3 & B4). destruct H as [H1 H2 H3 H4 H5 H6 H7 H8 H9 H10].
  constructor; cbn [wq warg wpc wcount wlog wep ready waits pcs fin hist]; auto.
  - apply enqueue_rep; assumption.
  - intros x X. apply in_app_iff in X. destruct X as [X|[<-|[]]]; [apply H2, X | exact B1].
  - intros f t' i W. destruct (H8 f t' i W) as (A1 & A2 & A3 & A4 & A5 & A6 & A7 & A8 & A9 & A10).
    split; [exact A1|]. split; [exact A2|]. split; [exact A3|]. split; [exact A4|]. split; [exact A5|]. split; [exact A6|]. split; [exact A7|].
    split; [|split; [exact A9 | exact A10]]. intros X. apply in_app_iff in X. destruct X as [X|[<-|[]]]; [contradiction | apply (B4 f i W)].
  - intros x X. discriminate X.
  - intros x X. destruct (H10 x X) as [[C1 C2]|[C1 [C2|[C2|C2]]]].
    + left. split; [exact C1|]. intros Y. apply in_app_iff in Y. destruct Y as [Y|[<-|[]]]; [contradiction | congruence].
    + right. split; [exact C1|]. right. left. apply in_or_app. right. left. congruence.
    + right. split; [exact C1|]. right. left. apply in_or_app. left. exact C2.
    + right. split; [exact C1|]. right. right. exact C2.
Qed.

Lemma segment_ok s z z' t : WI (Some t) s z -> spec_segment maxfd prog z t = Some z' ->
  exists s', wsegment maxfd l pollable prog sys s t = Ok s' /\ WI None s' z'.
Proof.
  intros H. unfold spec_segment, wsegment. rewrite (wi_pc _ _ _ H).
  assert (H0 : WI (Some t) {| wep := wep s; wq := wq s; warg := warg s; wpc := upd (wpc s) t (S (pcs z t)); wcount := wcount s; wlog := wlog s ++ [WRan t] |}
                           {| ready := ready z; waits := waits z; pcs := upd (pcs z) t (S (pcs z t)); fin := fin z; hist := hist z ++ [WRan t] |}).
  { destruct H as [H1 H2 H3 H4 H5 H6 H7 H8 H9 H10]. constructor; cbn [wq warg wpc wcount wlog wep ready waits pcs fin hist]; auto; [|congruence].
    intros x. unfold upd. destruct (x =? t)%nat; [reflexivity | apply H3]. }
  destruct (prog t (pcs z t)) as [|f rw|f|].
  - intros [= <-]. eexists. split; [reflexivity|]. apply (yield_ok _ _ _ H0).
  - destruct (interest rw) as [i|] eqn:I; [|discriminate]. destruct (waits z f) eqn:W; [discriminate|]. destruct (f <? maxfd)%nat eqn:Hf; [|discriminate].
    intros [= <-]. destruct (interest_bits rw i I) as [BI I2]. unfold async_wait. cbn [wq warg wpc wcount wlog wep].
    rewrite Hf. unfold ev_add. rewrite Hf, BI. assert (Hf' := proj1 (Nat.ltb_lt _ _) Hf).
    replace (i =? PATHWATCH) with false by (symmetry; apply Z.eqb_neq; unfold PATHWATCH; lia).
    destruct (update_ok pollable (set_target (wep s) f l 0 false) l f (Z.lor i ADD) Hl) as (e1 & EU & U1 & U2 & U3 & U4 & U5 & U6 & U7).
    { exists i. split; [lia|]. right. reflexivity. } { cbn [set_target tev]. rewrite upd_same. cbn. congruence. }
    rewrite EU. cbn [bind]. eexists. split; [reflexivity|]. assert (LI : Z.land (Z.lor i ADD) RW = i) by (destruct I2 as [-> | ->]; reflexivity).
    rewrite LI in *. cbn [set_target tev tloop kern] in *.
    destruct (wi_cur _ _ _ H0 t eq_refl) as (B1 & B2 & B3 & B4). destruct H0 as [H1 H2 H3 H4 H5 H6 H7 H8 H9 H10].
    constructor; cbn [wq warg wpc wcount wlog wep set_active active tloop tev kern ready waits pcs fin hist] in *; auto.
    + rewrite upd_same, U3. cbn [set_target active]. rewrite H6. rewrite (waiting_set _ _ _ Hf' W). lia.
    + intros g G. destruct (Nat.eq_dec g f) as [->|N]; [rewrite upd_same in G; discriminate|]. rewrite upd_other in G by exact N. rewrite U1, upd_other by exact N. apply H7, G.
    + intros g t' i' G. rewrite U1. destruct (Nat.eq_dec g f) as [->|N].
      * rewrite upd_same in G. injection G as <- <-. rewrite !upd_same. split; [exact Hf'|]. split; [exact B1|]. split; [exact I2|]. split; [reflexivity|]. split; [reflexivity|].
        split; [exact U6|]. split; [intros P; apply U7; [lia | exact P]|]. split; [exact B3|]. split; [exact B2|].
        intros h j Q. destruct (Nat.eq_dec h f) as [->|N2]; [reflexivity|]. rewrite upd_other in Q by exact N2. exfalso. apply (B4 h j Q).
      * rewrite (upd_other (waits z)) in G by exact N. destruct (H8 g t' i' G) as (A1 & A2 & A3 & A4 & A5 & A6 & A7 & A8 & A9 & A10).
        destruct (U5 g N) as [V1 V2]. rewrite !upd_other by exact N. rewrite V1, V2, upd_other by exact N.
        split; [exact A1|]. split; [exact A2|]. split; [exact A3|]. split; [exact A4|]. split; [exact A5|]. split; [exact A6|]. split; [exact A7|]. split; [exact A8|]. split; [exact A9|].
        intros h j Q. destruct (Nat.eq_dec h f) as [->|N2]; [|rewrite upd_other in Q by exact N2; apply (A10 h j Q)].
        rewrite upd_same in Q. injection Q as Q1 Q2. exfalso. apply (B4 g i'). congruence.
    + intros x X. discriminate X.
    + intros x X. destruct (H10 x X) as [[C1 C2]|[C1 [C2|[C2|(g & j & C2)]]]].
      * left. auto.
      * right. split; [exact C1|]. right. right. exists f, i. rewrite upd_same. congruence.
      * right. auto.
      * right. split; [exact C1|]. right. right. exists g, j. rewrite upd_other; [exact C2|]. congruence.
  - destruct (waits z f) eqn:W; [discriminate|]. intros [= <-]. eexists. split; [reflexivity|].
    assert (H1 : WI (Some t) _ _) by (apply (kern_ok _ _ _ (fun l' f' => if Nat.eqb f' f then None else kern (wep s) l' f') H0); cbn [waits wep];
      intros g t' i' G; destruct (Nat.eqb_spec g f) as [->|]; [congruence | reflexivity]).
    apply (yield_ok _ _ _ H1).
  - intros [= <-]. eexists. split; [reflexivity|]. destruct (wi_cur _ _ _ H0 t eq_refl) as (B1 & B2 & B3 & B4).
    cbn [ready waits fin] in *. pose proof (unfinished_end z t B1 B2) as UE.
    destruct H0 as [H1 H2 H3 H4 H5 H6 H7 H8 H9 H10].
    constructor; cbn [wq warg wpc wcount wlog wep ready waits pcs fin hist] in *; auto.
    + rewrite H5. unfold unfinished in *. cbn [fin]. cbn [fin] in UE. destruct (sys t); lia.
    + intros g t' i' G. destruct (H8 g t' i' G) as (A1 & A2 & A3 & A4 & A5 & A6 & A7 & A8 & A9 & A10).
      split; [exact A1|]. split; [exact A2|]. split; [exact A3|]. split; [exact A4|]. split; [exact A5|]. split; [exact A6|]. split; [exact A7|]. split; [exact A8|].
      split; [|exact A10]. rewrite upd_other; [exact A9|]. intros ->. apply (B4 g i' G).
    + intros x X. discriminate X.
    + intros x X. destruct (Nat.eq_dec x t) as [->|N]; [left; rewrite upd_same; auto|]. rewrite upd_other by exact N.
      destruct (H10 x X) as [C|[C1 [C2|C2]]]; [left; exact C | congruence | right; auto].
Qed.

Lemma wstep_ok b s z z' : WI None s z -> spec_wstep maxfd prog b z = Some z' ->
  match ready z with [] => wstep maxfd l pollable prog sys b s = Ok None /\ z' = z
  | _ => exists s', wstep maxfd l pollable prog sys b s = Ok (Some s') /\ WI None s' z' end.
Proof.
  intros H. unfold spec_wstep, wstep. destruct (task_dequeue_rep _ _ (wi_q _ _ _ H)) as [F R].
  destruct (task_dequeue (wq s)) as [o q]. cbn [fst snd] in F, R. destruct (ready z) as [|t r] eqn:RZ; cbn [first tl] in F, R; subst o; [intros [= <-]; auto|].
  destruct (spec_poll _ _ _) as [z1|] eqn:P; [|discriminate]. intros E.
  assert (ND : NoDup (t :: r)) by (pose proof (rep_nodup _ _ (wi_q _ _ _ H)) as X; rewrite RZ in X; exact X).
  assert (H0 : WI (Some t) {| wep := wep s; wq := q; warg := warg s; wpc := wpc s; wcount := wcount s; wlog := wlog s |}
                           {| ready := r; waits := waits z; pcs := pcs z; fin := fin z; hist := hist z |}).
  { destruct H as [H1 H2 H3 H4 H5 H6 H7 H8 H9 H10]. rewrite RZ in *. constructor; cbn [wq warg wpc wcount wlog wep ready waits pcs fin hist] in *; auto.
    - intros x X. apply H2. right. exact X.
    - intros f t' i W. destruct (H8 f t' i W) as (A1 & A2 & A3 & A4 & A5 & A6 & A7 & A8 & A9 & A10).
      split; [exact A1|]. split; [exact A2|]. split; [exact A3|]. split; [exact A4|]. split; [exact A5|]. split; [exact A6|]. split; [exact A7|]. split; [|auto].
      intros X. apply A8. right. exact X.
    - intros x [= <-]. split; [apply H2; now left|]. inversion ND; subst. split; [|split; [assumption|]].
      + destruct (H10 t (H2 t (or_introl eq_refl))) as [[_ C]|[C _]]; [exfalso; apply C; now left | exact C].
      + intros f i W. destruct (H8 f t i W) as (_ & _ & _ & _ & _ & _ & _ & A8 & _). apply A8. now left.
    - intros x X. destruct (H10 x X) as [[C1 C2]|[C1 [C2|[[<-|C2]|C2]]]].
      + left. split; [exact C1|]. intros Y. apply C2. now right.
      + discriminate C2.
      + right. auto.
      + right. auto.
      + right. auto. }
  destruct (poll_ok _ b _ _ _ H0 P) as (s1 & -> & H1). cbn [bind]. destruct (segment_ok _ _ _ _ H1 E) as (s2 & -> & H2). cbn [bind]. eauto.
Qed.

Lemma wrun_ok bs : forall s z z', WI None s z -> spec_wrun maxfd n prog sys bs z = Some z' ->
  exists s', wrun maxfd l pollable prog sys bs s = Ok s' /\ WI None s' z'.
Proof.
  induction bs as [|b bs IH]; intros s z z' H; cbn [spec_wrun wrun]; [intros [= <-]; eauto|].
  rewrite (wi_cnt _ _ _ H). destruct (Nat.eqb_spec (unfinished n sys z) 0) as [E|N].
  - rewrite E. intros [= <-]. cbn. eauto.
  - destruct (Z.eqb_spec (Z.of_nat (unfinished n sys z)) 0); [lia|]. destruct (spec_wstep maxfd prog b z) as [z1|] eqn:S1; [|discriminate].
    intros E. pose proof (wstep_ok b s z z1 H S1) as W. destruct (ready z) as [|t r] eqn:RZ.
    + destruct W as [-> ->]. cbn [bind]. clear - E RZ N H. assert (G : forall bs, spec_wrun maxfd n prog sys bs z = Some z' -> z' = z).
      { induction bs0 as [|b' bs' IH']; cbn [spec_wrun]; [congruence|]. destruct (_ =? _)%nat; [congruence|]. unfold spec_wstep. rewrite RZ. exact IH'. }
      rewrite (G bs E). eauto.
    + destruct W as (s1 & -> & H1). cbn [bind]. apply (IH s1 z1 z' H1 E).
Qed.

Lemma enqueues_rep ts : forall q l0, Rep q l0 -> NoDup (l0 ++ ts) -> Rep (enqueues ts q) (l0 ++ ts).
Proof.
  induction ts as [|t ts IH]; intros q l0 R ND; cbn [enqueues]; [rewrite app_nil_r; exact R|].
  replace (l0 ++ t :: ts) with ((l0 ++ [t]) ++ ts) in * by (rewrite <- app_assoc; reflexivity). apply IH; [|exact ND]. apply enqueue_rep; [exact R|].
  rewrite <- app_assoc in ND. destruct (NoDup_mid _ _ _ ND) as (_ & _ & X & _). exact X.
Qed.
Lemma winit_ok nx pv arg0 : WI None (winit sys nx pv arg0 n) (wspec0 n).
Proof.
  unfold winit, wspec0. constructor; cbn [wq warg wpc wcount wlog wep ready waits pcs fin hist ep_init active tloop]; auto.
  - apply (enqueues_rep (seq 0 n) _ [] (empty_rep nx pv)). apply seq_NoDup.
  - intros t X. apply in_seq in X. lia.
  - unfold unfinished. cbn [fin]. f_equal. f_equal. apply filter_ext. intros a. now rewrite andb_true_r.
  - unfold waiting. cbn. induction (seq 0 maxfd) as [|a r IH]; [reflexivity | exact IH].
  - discriminate.
  - discriminate.
  - intros t X. right. split; [reflexivity|]. right. left. apply in_seq. lia.
Qed.
End Sim.

(* ================= what follows for tasks ================= *)
Section After.
Variable maxfd l n : nat.
Variable pollable : nat -> bool.
Variable prog : nat -> nat -> wact.
Variable sys : nat -> bool.
Hypothesis Hl : l <> 0%nat.

Definition in_place (z : wspec) (t : nat) : Prop :=
  (fin z t = true /\ ~ In t (ready z) /\ forall f i, waits z f <> Some (t, i)) \/
  (fin z t = false /\ In t (ready z) /\ forall f i, waits z f <> Some (t, i)) \/
  (fin z t = false /\ ~ In t (ready z) /\ exists f i, waits z f = Some (t, i) /\ forall g j, waits z g = Some (t, j) -> g = f).

Lemma wi_place s z t : WI maxfd l n pollable sys None s z -> (t < n)%nat -> in_place z t.
Proof.
  intros H Ht. destruct (wi_all _ _ _ _ _ _ _ _ H t Ht) as [[A B]|[A [B|[B|(f & i & B)]]]]; [|discriminate B| |].
  - left. split; [exact A|]. split; [exact B|]. intros f i W. destruct (wi_some _ _ _ _ _ _ _ _ H f t i W) as (_ & _ & _ & _ & _ & _ & _ & _ & X & _). congruence.
  - right. left. split; [exact A|]. split; [exact B|]. intros f i W. destruct (wi_some _ _ _ _ _ _ _ _ H f t i W) as (_ & _ & _ & _ & _ & _ & _ & X & _). contradiction.
  - right. right. destruct (wi_some _ _ _ _ _ _ _ _ H f t i B) as (_ & _ & _ & _ & _ & _ & _ & X & _ & Y). split; [exact A|]. split; [exact X|]. exists f, i. auto.
Qed.

Lemma poll_shape b : forall z z', spec_poll maxfd b z = Some z' -> exists w h, ready z' = ready z ++ w /\ fin z' = fin z /\ pcs z' = pcs z /\ hist z' = hist z ++ h /\
  (forall t, ~ In (WRan t) h) /\ (forall t, In t w -> exists f m, In (f, m) b /\ flags m <> 0 /\ In (WWoke t f (flags m)) h) /\
  (forall f t i, waits z f = Some (t, i) -> (forall m, In (f, m) b -> flags m = 0) -> waits z' f = Some (t, i)) /\
  (forall f t i m, waits z f = Some (t, i) -> In (f, m) b -> flags m <> 0 -> exists m', In (f, m') b /\ flags m' <> 0 /\ In t w /\ In (WWoke t f (flags m')) h) /\
  (forall t f r, In (WWoke t f r) h -> exists i m, waits z f = Some (t, i) /\ In (f, m) b /\ flags m = r /\ r <> 0) /\ (forall f t i, waits z' f = Some (t, i) -> waits z f = Some (t, i)).
Proof.
  induction b as [|[f m] b IH]; intros z z'; cbn [spec_poll].
  { intros [= <-]. exists [], []. rewrite !app_nil_r. repeat (split; [reflexivity || (intros; cbn in *; tauto) || auto|]). auto. }
  destruct (f <? maxfd)%nat; [|discriminate]. destruct (waits z f) as [[t i]|] eqn:W.
  - destruct (Z.eqb_spec (flags m) 0) as [F|F]; intros E.
    + destruct (IH _ _ E) as (w & h & A1 & A2 & A3 & A4 & A5 & A6 & A7 & A8 & A9 & A10). exists w, h.
      do 5 (split; [assumption|]). split; [intros x X; destruct (A6 x X) as (g & m' & G1 & G2); exists g, m'; split; [now right | exact G2]|].
      split; [intros g t' i' G1 G2; apply A7; [exact G1 | intros; apply G2; now right]|]. split; [|split; [intros x g q X; destruct (A9 x g q X) as (j & m2 & J1 & J2 & J3); exists j, m2; split; [exact J1|]; split; [now right | exact J3] | assumption]].
      intros g t' i' m' G1 [G2|G2] G3; [injection G2 as <- <-; contradiction|]. destruct (A8 g t' i' m' G1 G2 G3) as (m2 & B1 & B2). exists m2. split; [now right | exact B2].
    + destruct (IH _ _ E) as (w & h & A1 & A2 & A3 & A4 & A5 & A6 & A7 & A8 & A9 & A10). cbn [ready fin pcs hist waits] in *.
      exists (t :: w), (WWoke t f (flags m) :: h). rewrite A1, A4, <- !app_assoc.
      split; [reflexivity|]. split; [exact A2|]. split; [exact A3|]. split; [reflexivity|]. split; [intros x [X|X]; [discriminate X | exact (A5 x X)]|].
      split. { intros x [<-|X]; [exists f, m; split; [now left|]; split; [exact F | now left]|]. destruct (A6 x X) as (g & m' & G1 & G2 & G3). exists g, m'. split; [now right|]. split; [exact G2 | now right]. }
      split. { intros g t' i' G1 G2. apply A7; [|intros; apply G2; now right]. rewrite upd_other; [exact G1|]. intros ->. apply F, G2. now left. }
      split. { intros g t' i' m' G1 G2 G3. destruct (Nat.eq_dec g f) as [->|N].
        - exists m. rewrite W in G1. injection G1 as <- <-. split; [now left|]. split; [exact F|]. split; now left.
        - destruct G2 as [G2|G2]; [congruence|]. assert (G4 : upd (waits z) f None g = Some (t', i')) by (rewrite upd_other by exact N; exact G1).
          destruct (A8 g t' i' m' G4 G2 G3) as (m2 & B1 & B2 & B3 & B4). exists m2. split; [now right|]. split; [exact B2|]. split; now right. }
      split. { intros x g r [X|X]; [injection X as <- <- <-; exists i, m; split; [exact W|]; split; [now left|]; split; [reflexivity | exact F]|].
        destruct (A9 x g r X) as (j & m2 & J & J2 & J3). exists j, m2.
        destruct (Nat.eq_dec g f) as [->|N]; [rewrite upd_same in J; discriminate|]. rewrite upd_other in J by exact N. split; [exact J|]. split; [now right | exact J3]. }
      intros g t' i' G. specialize (A10 g t' i' G). destruct (Nat.eq_dec g f) as [->|N]; [rewrite upd_same in A10; discriminate | rewrite upd_other in A10 by exact N; exact A10].
  - intros E. destruct (IH _ _ E) as (w & h & A1 & A2 & A3 & A4 & A5 & A6 & A7 & A8 & A9 & A10). exists w, h.
    do 5 (split; [assumption|]). split; [intros x X; destruct (A6 x X) as (g & m' & G1 & G2); exists g, m'; split; [now right | exact G2]|].
    split; [intros g t' i' G1 G2; apply A7; [exact G1 | intros; apply G2; now right]|]. split; [|split; [intros x g q X; destruct (A9 x g q X) as (j & m2 & J1 & J2 & J3); exists j, m2; split; [exact J1|]; split; [now right | exact J3] | assumption]].
    intros g t' i' m' G1 [G2|G2] G3; [injection G2 as <- <-; congruence|]. destruct (A8 g t' i' m' G1 G2 G3) as (m2 & B1 & B2). exists m2. split; [now right | exact B2].
Qed.

Lemma segment_shape z t z' : spec_segment maxfd prog z t = Some z' -> exists w, ready z' = ready z ++ w /\ (w = [] \/ w = [t]) /\ hist z' = hist z ++ [WRan t] /\
  (forall x, x <> t -> fin z' x = fin z x) /\ (prog t (pcs z t) = WYield -> w = [t]) /\ (forall f v, waits z f = Some v -> waits z' f = Some v).
Proof.
  unfold spec_segment. destruct (prog t (pcs z t)) as [|f rw|f|].
  - intros [= <-]. exists [t]. cbn. split; [reflexivity|]. split; [auto|]. split; [reflexivity|]. auto.
  - destruct (interest rw); [|discriminate]. destruct (waits z f) eqn:W; [discriminate|]. destruct (f <? maxfd)%nat; [|discriminate]. intros [= <-]. exists []. cbn.
    rewrite app_nil_r. split; [reflexivity|]. split; [auto|]. split; [reflexivity|]. split; [auto|]. split; [discriminate|].
    intros g v G. rewrite upd_other; [exact G | congruence].
  - destruct (waits z f); [discriminate|]. intros [= <-]. exists [t]. cbn. split; [reflexivity|]. split; [auto|]. split; [reflexivity|]. auto.
  - intros [= <-]. exists []. cbn. rewrite app_nil_r. split; [reflexivity|]. split; [auto|]. split; [reflexivity|]. split; [intros x X; now apply upd_other|]. split; [discriminate | auto].
Qed.

Lemma step_shape b z z' t r : ready z = t :: r -> spec_wstep maxfd prog b z = Some z' -> exists w h, ready z' = r ++ w /\ hist z' = hist z ++ h ++ [WRan t] /\
  (forall x, ~ In (WRan x) h) /\ (forall x, x <> t -> fin z' x = fin z x) /\ (prog t (pcs z t) = WYield -> In t w) /\
  (forall f x i m, waits z f = Some (x, i) -> In (f, m) b -> flags m <> 0 -> exists m', In (f, m') b /\ flags m' <> 0 /\ In x w /\ In (WWoke x f (flags m')) h) /\
  (forall f x i, waits z f = Some (x, i) -> (forall m, In (f, m) b -> flags m = 0) -> waits z' f = Some (x, i) /\
     forall g q, In (WWoke x g q) h -> exists j m, waits z g = Some (x, j) /\ In (g, m) b /\ flags m = q /\ q <> 0).
Proof.
  intros R. unfold spec_wstep. rewrite R. destruct (spec_poll _ _ _) as [z1|] eqn:P; [|discriminate]. intros E.
  destruct (poll_shape _ _ _ P) as (w & h & A1 & A2 & A3 & A4 & A5 & A6 & A7 & A8 & A9 & A10). cbn [ready fin pcs hist waits] in *.
  destruct (segment_shape _ _ _ E) as (w2 & B1 & B2 & B3 & B4 & B5 & B6). exists (w ++ w2), h.
  split; [rewrite B1, A1, app_assoc; reflexivity|]. split; [rewrite B3, A4, <- app_assoc; reflexivity|]. split; [exact A5|].
  split; [intros x X; rewrite (B4 x X), A2; reflexivity|]. split; [intros Y; rewrite A3 in B5; rewrite (B5 Y); apply in_or_app; right; now left|].
  split; [intros f x i m W I F; destruct (A8 f x i m W I F) as (m' & C1 & C2 & C3 & C4); exists m'; split; [exact C1|]; split; [exact C2|]; split; [apply in_or_app; now left | exact C4]|].
  intros f x i W I. split; [apply B6, (A7 f x i W I) | intros g q G; apply (A9 x g q G)].
Qed.

Lemma run_hist bs : forall z z', spec_wrun maxfd n prog sys bs z = Some z' -> exists h, hist z' = hist z ++ h.
Proof.
  induction bs as [|b bs IH]; intros z z'; cbn [spec_wrun]; [intros [= <-]; exists []; now rewrite app_nil_r|].
  destruct (_ =? _)%nat; [intros [= <-]; exists []; now rewrite app_nil_r|]. destruct (spec_wstep maxfd prog b z) as [z1|] eqn:S1; [|discriminate]. intros E.
  destruct (IH _ _ E) as (h & Hh). destruct (ready z) as [|t r] eqn:R.
  - unfold spec_wstep in S1. rewrite R in S1. injection S1 as <-. eauto.
  - destruct (step_shape _ _ _ _ _ R S1) as (w & h1 & _ & H1 & _). exists ((h1 ++ [WRan t]) ++ h). rewrite Hh, H1, !app_assoc. reflexivity.
Qed.

Lemma unfinished_pos z t : (t < n)%nat -> sys t = false -> fin z t = false -> unfinished n sys z <> 0%nat.
Proof.
  intros A B C. unfold unfinished. assert (I : In t (filter (fun x => negb (sys x) && negb (fin z x)) (seq 0 n))).
  { apply filter_In. split; [apply in_seq; lia|]. rewrite B, C. reflexivity. }
  destruct (filter _ _); [destruct I | discriminate].
Qed.

(* a ready task runs before the tasks behind it run again *)
Lemma ready_runs a : forall t c z z' s bs, WI maxfd l n pollable sys None s z -> ready z = a ++ t :: c -> sys t = false -> (length a < length bs)%nat ->
  spec_wrun maxfd n prog sys bs z = Some z' -> exists h1 h2, hist z' = hist z ++ h1 ++ WRan t :: h2.
Proof.
  induction a as [|x a IH]; intros t c z z' s bs H R St L E; (destruct bs as [|b bs]; [cbn in L; lia|]); cbn [spec_wrun] in E.
  - assert (NZ : unfinished n sys z <> 0%nat).
    { assert (It : In t (ready z)) by (rewrite R; now left). destruct (wi_place _ _ t H (wi_lt _ _ _ _ _ _ _ _ H t It)) as [(_ & X & _)|[(X & _)|(_ & X & _)]]; [contradiction| |contradiction].
      apply (unfinished_pos z t); auto. apply (wi_lt _ _ _ _ _ _ _ _ H t It). }
    destruct (Nat.eqb_spec (unfinished n sys z) 0); [contradiction|]. destruct (spec_wstep maxfd prog b z) as [z1|] eqn:S1; [|discriminate].
    destruct (step_shape _ _ _ _ _ R S1) as (w & h1 & _ & H1 & _). destruct (run_hist _ _ _ E) as (h2 & H2). exists h1, h2. rewrite H2, H1, <- !app_assoc. reflexivity.
  - assert (It : In t (ready z)) by (rewrite R; right; apply in_or_app; right; now left).
    assert (NZ : unfinished n sys z <> 0%nat).
    { destruct (wi_place _ _ t H (wi_lt _ _ _ _ _ _ _ _ H t It)) as [(_ & X & _)|[(X & _)|(_ & X & _)]]; [contradiction| |contradiction].
      apply (unfinished_pos z t); auto. apply (wi_lt _ _ _ _ _ _ _ _ H t It). }
    destruct (Nat.eqb_spec (unfinished n sys z) 0); [contradiction|]. destruct (spec_wstep maxfd prog b z) as [z1|] eqn:S1; [|discriminate].
    pose proof (wstep_ok maxfd l n pollable prog sys Hl b s z z1 H S1) as W. rewrite R in W. cbn [app] in W. destruct W as (s1 & _ & H1').
    cbn [app] in R. destruct (step_shape _ _ _ _ _ R S1) as (w & h1 & R1 & H1 & _). rewrite <- app_assoc in R1. cbn [app] in R1.
    destruct (IH t (c ++ w) z1 z' s1 bs H1' R1 St) as (h2 & h3 & H2); [cbn in L; lia | exact E|].
    exists (h1 ++ [WRan x] ++ h2), h3. rewrite H2, H1, <- !app_assoc. reflexivity.
Qed.

Variable nx pv : nat -> option nat.
Variable arg0 : nat -> nat.
Notation go bs := (wrun maxfd l pollable prog sys bs (winit sys nx pv arg0 n)).
Notation ref bs := (spec_wrun maxfd n prog sys bs (wspec0 n)).

Lemma await_refines bs z : ref bs = Some z -> exists s, go bs = Ok s /\ Rep (wq s) (ready z) /\ wlog s = hist z /\
  wcount s = Z.of_nat (unfinished n sys z) /\ active (wep s) l = Z.of_nat (waiting maxfd (waits z)) /\
  (forall f t i, waits z f = Some (t, i) -> pollable f = true -> kern (wep s) l f = Some (kmask i)) /\
  forall t, (t < n)%nat -> in_place z t.
Proof.
  intros E. destruct (wrun_ok maxfd l n pollable prog sys Hl bs _ _ _ (winit_ok maxfd l n pollable prog sys Hl nx pv arg0) E) as (s & Es & H).
  exists s. split; [exact Es|]. split; [apply (wi_q _ _ _ _ _ _ _ _ H)|]. split; [apply (wi_log _ _ _ _ _ _ _ _ H)|]. split; [apply (wi_cnt _ _ _ _ _ _ _ _ H)|].
  split; [apply (wi_act _ _ _ _ _ _ _ _ H)|]. split; [|intros t Ht; apply (wi_place s z t H Ht)].
  intros f t i W P. destruct (wi_some _ _ _ _ _ _ _ _ H f t i W) as (_ & _ & _ & _ & _ & _ & K & _). apply K, P.
Qed.

(* task 0 is the system task, which only yields *)
Hypothesis Sys0 : (0 < n)%nat /\ forall k, prog 0%nat k = WYield.
Lemma zero_ready bs : forall s z z', WI maxfd l n pollable sys None s z -> In 0%nat (ready z) -> spec_wrun maxfd n prog sys bs z = Some z' -> In 0%nat (ready z').
Proof.
  induction bs as [|b bs IH]; intros s z z' H I; cbn [spec_wrun]; [congruence|]. destruct (_ =? _)%nat; [congruence|].
  destruct (spec_wstep maxfd prog b z) as [z1|] eqn:S1; [|discriminate]. pose proof (wstep_ok maxfd l n pollable prog sys Hl b s z z1 H S1) as W.
  destruct (ready z) as [|t r] eqn:R; [destruct I|]. destruct W as (s1 & _ & H1). apply (IH s1 z1 z' H1).
  destruct (step_shape _ _ _ _ _ R S1) as (w & h1 & R1 & _ & _ & _ & Y & _). rewrite R1. apply in_or_app. destruct I as [->|I]; [right; apply Y, Sys0 | left; exact I].
Qed.
Lemma loop_goes_on bs b z : ref bs = Some z -> unfinished n sys z <> 0%nat -> (forall f m, In (f, m) b -> (f < maxfd)%nat) ->
  (exists z', ref (bs ++ [b]) = Some z') -> exists s s', go bs = Ok s /\ wcount s <> 0 /\ wstep maxfd l pollable prog sys b s = Ok (Some s').
Proof.
  intros E U B (z' & E').
  destruct (wrun_ok maxfd l n pollable prog sys Hl bs _ _ _ (winit_ok maxfd l n pollable prog sys Hl nx pv arg0) E) as (s & Es & H).
  assert (I : In 0%nat (ready z)). { eapply zero_ready; [apply (winit_ok maxfd l n pollable prog sys Hl nx pv arg0)| |exact E]. cbn. apply in_seq. lia. }
  assert (APP : forall bs z0, spec_wrun maxfd n prog sys bs z0 = Some z -> spec_wrun maxfd n prog sys (bs ++ [b]) z0 = spec_wrun maxfd n prog sys [b] z).
  { clear -U. induction bs as [|b0 bs IH]; intros z0; cbn [app]; [cbn [spec_wrun]; intros [= <-]; reflexivity|]. cbn [spec_wrun].
    destruct (Nat.eqb_spec (unfinished n sys z0) 0) as [Z0|_]; [intros [= <-]; contradiction|]. destruct (spec_wstep maxfd prog b0 z0); [apply IH | discriminate]. }
  rewrite (APP bs _ E) in E'. cbn [spec_wrun] in E'. destruct (Nat.eqb_spec (unfinished n sys z) 0); [contradiction|].
  destruct (spec_wstep maxfd prog b z) as [z1|] eqn:S1; [|discriminate]. pose proof (wstep_ok maxfd l n pollable prog sys Hl b s z z1 H S1) as W.
  destruct (ready z); [destruct I|]. destruct W as (s1 & W & _). exists s, s1. split; [exact Es|]. split; [rewrite (wi_cnt _ _ _ _ _ _ _ _ H); lia | exact W].
Qed.

Lemma woken_runs bs b cs z z' f t i m : ref bs = Some z -> waits z f = Some (t, i) -> sys t = false -> In (f, m) b -> flags m <> 0 -> (n <= length cs)%nat ->
  ref (bs ++ b :: cs) = Some z' -> exists s s' m' h1 h2 h3, go bs = Ok s /\ go (bs ++ b :: cs) = Ok s' /\ In (f, m') b /\ flags m' <> 0 /\
    wlog s' = wlog s ++ h1 ++ WWoke t f (flags m') :: h2 ++ WRan t :: h3 /\ ~ In (WRan t) h1.
Proof.
  intros E W St I F L E'.
  destruct (wrun_ok maxfd l n pollable prog sys Hl bs _ _ _ (winit_ok maxfd l n pollable prog sys Hl nx pv arg0) E) as (s & Es & H).
  destruct (wrun_ok maxfd l n pollable prog sys Hl (bs ++ b :: cs) _ _ _ (winit_ok maxfd l n pollable prog sys Hl nx pv arg0) E') as (s' & Es' & H').
  assert (I0 : In 0%nat (ready z)). { eapply zero_ready; [apply (winit_ok maxfd l n pollable prog sys Hl nx pv arg0)| |exact E]. cbn. apply in_seq. lia. }
  destruct (wi_some _ _ _ _ _ _ _ _ H f t i W) as (_ & Ht & _ & _ & _ & _ & _ & NR & NF & _).
  assert (U := unfinished_pos z t Ht St NF).
  assert (APP : forall bs z0, spec_wrun maxfd n prog sys bs z0 = Some z -> spec_wrun maxfd n prog sys (bs ++ b :: cs) z0 = spec_wrun maxfd n prog sys (b :: cs) z).
  { clear -U. induction bs as [|b0 bs IH]; intros z0; cbn [app]; [cbn [spec_wrun]; intros [= <-]; reflexivity|]. cbn [spec_wrun].
    destruct (Nat.eqb_spec (unfinished n sys z0) 0) as [Z0|_]; [intros [= <-]; contradiction|]. destruct (spec_wstep maxfd prog b0 z0); [apply IH | discriminate]. }
  rewrite (APP bs _ E) in E'. cbn [spec_wrun] in E'. destruct (Nat.eqb_spec (unfinished n sys z) 0); [contradiction|].
  destruct (spec_wstep maxfd prog b z) as [z1|] eqn:S1; [|discriminate]. pose proof (wstep_ok maxfd l n pollable prog sys Hl b s z z1 H S1) as Wst.
  destruct (ready z) as [|x r] eqn:R; [destruct I0|]. destruct Wst as (s1 & _ & H1).
  destruct (step_shape _ _ _ _ _ R S1) as (w & h & R1 & Hh & NRn & _ & _ & WK & _). destruct (WK f t i m W I F) as (m' & C1 & C2 & C3 & C4).
  assert (It : In t (ready z1)) by (rewrite R1; apply in_or_app; now right). destruct (in_split _ _ It) as (a & c & Rs).
  assert (LA : (length a < length cs)%nat).
  { assert (LR : (length (ready z1) <= n)%nat). { rewrite <- (seq_length n 0). apply NoDup_incl_length; [apply (rep_nodup _ _ (wi_q _ _ _ _ _ _ _ _ H1))|].
      intros y Y. apply in_seq. pose proof (wi_lt _ _ _ _ _ _ _ _ H1 y Y). lia. }
    rewrite Rs, app_length in LR. cbn [length] in LR. lia. }
  destruct (ready_runs a t c z1 z' s1 cs H1 Rs St LA E') as (h2 & h3 & H2). destruct (in_split _ _ C4) as (ha & hb & Hs).
  exists s, s', m', ha, (hb ++ [WRan x] ++ h2), h3. split; [exact Es|]. split; [exact Es'|]. split; [exact C1|]. split; [exact C2|]. split.
  - rewrite (wi_log _ _ _ _ _ _ _ _ H'), (wi_log _ _ _ _ _ _ _ _ H), H2, Hh, Hs. repeat (rewrite <- app_assoc; cbn [app]). reflexivity.
  - intros X. apply (NRn t). rewrite Hs. apply in_or_app. now left.
Qed.

(* no report, no wake-up: the task stays where it is and does not run *)
Lemma quiet_waits bs b z z' f t i : ref bs = Some z -> waits z f = Some (t, i) -> sys t = false -> (forall m, In (f, m) b -> flags m = 0) ->
  ref (bs ++ [b]) = Some z' -> exists s s' h, go bs = Ok s /\ go (bs ++ [b]) = Ok s' /\ wlog s' = wlog s ++ h /\ ~ In (WRan t) h /\ (forall g r, ~ In (WWoke t g r) h) /\
    waits z' f = Some (t, i).
Proof.
  intros E W St I E'.
  destruct (wrun_ok maxfd l n pollable prog sys Hl bs _ _ _ (winit_ok maxfd l n pollable prog sys Hl nx pv arg0) E) as (s & Es & H).
  destruct (wrun_ok maxfd l n pollable prog sys Hl (bs ++ [b]) _ _ _ (winit_ok maxfd l n pollable prog sys Hl nx pv arg0) E') as (s' & Es' & H').
  assert (I0 : In 0%nat (ready z)). { eapply zero_ready; [apply (winit_ok maxfd l n pollable prog sys Hl nx pv arg0)| |exact E]. cbn. apply in_seq. lia. }
  destruct (wi_some _ _ _ _ _ _ _ _ H f t i W) as (_ & Ht & _ & _ & _ & _ & _ & NR & NF & UQ).
  assert (U := unfinished_pos z t Ht St NF).
  assert (APP : forall bs z0, spec_wrun maxfd n prog sys bs z0 = Some z -> spec_wrun maxfd n prog sys (bs ++ [b]) z0 = spec_wrun maxfd n prog sys [b] z).
  { clear -U. induction bs as [|b0 bs IH]; intros z0; cbn [app]; [cbn [spec_wrun]; intros [= <-]; reflexivity|]. cbn [spec_wrun].
    destruct (Nat.eqb_spec (unfinished n sys z0) 0) as [Z0|_]; [intros [= <-]; contradiction|]. destruct (spec_wstep maxfd prog b0 z0); [apply IH | discriminate]. }
  rewrite (APP bs _ E) in E'. cbn [spec_wrun] in E'. destruct (Nat.eqb_spec (unfinished n sys z) 0); [contradiction|].
  destruct (spec_wstep maxfd prog b z) as [z1|] eqn:S1; [|discriminate]. injection E' as ->.
  destruct (ready z) as [|x r] eqn:R; [destruct I0|].
  destruct (step_shape _ _ _ _ _ R S1) as (w & h & R1 & Hh & NRn & _ & _ & _ & QT). destruct (QT f t i W I) as [Q1 Q2].
  exists s, s', (h ++ [WRan x]). split; [exact Es|]. split; [exact Es'|]. split; [rewrite (wi_log _ _ _ _ _ _ _ _ H'), (wi_log _ _ _ _ _ _ _ _ H); exact Hh|].
  split; [intros X; apply in_app_iff in X; destruct X as [X|[X|[]]]; [apply (NRn t X) | injection X as ->; apply NR; now left]|].
  split; [|exact Q1]. intros g q X. apply in_app_iff in X. destruct X as [X|[X|[]]]; [|discriminate X].
  destruct (Q2 g q X) as (j & m & J1 & J2 & J3 & J4). rewrite (UQ g j J1) in J2. apply J4. rewrite <- J3. apply I, J2.
Qed.
End After.

(* ================= where the property fails ================= *)
(* two tasks wait for the same descriptor: the first is forgotten *)
Section Lost.
Variable maxfd l f : nat.
Variable pollable : nat -> bool.
Hypothesis Hl : l <> 0%nat.
Hypothesis Hf : (f < maxfd)%nat.
Definition both (t k : nat) : wact := match t with O => WYield | _ => match k with O => WWait f 114 | _ => WEnd end end.
Definition sys0 (t : nat) : bool := Nat.eqb t 0.

Record LI (s : aw) (r : list nat) : Prop := {
  li_q : Rep (wq s) r;
  li_in : forall t, In t r -> t = 0%nat \/ t = 2%nat;
  li_other : forall g, g <> f -> tloop (wep s) g = 0%nat;
  li_f : tloop (wep s) f = 0%nat \/ (tloop (wep s) f = l /\ warg s f = 2%nat /\ ~ In 2%nat r);
  li_pc : wpc s 2%nat <> 0%nat;
  li_cnt : wcount s = 2 \/ (wcount s = 1 /\ ~ In 2%nat r /\ tloop (wep s) f = 0%nat) }.

Definition runs_of (t : nat) (h : list wev) : nat := length (filter (fun e => match e with WRan x => Nat.eqb x t | _ => false end) h).
Lemma runs_app t a b : runs_of t (a ++ b) = (runs_of t a + runs_of t b)%nat.
Proof. unfold runs_of. now rewrite filter_app, app_length. Qed.

Lemma lost_poll b : forall s r, LI s r -> (forall g m, In (g, m) b -> (g < maxfd)%nat) ->
  exists s' r', wpoll maxfd l pollable b s = Ok s' /\ LI s' r' /\ wpc s' = wpc s /\ wcount s' = wcount s /\ (~ In 0%nat r -> ~ In 0%nat r') /\
    (tloop (wep s) f = 0%nat -> ~ In 2%nat r -> tloop (wep s') f = 0%nat /\ ~ In 2%nat r') /\ runs_of 1 (wlog s') = runs_of 1 (wlog s).
Proof.
  induction b as [|[g m] b IH]; intros s r H B; cbn [wpoll].
  { exists s, r. split; [reflexivity|]. split; [exact H|]. do 2 (split; [reflexivity|]). split; [auto|]. split; auto. }
  rewrite (proj2 (Nat.ltb_lt g maxfd) (B g m (or_introl eq_refl))).
  assert (B' : forall g m, In (g, m) b -> (g < maxfd)%nat) by (intros; eapply B; right; eassumption).
  destruct (Nat.eqb_spec l (tloop (wep s) g)) as [TL|_]; cbn [andb].
  2: { destruct (IH {| wep := set_kern (wep s) (ctl_del (kern (wep s)) l g); wq := wq s; warg := warg s; wpc := wpc s; wcount := wcount s; wlog := wlog s |} r) as (s' & r' & X); [|exact B'|exists s', r'; exact X].
       destruct H as [H1 H2 H3 H4 H5 H6]. constructor; cbn; auto. }
  destruct (Nat.eq_dec g f) as [->|N]; [|rewrite (li_other _ _ H g N) in TL; congruence].
  destruct (li_f _ _ H) as [X|(T & A & N2)]; [congruence|].
  destruct (negb (Z.land (tev (wep s) f) RW =? 0)).
  - destruct (revents m =? 0); [apply (IH s r H B')|]. unfold wait_cb, ev_del. rewrite (proj2 (Nat.ltb_lt f maxfd) Hf), T, (proj2 (Nat.eqb_neq l 0) Hl).
    unfold update_internal. change (has DEL DEL) with true.
    set (u := if Z.land DEL RW =? tev (wep s) f then Ok (wep s) else Ok (set_ev (wep s) f DEL)).
    assert (U : exists e, u = Ok e /\ tloop e = tloop (wep s)) by (unfold u; destruct (_ =? _); eexists; split; reflexivity). destruct U as (e & -> & UT). cbn [bind].
    assert (C2 : wcount s = 2) by (destruct (li_cnt _ _ H) as [C|(_ & _ & C)]; [exact C | congruence]).
    match goal with |- exists s' r', wpoll _ _ _ _ ?x = _ /\ _ => destruct (IH x (r ++ [2%nat])) as (s' & r' & A1 & A2 & A3 & A4 & A5 & A6 & A7) end; [|exact B'|].
    + constructor; cbn [wq wep warg wpc wcount set_ev set_loop set_active tloop].
      * rewrite A. apply enqueue_rep; [apply (li_q _ _ H) | exact N2].
      * intros t X. apply in_app_iff in X. destruct X as [X|[<-|[]]]; [apply (li_in _ _ H t X) | auto].
      * intros g G. rewrite upd_other by exact G. rewrite UT. apply (li_other _ _ H g G).
      * left. apply upd_same.
      * apply (li_pc _ _ H).
      * left. exact C2.
    + exists s', r'. split; [exact A1|]. split; [exact A2|]. split; [exact A3|]. split; [exact A4|]. split.
      { intros X. apply A5. intros Y. apply in_app_iff in Y. destruct Y as [Y|[Y|[]]]; [contradiction | discriminate Y]. }
      split; [congruence|]. rewrite A7. cbn [wlog]. rewrite runs_app. cbn. lia.
  - destruct (IH {| wep := set_kern (wep s) (ctl_del (kern (wep s)) l f); wq := wq s; warg := warg s; wpc := wpc s; wcount := wcount s; wlog := wlog s |} r) as (s' & r' & X); [|exact B'|exists s', r'; exact X].
    destruct H as [H1 H2 H3 H4 H5 H6]. constructor; cbn; auto.
Qed.

Lemma lost_step b s r : LI s r -> (forall g m, In (g, m) b -> (g < maxfd)%nat) ->
  (r = [] /\ wstep maxfd l pollable both sys0 b s = Ok None) \/
  exists s' r', wstep maxfd l pollable both sys0 b s = Ok (Some s') /\ LI s' r' /\ runs_of 1 (wlog s') = runs_of 1 (wlog s).
Proof.
  intros H B. unfold wstep. destruct (task_dequeue_rep _ _ (li_q _ _ H)) as [F R]. destruct (task_dequeue (wq s)) as [o q]. cbn [fst snd] in F, R.
  destruct r as [|t r]; cbn [first tl] in F, R; subst o; [left; auto|]. right.
  assert (ND := rep_nodup _ _ (li_q _ _ H)). inversion ND as [|? ? NT ND2]; subst.
  destruct (lost_poll b {| wep := wep s; wq := q; warg := warg s; wpc := wpc s; wcount := wcount s; wlog := wlog s |} r) as (s1 & r1 & E & H1 & P1 & C1 & Z1 & T1 & L1); [|exact B|].
  { destruct H as [H1 H2 H3 H4 H5 H6]. constructor; cbn [wq wep warg wpc wcount]; auto.
    - intros x X. apply H2. now right.
    - destruct H4 as [H4|(A & A2 & A3)]; [left; exact H4|]. right. split; [exact A|]. split; [exact A2|]. intros X. apply A3. now right.
    - destruct H6 as [H6|(A & A2 & A3)]; [left; exact H6|]. right. split; [exact A|]. split; [|exact A3]. intros X. apply A2. now right. }
  rewrite E. cbn [bind]. cbn [wpc wcount wep wlog] in *.
  destruct (li_in _ _ H t (or_introl eq_refl)) as [-> | ->]; unfold wsegment; cbn [both].
  - eexists _, (r1 ++ [0%nat]). split; [reflexivity|]. split.
    + destruct H1 as [X1 X2 X3 X4 X5 X6]. constructor; cbn [wq wep warg wpc wcount]; auto.
      * apply enqueue_rep; [exact X1 | apply Z1, NT].
      * intros x X. apply in_app_iff in X. destruct X as [X|[<-|[]]]; auto.
      * destruct X4 as [X4|(A & A2 & A3)]; [left; exact X4|]. right. split; [exact A|]. split; [exact A2|]. intros X. apply in_app_iff in X. destruct X as [X|[X|[]]]; [contradiction | discriminate X].
      * destruct X6 as [X6|(A & A2 & A3)]; [left; exact X6|]. right. split; [exact A|]. split; [|exact A3]. intros X. apply in_app_iff in X. destruct X as [X|[X|[]]]; [contradiction | discriminate X].
    + cbn [wlog]. rewrite runs_app, L1. cbn. lia.
  - assert (TF : tloop (wep s) f = 0%nat) by (destruct (li_f _ _ H) as [X|(_ & _ & X)]; [exact X | exfalso; apply X; now left]).
    destruct (T1 TF NT) as [T2 T3]. assert (CC : wcount s = 2) by (destruct (li_cnt _ _ H) as [C|(_ & C & _)]; [exact C | exfalso; apply C; now left]).
    rewrite P1. pose proof (li_pc _ _ H) as P2. destruct (wpc s 2%nat) as [|k]; [congruence|]. eexists _, r1. split; [reflexivity|]. split.
    + destruct H1 as [X1 X2 X3 X4 X5 X6]. constructor; cbn [wq wep warg wpc wcount]; auto; [rewrite upd_same; discriminate|].
      right. split; [|split; [exact T3 | exact T2]]. change (sys0 2) with false. cbn iota. lia.
    + cbn [wlog]. rewrite runs_app, L1. cbn. lia.
Qed.
Lemma lost_run bs : forall s r, LI s r -> (forall b g m, In b bs -> In (g, m) b -> (g < maxfd)%nat) ->
  exists s', wrun maxfd l pollable both sys0 bs s = Ok s' /\ runs_of 1 (wlog s') = runs_of 1 (wlog s) /\ 0 < wcount s'.
Proof.
  induction bs as [|b bs IH]; intros s r H B; cbn [wrun].
  { exists s. split; [reflexivity|]. split; [reflexivity|]. destruct (li_cnt _ _ H) as [C|(C & _)]; lia. }
  destruct (Z.eqb_spec (wcount s) 0) as [Z0|_]; [destruct (li_cnt _ _ H) as [C|(C & _)]; lia|].
  destruct (lost_step b s r H (fun g m X => B b g m (or_introl eq_refl) X)) as [[-> E]|(s1 & r1 & E & H1 & L1)]; rewrite E; cbn [bind].
  - exists s. split; [reflexivity|]. split; [reflexivity|]. destruct (li_cnt _ _ H) as [C|(C & _)]; lia.
  - destruct (IH s1 r1 H1) as (s' & E2 & L2 & C2); [intros; eapply B; [right|]; eassumption|]. exists s'. rewrite L2. auto.
Qed.

Lemma second_waiter nx pv arg0 bs : (forall b g m, In b bs -> In (g, m) b -> (g < maxfd)%nat) ->
  exists s, wrun maxfd l pollable both sys0 ([] :: [] :: [] :: bs) (winit sys0 nx pv arg0 3) = Ok s /\ runs_of 1 (wlog s) = 1%nat /\ 0 < wcount s.
Proof.
  intros B. set (s0 := winit sys0 nx pv arg0 3).
  assert (E2 : spec_wrun maxfd 3 both sys0 [[]; []] (wspec0 3) = Some {| ready := [2; 0]%nat; waits := upd (fun _ => None) f (Some (1%nat, 1)); pcs := upd (upd (fun _ => O) 0%nat 1%nat) 1%nat 1%nat; fin := fun _ => false; hist := [WRan 0; WRan 1] |}).
  { cbn -[Nat.ltb upd]. unfold spec_segment. cbn [pcs ready waits fin hist]. change (both 1 (upd (fun _ : nat => O) 0 1%nat 1)) with (WWait f 114). cbv iota beta. change (interest 114) with (Some 1). cbv iota beta. rewrite (proj2 (Nat.ltb_lt f maxfd) Hf). reflexivity. }
  destruct (wrun_ok maxfd l 3 pollable both sys0 Hl [[]; []] _ _ _ (winit_ok maxfd l 3 pollable both sys0 Hl nx pv arg0) E2) as (s2 & Es2 & H2). fold s0 in Es2.
  assert (R3 : wrun maxfd l pollable both sys0 ([] :: [] :: [] :: bs) s0 = wrun maxfd l pollable both sys0 ([] :: bs) s2).
  { clear -Es2. revert Es2. cbn [wrun]. change (wcount s0) with 2. cbn [Z.eqb]. destruct (wstep maxfd l pollable both sys0 [] s0) as [[s1|]| | |] eqn:S1; cbn [bind]; try discriminate.
    - destruct (wcount s1 =? 0) eqn:C1; [intros [= <-]; cbn [wrun]; rewrite C1; reflexivity|]. destruct (wstep maxfd l pollable both sys0 [] s1) as [[s1'|]| | |] eqn:S2; cbn [bind]; try discriminate.
      + intros [= <-]. reflexivity.
      + intros [= <-]. cbn [wrun]. rewrite C1, S2. reflexivity. }
  rewrite R3. cbn [wrun]. pose proof (wi_cnt _ _ _ _ _ _ _ _ H2) as C2. change (Z.of_nat (unfinished 3 sys0 _)) with 2 in C2. rewrite C2. cbn [Z.eqb].
  unfold wstep. destruct (task_dequeue_rep _ _ (wi_q _ _ _ _ _ _ _ _ H2)) as [F R]. destruct (task_dequeue (wq s2)) as [o q]. cbn [fst snd ready first tl] in F, R. subst o.
  cbn [wpoll bind]. unfold wsegment. cbn [wpc wep wq warg wcount wlog]. pose proof (wi_pc _ _ _ _ _ _ _ _ H2 2%nat) as P2. cbn [pcs] in P2.
  change (upd (upd (fun _ => O) 0%nat 1%nat) 1%nat 1%nat 2%nat) with O in P2. rewrite P2. cbn [both]. unfold async_wait. rewrite (proj2 (Nat.ltb_lt f maxfd) Hf).
  unfold ev_add. rewrite (proj2 (Nat.ltb_lt f maxfd) Hf). change (wbits 114) with 1. change (1 =? PATHWATCH) with false. cbn [wep].
  destruct (update_ok pollable (set_target (wep s2) f l 0 false) l f (Z.lor 1 ADD) Hl) as (e1 & EU & U1 & U2 & U3 & U4 & U5 & U6 & U7).
  { exists 1. split; [lia|]. right. reflexivity. } { cbn [set_target tev]. rewrite upd_same. cbn. congruence. }
  rewrite EU. cbn [bind]. cbn [set_target tloop] in U1.
  match goal with |- exists s, wrun _ _ _ _ _ _ ?x = _ /\ _ => destruct (lost_run bs x [0%nat]) as (s' & Es' & L' & C') end; [|exact B|].
  - constructor; cbn [wq wep warg wpc wcount set_active tloop].
    + exact R.
    + intros t [<-|[]]. auto.
    + intros g G. rewrite U1, upd_other by exact G. apply (wi_none _ _ _ _ _ _ _ _ H2). cbn [waits]. rewrite upd_other by exact G. reflexivity.
    + right. rewrite U1, !upd_same. split; [reflexivity|]. split; [reflexivity|]. intros [X|[]]. discriminate X.
    + rewrite upd_same. discriminate.
    + left. exact C2.
  - exists s'. split; [exact Es'|]. split; [|exact C']. rewrite L'. cbn [wlog]. rewrite (wi_log _ _ _ _ _ _ _ _ H2). reflexivity.
Qed.
End Lost.

(* out of range, or with another letter: nothing will wake the task *)
Lemma unregistered maxfd l pollable prog sys s t f rw : prog t (wpc s t) = WWait f rw -> l <> 0%nat -> (maxfd <= f)%nat \/ (rw <> 114 /\ rw <> 119) ->
  exists s', wsegment maxfd l pollable prog sys s t = Ok s' /\ wq s' = wq s /\ kern (wep s') = kern (wep s) /\
    forall g, g <> f -> warg s' g = warg s g /\ tloop (wep s') g = tloop (wep s) g.
Proof.
  intros P Hl D. unfold wsegment. rewrite P. unfold async_wait. cbn [wep wq warg wpc wcount wlog]. destruct (Nat.ltb_spec f maxfd) as [L|L].
  - destruct D as [D|[D1 D2]]; [lia|]. assert (BW : wbits rw = 0) by (unfold wbits; destruct (Z.eqb_spec rw 114); [contradiction|]; destruct (Z.eqb_spec rw 119); [contradiction|reflexivity]).
    rewrite BW. unfold ev_add. rewrite (proj2 (Nat.ltb_lt f maxfd) L). change (0 =? PATHWATCH) with false. unfold update_internal. cbn [set_target tev]. rewrite upd_same.
    change (Z.land (Z.lor 0 ADD) RW =? 0) with true. cbn [bind]. eexists. split; [reflexivity|]. cbn. split; [reflexivity|]. split; [reflexivity|].
    intros g G. rewrite !upd_other by exact G. auto.
  - eexists. split; [reflexivity|]. cbn. auto.
Qed.
(* closing a descriptor another task waits for: the kernel no longer watches it, the task stays registered *)
Lemma closed_waited maxfd l pollable prog sys s t f : prog t (wpc s t) = WClose f -> exists s', wsegment maxfd l pollable prog sys s t = Ok s' /\
  kern (wep s') l f = None /\ tloop (wep s') = tloop (wep s) /\ warg s' = warg s /\ active (wep s') = active (wep s).
Proof. intros P. unfold wsegment. rewrite P. eexists. split; [reflexivity|]. cbn. rewrite Nat.eqb_refl. auto. Qed.
(* an error without hang-up wakes nobody *)
Lemma error_silent maxfd l pollable s f : (f < maxfd)%nat -> tloop (wep s) f = l -> Z.land (tev (wep s) f) RW <> 0 -> wpoll maxfd l pollable [(f, EPOLLERR)] s = Ok s.
Proof. intros Hf T N. cbn [wpoll]. rewrite (proj2 (Nat.ltb_lt f maxfd) Hf), T, Nat.eqb_refl. destruct (Z.eqb_spec (Z.land (tev (wep s) f) RW) 0); [contradiction|]. reflexivity. Qed.
(* what one callback does to the entries *)
Lemma cb_entries maxfd pollable s f rev s' : wait_cb maxfd pollable s f rev = Ok s' ->
  tev (wep s') f = rev /\ tloop (wep s') f = 0%nat /\ forall g, g <> f -> tev (wep s') g = tev (wep s) g /\ tloop (wep s') g = tloop (wep s) g.
Proof.
  unfold wait_cb, ev_del, update_internal. destruct (f <? maxfd)%nat; [|discriminate]. change (has DEL DEL) with true.
  destruct (Nat.eqb_spec (tloop (wep s) f) 0) as [Z|_]; [cbn [bind]|destruct (_ =? _); cbn [bind]]; intros H; injection H as <-; cbn [wep set_ev set_loop set_active tev tloop].
  - rewrite upd_same. split; [reflexivity|]. split; [exact Z|]. intros g G. now rewrite !upd_other by exact G.
  - rewrite !upd_same. do 2 (split; [reflexivity|]). intros g G. now rewrite !upd_other by exact G.
  - rewrite !upd_same. do 2 (split; [reflexivity|]). intros g G. now rewrite !upd_other by exact G.
Qed.
Lemma poll_gone maxfd l pollable b : forall s s' f, (l <> 0)%nat -> tloop (wep s) f = 0%nat -> wpoll maxfd l pollable b s = Ok s' -> tev (wep s') f = tev (wep s) f.
Proof.
  induction b as [|[g m] b IH]; intros s s' f Hl T; cbn [wpoll]; [intros H; now injection H as <-|].
  destruct (g <? maxfd)%nat; [|discriminate]. destruct (Nat.eqb_spec l (tloop (wep s) g)) as [TG|_]; cbn [andb].
  2: { intros H. rewrite (IH _ _ f Hl) with (2 := H); [reflexivity|exact T]. }
  destruct (negb _).
  - destruct (revents m =? 0); [apply IH; assumption|]. destruct (wait_cb maxfd pollable s g (revents m)) as [s1| | |] eqn:C; try discriminate. cbn [bind].
    intros H. destruct (cb_entries _ _ _ _ _ _ C) as (_ & _ & O). assert (N : f <> g) by congruence. destruct (O f N) as (E & L).
    rewrite (IH s1 s' f Hl) with (2 := H); [exact E|congruence].
  - intros H. rewrite (IH _ _ f Hl) with (2 := H); [reflexivity|exact T].
Qed.
(* the first report for a descriptor that a task waits for is what the entry says after the poll *)
Lemma report_kept maxfd l pollable f m b2 : forall b1 s s', (l <> 0)%nat -> tloop (wep s) f = l -> Z.land (tev (wep s) f) RW <> 0 ->
  (forall m', In (f, m') b1 -> revents m' = 0) -> revents m <> 0 -> wpoll maxfd l pollable (b1 ++ (f, m) :: b2) s = Ok s' -> tev (wep s') f = revents m.
Proof.
  induction b1 as [|[g m1] b1 IH]; intros s s' Hl T W Q R; cbn [app wpoll].
  - destruct (f <? maxfd)%nat; [|discriminate]. rewrite T, Nat.eqb_refl. destruct (Z.eqb_spec (Z.land (tev (wep s) f) RW) 0); [contradiction|]. cbn [andb negb].
    destruct (Z.eqb_spec (revents m) 0); [contradiction|]. destruct (wait_cb maxfd pollable s f (revents m)) as [s1| | |] eqn:C; try discriminate. cbn [bind]. intros H.
    destruct (cb_entries _ _ _ _ _ _ C) as (E & L & _). rewrite (poll_gone _ _ _ _ _ _ _ Hl L H). exact E.
  - destruct (g <? maxfd)%nat; [|discriminate]. assert (Q' : forall m', In (f, m') b1 -> revents m' = 0) by (intros m' I; apply Q; right; exact I).
    destruct (_ && _) eqn:B.
    2: { intros H. eapply IH with (6 := H); assumption. }
    destruct (Z.eqb_spec (revents m1) 0) as [_|N]; [apply IH; assumption|].
    destruct (wait_cb maxfd pollable s g (revents m1)) as [s1| | |] eqn:C; try discriminate. cbn [bind]. intros H.
    destruct (cb_entries _ _ _ _ _ _ C) as (_ & _ & O). destruct (Nat.eq_dec f g) as [<-|NE]; [elim N; apply Q; left; reflexivity|].
    destruct (O f NE) as (E & L). eapply IH with (6 := H); try assumption; congruence.
Qed.
