From Verif Require Import Base DllModel DllProofs EpollModel.
Local Open Scope Z_scope.

(* ================= reference ================= *)
(* what is registered: loop, read/write interest (0..3), path watch *)
Record espec := { reg : nat -> option (nat * Z * bool); dlog : list edeliv }.
Definition sreg (z : espec) f r := {| reg := upd (reg z) f r; dlog := dlog z |}.
Definition slog_add (z : espec) e := {| reg := reg z; dlog := dlog z ++ [e] |}.

(* Some = allowed: an interest is a set of READ and WRITE, or PATHWATCH; loops are numbered from 1; only a
   registered descriptor's interest is changed; a registered descriptor is not closed.
   [twice] says whether a registered descriptor may be registered again *)
Definition spec_eact (twice : bool) (maxfd : nat) (z : espec) (a : eact) : option espec :=
  match a with
  | EAdd l f e =>
    if negb (Nat.eqb l 0) && ((0 <=? e) && (e <=? 3) || (e =? PATHWATCH)) && (twice || match reg z f with None => true | _ => false end) then
      if (f <? maxfd)%nat then Some (sreg z f (Some (l, if e =? PATHWATCH then 0 else e, e =? PATHWATCH))) else Some z
    else None
  | EDel f => if (f <? maxfd)%nat then Some (sreg z f None) else None
  | ESet f e =>
    if (f <? maxfd)%nat && (0 <=? e) && (e <=? 3) then
      match reg z f with Some (l, _, p) => Some (sreg z f (Some (l, e, p))) | None => None end
    else None
  | EClose f => match reg z f with None => Some z | Some _ => None end
  end.
Fixpoint spec_eacts twice maxfd (z : espec) (l : list eact) : option espec :=
  match l with [] => Some z | a :: r => match spec_eact twice maxfd z a with None => None | Some z1 => spec_eacts twice maxfd z1 r end end.

(* the flags a callback must see *)
Definition flags (m : Z) : Z :=
  Z.lor (if Z.testbit m 0 then 1 else 0) (Z.lor (if Z.testbit m 2 then 2 else 0) (if Z.testbit m 4 then 5 else 0)).

Fixpoint spec_batch twice (maxfd l : nat) (cb : list edeliv -> nat -> Z -> list eact) (batch : list (nat * Z)) (z : espec) : option espec :=
  match batch with
  | [] => Some z
  | (f, m) :: rest =>
    if (f <? maxfd)%nat then
      match reg z f with
      | Some (l', i, p) =>
        if Nat.eqb l l' && negb (i =? 0) then
          if p then Some (slog_add z (EPath l f))
          else if flags m =? 0 then spec_batch twice maxfd l cb rest z
          else match spec_eacts twice maxfd (slog_add z (ECall l f (flags m))) (cb (dlog z) f (flags m)) with
               | None => None
               | Some z1 => spec_batch twice maxfd l cb rest z1
               end
        else spec_batch twice maxfd l cb rest z
      | None => spec_batch twice maxfd l cb rest z
      end
    else None
  end.
Definition spec_eop twice maxfd (z : espec) (o : eop) : option espec :=
  match o with
  | EAct a => spec_eact twice maxfd z a
  | EPoll l b cb => if Nat.eqb l 0 then None else spec_batch twice maxfd l cb b z
  end.
Fixpoint spec_eops twice maxfd (z : espec) (l : list eop) : option espec :=
  match l with [] => Some z | o :: r => match spec_eop twice maxfd z o with None => None | Some z1 => spec_eops twice maxfd z1 r end end.
Definition espec0 : espec := {| reg := fun _ => None; dlog := [] |}.

(* the kernel mask of an interest *)
Definition kmask (i : Z) : Z := Z.lor (if Z.testbit i 0 then EPOLLIN else 0) (if Z.testbit i 1 then EPOLLOUT else 0).

(* ================= flags ================= *)
Lemma has_bit e k : 0 <= k -> has e (2 ^ k) = Z.testbit e k.
Proof.
  intros Hk. unfold has. destruct (Z.testbit e k) eqn:E.
  - apply negb_true_iff, Z.eqb_neq. intros X. assert (Z.testbit (Z.land e (2 ^ k)) k = false) by (rewrite X; apply Z.testbit_0_l).
    rewrite Z.land_spec, E, Z.pow2_bits_true in H by auto. discriminate.
  - apply negb_false_iff, Z.eqb_eq. apply Z.bits_inj'. intros i Hi. rewrite Z.testbit_0_l, Z.land_spec.
    destruct (Z.eq_dec i k) as [->|N]; [now rewrite E|]. rewrite Z.pow2_bits_false by auto. apply andb_false_r.
Qed.
Lemma revents_flags m : revents m = flags m.
Proof.
  unfold revents, flags. change EPOLLIN with (2 ^ 0). change EPOLLOUT with (2 ^ 2). change EPOLLHUP with (2 ^ 4).
  rewrite !has_bit by lia. unfold READ, WRITE, CLOSED. destruct (Z.testbit m 0), (Z.testbit m 2), (Z.testbit m 4); reflexivity.
Qed.

Lemma small_cases e : 0 <= e <= 3 -> e = 0 \/ e = 1 \/ e = 2 \/ e = 3.
Proof. lia. Qed.

(* ================= invariant ================= *)
Record EI (maxfd : nat) (pollable : nat -> bool) (s : ep) (z : espec) : Prop := {
  ei_in : forall f r, reg z f = Some r -> (f < maxfd)%nat;
  ei_loop : forall f, tloop s f = match reg z f with Some (l, _, _) => l | None => 0%nat end;
  ei_reg : forall f l i p, reg z f = Some (l, i, p) -> (l <> 0)%nat /\ 0 <= i <= 3 /\ Z.land (tev s f) RW = i /\ tpath s f = p /\
    (i <> 0 -> pollable f = true -> kern s l f = Some (kmask i));
  ei_log : elog s = dlog z }.

Lemma updk_same k l f v : updk k l f v l f = v.
Proof. unfold updk. now rewrite !Nat.eqb_refl. Qed.
Lemma updk_other k l f v l' f' : f' <> f -> updk k l f v l' f' = k l' f'.
Proof. intros N. unfold updk. apply Nat.eqb_neq in N. now rewrite N, andb_false_r. Qed.

(* one update of a registered descriptor: its kernel interest becomes the new one; nothing else moves *)
Lemma update_ok pollable s l f e : l <> 0%nat -> (exists i, 0 <= i <= 3 /\ (e = i \/ e = Z.lor i ADD)) ->
  (Z.land (tev s f) RW <> 0 -> pollable f = true -> kern s l f = Some (kmask (Z.land (tev s f) RW))) ->
  exists s', update_internal pollable s l f e = Ok s' /\ tloop s' = tloop s /\ tpath s' = tpath s /\ active s' = active s /\ elog s' = elog s /\
    (forall g, g <> f -> tev s' g = tev s g /\ forall l', kern s' l' g = kern s l' g) /\
    Z.land (tev s' f) RW = Z.land e RW /\
    (Z.land e RW <> 0 -> pollable f = true -> kern s' l f = Some (kmask (Z.land e RW))).
Proof.
  intros Hl (i & Hi & He) Hk. unfold update_internal.
  assert (A : Z.land e RW = i).
  { destruct (small_cases i Hi) as [->|[->|[->| ->]]]; destruct He as [->| ->]; reflexivity. }
  rewrite A. destruct (Z.eqb_spec i (tev s f)) as [E|N].
  - exists s. repeat split; auto.
    + rewrite <- E. destruct (small_cases i Hi) as [->|[->|[->| ->]]]; reflexivity.
    + intros H1 H2. rewrite <- E in Hk. replace (Z.land i RW) with i in Hk by (destruct (small_cases i Hi) as [->|[->|[->| ->]]]; reflexivity). auto.
  - assert (D : has e DEL = false).
    { destruct (small_cases i Hi) as [->|[->|[->| ->]]]; destruct He as [->| ->]; reflexivity. }
    rewrite D. apply Nat.eqb_neq in Hl. rewrite Hl. destruct (Z.eqb_spec i 0) as [->|Ni].
    + eexists. split; [reflexivity|]. cbn [set_ev set_kern tloop tpath active elog tev kern].
      do 4 (split; [reflexivity|]). split; [|split; [rewrite upd_same; exact A|congruence]].
      intros g Ng. split; [now apply upd_other|]. intros l'. unfold ctl_del. now apply updk_other.
    + assert (M : emask e = kmask i).
      { destruct (small_cases i Hi) as [->|[->|[->| ->]]]; destruct He as [->| ->]; reflexivity. }
      unfold ctl_mod. rewrite M. destruct (kern s l f) as [m|] eqn:K.
      * eexists. split; [reflexivity|]. cbn [set_ev set_kern tloop tpath active elog tev kern].
        do 4 (split; [reflexivity|]). split; [|split; [rewrite upd_same; exact A|intros _ _; apply updk_same]].
        intros g Ng. split; [now apply upd_other|]. intros l'. now apply updk_other.
      * eexists. split; [reflexivity|]. cbn [set_ev set_kern tloop tpath active elog tev kern]. unfold ctl_add. rewrite K.
        do 4 (split; [reflexivity|]). split; [|split; [rewrite upd_same; exact A|intros _ ->; apply updk_same]].
        intros g Ng. split; [now apply upd_other|]. intros l'. destruct (pollable f); auto. now apply updk_other.
Qed.

Lemma eact_ok twice maxfd pollable s z a z' : EI maxfd pollable s z -> spec_eact twice maxfd z a = Some z' ->
  exists s', do_eact maxfd pollable s a = Ok s' /\ EI maxfd pollable s' z'.
Proof.
  intros H. destruct a as [l f e|f|f e|f]; cbn [spec_eact do_eact].
  - destruct (_ && _ && _) eqn:G; [|discriminate]. rewrite !andb_true_iff, negb_true_iff, Nat.eqb_neq, orb_true_iff, andb_true_iff, !Z.leb_le, Z.eqb_eq in G.
    destruct G as [[Gl Ge] _]. unfold ev_add. destruct (Nat.ltb_spec f maxfd) as [Hf|Hf]; [|intros [= <-]; eauto].
    intros [= <-]. set (s0 := set_target _ _ _ _ _).
    destruct Ge as [Ge|Ge].
    + assert (NP : (e =? PATHWATCH) = false) by (apply Z.eqb_neq; unfold PATHWATCH; lia).
      destruct (update_ok pollable s0 l f (Z.lor e ADD) Gl) as (s1 & -> & U1 & U2 & U3 & U4 & U5 & U6 & U7).
      { exists e. split; auto. }
      { cbn [s0 set_target tev]. rewrite upd_same. cbn. congruence. }
      cbn [bind]. eexists. split; [reflexivity|].
      assert (A : Z.land (Z.lor e ADD) RW = e) by (destruct (small_cases e Ge) as [->|[->|[->| ->]]]; reflexivity).
      rewrite A in *. constructor; cbn [set_active tloop tev tpath kern elog sreg reg dlog]; rewrite ?U1, ?U2, ?U4.
      * intros g r. unfold upd. destruct (Nat.eqb_spec g f) as [->|]; auto. apply (ei_in _ _ _ _ H).
      * intros g. cbn [s0 set_target tloop]. unfold upd. destruct (Nat.eqb g f); auto. apply (ei_loop _ _ _ _ H).
      * intros g l' i' p'. cbn [s0 set_target tpath]. unfold upd. destruct (Nat.eqb_spec g f) as [->|Ne].
        -- rewrite NP. intros [= <- <- <-]. do 4 (split; [auto|]). auto.
        -- intros R. destruct (ei_reg _ _ _ _ H _ _ _ _ R) as (R1 & R2 & R3 & R4 & R5). destruct (U5 g Ne) as [V1 V2].
           rewrite V1, V2. cbn [s0 set_target tev kern]. rewrite upd_other by auto. auto.
      * apply (ei_log _ _ _ _ H).
    + subst e. unfold update_internal. cbn [s0 set_target tev]. rewrite upd_same.
      replace (Z.land (Z.lor PATHWATCH ADD) RW =? 0) with true by reflexivity. cbn [bind]. eexists. split; [reflexivity|].
      constructor; cbn [s0 set_target set_active tloop tev tpath kern elog sreg reg dlog]; change (PATHWATCH =? PATHWATCH) with true.
      * intros g r. unfold upd. destruct (Nat.eqb_spec g f) as [->|]; auto. apply (ei_in _ _ _ _ H).
      * intros g. unfold upd. destruct (Nat.eqb g f); auto. apply (ei_loop _ _ _ _ H).
      * intros g l' i' p'. unfold upd. destruct (Nat.eqb_spec g f) as [->|Ne].
        -- intros [= <- <- <-]. split; auto. split; [lia|]. split; [reflexivity|]. split; auto. congruence.
        -- intros R. destruct (ei_reg _ _ _ _ H _ _ _ _ R) as (R1 & R2 & R3 & R4 & R5). auto.
      * apply (ei_log _ _ _ _ H).
  - unfold ev_del. destruct (f <? maxfd)%nat; [|discriminate]. intros [= <-].
    rewrite (ei_loop _ _ _ _ H). destruct (reg z f) as [[[l i] p]|] eqn:R.
    + destruct (ei_reg _ _ _ _ H _ _ _ _ R) as (R1 & R2 & R3 & R4 & R5). apply Nat.eqb_neq in R1. rewrite R1.
      assert (U : exists s1, update_internal pollable s l f DEL = Ok s1 /\ tloop s1 = tloop s /\ tpath s1 = tpath s /\ elog s1 = elog s /\ kern s1 = kern s /\
        forall g, g <> f -> tev s1 g = tev s g).
      { unfold update_internal. destruct (_ =? _); [exists s; auto 10|]. change (has DEL DEL) with true.
        eexists. split; [reflexivity|]. cbn. repeat split; auto. intros g N. now apply upd_other. }
      destruct U as (s1 & -> & U1 & U2 & U3 & U4 & U5). cbn [bind]. eexists. split; [reflexivity|].
      constructor; cbn [set_loop set_active tloop tev tpath kern elog sreg reg dlog]; rewrite ?U1, ?U2, ?U3, ?U4; auto.
      * intros g r. unfold upd. destruct (Nat.eqb g f); [discriminate|]. apply (ei_in _ _ _ _ H).
      * intros g. unfold upd. destruct (Nat.eqb g f); auto. apply (ei_loop _ _ _ _ H).
      * intros g l' i' p'. unfold upd. destruct (Nat.eqb_spec g f) as [->|Ne]; [discriminate|]. rewrite U5 by auto. apply (ei_reg _ _ _ _ H).
      * apply (ei_log _ _ _ _ H).
    + cbn [Nat.eqb]. exists s. split; auto. destruct H as [H1 H2 H3 H4]. constructor; auto; cbn [sreg reg].
      * intros g r. unfold upd. destruct (Nat.eqb g f); [discriminate|]. apply H1.
      * intros g. unfold upd. destruct (Nat.eqb_spec g f) as [->|]; auto. now rewrite H2, R.
      * intros g l' i' p'. unfold upd. destruct (Nat.eqb g f); [discriminate|]. apply H3.
  - unfold ev_set. destruct (_ && _ && _) eqn:G; [|discriminate]. rewrite !andb_true_iff, Nat.ltb_lt, !Z.leb_le in G. destruct G as [[Gf G1] G2].
    destruct (reg z f) as [[[l i] p]|] eqn:R; [|discriminate]. intros [= <-].
    destruct (ei_reg _ _ _ _ H _ _ _ _ R) as (R1 & R2 & R3 & R4 & R5). apply Nat.ltb_lt in Gf. rewrite Gf.
    assert (AE : Z.land e RW = e) by (destruct (small_cases e ltac:(lia)) as [->|[->|[->| ->]]]; reflexivity).
    assert (Y : exists s', (if tev s f =? e then Ok s else update_internal pollable s (tloop s f) f e) = Ok s' /\
       tloop s' = tloop s /\ tpath s' = tpath s /\ elog s' = elog s /\
       (forall g, g <> f -> tev s' g = tev s g /\ forall l', kern s' l' g = kern s l' g) /\ Z.land (tev s' f) RW = e /\
       (e <> 0 -> pollable f = true -> kern s' l f = Some (kmask e))).
    { destruct (Z.eqb_spec (tev s f) e) as [E|N].
      - exists s. repeat split; auto; try (rewrite E; exact AE). rewrite E, AE in R3. subst i. auto.
      - rewrite (ei_loop _ _ _ _ H), R. destruct (update_ok pollable s l f e R1) as (s1 & E1 & U1 & U2 & U3 & U4 & U5 & U6 & U7).
        + exists e. auto.
        + rewrite R3. auto.
        + exists s1. rewrite AE in *. auto 10. }
    destruct Y as (s' & -> & U1 & U2 & U3 & U4 & U5 & U6). exists s'. split; auto.
    constructor; cbn [sreg reg dlog]; rewrite ?U1, ?U2, ?U3.
    + intros g r. unfold upd. destruct (Nat.eqb_spec g f) as [->|]; [intros _; now apply (ei_in _ _ _ _ H) in R|]. apply (ei_in _ _ _ _ H).
    + intros g. unfold upd. destruct (Nat.eqb_spec g f) as [->|]; rewrite (ei_loop _ _ _ _ H); [now rewrite R|auto].
    + intros g l' i' p'. unfold upd. destruct (Nat.eqb_spec g f) as [->|Ne].
      * intros [= <- <- <-]. repeat split; auto.
      * destruct (U4 g Ne) as [V1 V2]. rewrite V1. intros X. rewrite V2. now apply (ei_reg _ _ _ _ H).
    + apply (ei_log _ _ _ _ H).
  - destruct (reg z f) eqn:R; [discriminate|]. intros [= <-]. eexists. split; [reflexivity|].
    destruct H as [H1 H2 H3 H4]. constructor; auto; cbn [set_kern tev tpath kern].
    intros g l i p X. destruct (H3 g l i p X) as (A & B & C & D & E). repeat split; auto; try lia.
    destruct (Nat.eqb_spec g f) as [->|]; [congruence|auto].
Qed.

Lemma eacts_ok twice maxfd pollable l : forall s z z', EI maxfd pollable s z -> spec_eacts twice maxfd z l = Some z' ->
  exists s', do_eacts maxfd pollable s l = Ok s' /\ EI maxfd pollable s' z'.
Proof.
  induction l as [|a l IH]; intros s z z' H; cbn [spec_eacts do_eacts]; [intros [= <-]; eauto|].
  destruct (spec_eact twice maxfd z a) as [z1|] eqn:E; [|discriminate]. intros E2.
  destruct (eact_ok _ _ _ _ _ _ _ H E) as (s1 & -> & H1). cbn [bind]. eauto.
Qed.

Lemma log_ok maxfd pollable s z e : EI maxfd pollable s z -> EI maxfd pollable (add_elog s e) (slog_add z e).
Proof. intros [H1 H2 H3 H4]. constructor; auto. cbn. now rewrite H4. Qed.

Lemma del_kern_ok maxfd pollable s z l f : EI maxfd pollable s z ->
  (forall l' i p, reg z f = Some (l', i, p) -> l <> l' \/ i = 0) -> EI maxfd pollable (set_kern s (ctl_del (kern s) l f)) z.
Proof.
  intros [H1 H2 H3 H4] N. constructor; auto; cbn [set_kern tev tpath kern].
  intros g l' i p R. destruct (H3 g l' i p R) as (A & B & C & D & E). repeat split; auto; try lia.
  intros Ni Hp. unfold ctl_del, updk. destruct (Nat.eqb_spec g f) as [->|]; [|now rewrite andb_false_r; apply E].
  destruct (N _ _ _ R) as [X|X]; [|contradiction]. apply not_eq_sym, Nat.eqb_neq in X. rewrite X. cbn [andb]. auto.
Qed.

Lemma batch_ok twice maxfd pollable l cb : (l <> 0)%nat -> forall b s z z', EI maxfd pollable s z -> spec_batch twice maxfd l cb b z = Some z' ->
  exists s', poll_batch maxfd pollable l cb b s = Ok s' /\ EI maxfd pollable s' z'.
Proof.
  intros Hl. induction b as [|[f m] b IH]; intros s z z' H; cbn [spec_batch poll_batch]; [intros [= <-]; eauto|].
  destruct (f <? maxfd)%nat; [|discriminate]. rewrite (ei_loop _ _ _ _ H).
  destruct (reg z f) as [[[l' i] p]|] eqn:R.
  - destruct (ei_reg _ _ _ _ H _ _ _ _ R) as (R1 & R2 & R3 & R4 & R5). rewrite R3, R4.
    destruct (Nat.eqb l l' && negb (i =? 0)) eqn:G.
    + destruct p.
      * intros [= <-]. eexists. split; [reflexivity|]. now apply log_ok.
      * rewrite revents_flags. destruct (flags m =? 0); [eauto|].
        rewrite (ei_log _ _ _ _ H).
        destruct (spec_eacts _ _ _ _) as [z1|] eqn:E; [|discriminate]. intros E2.
        destruct (eacts_ok _ _ _ _ _ _ _ (log_ok _ _ _ _ (ECall l f (flags m)) H) E) as (s1 & -> & H1). cbn [bind]. eauto.
    + intros E. apply (IH _ z); auto. apply del_kern_ok; auto. intros l0 i0 p0 X. rewrite R in X. injection X as <- <- <-.
      apply andb_false_iff in G. destruct G as [G|G]; [left; now apply Nat.eqb_neq|right]. apply negb_false_iff in G. now apply Z.eqb_eq.
  - apply Nat.eqb_neq in Hl. rewrite Hl. cbn [andb]. intros E. apply (IH _ z); auto. apply del_kern_ok; auto. intros l0 i0 p0 X. congruence.
Qed.

Lemma eops_ok twice maxfd pollable l : forall s z z', EI maxfd pollable s z -> spec_eops twice maxfd z l = Some z' ->
  exists s', do_eops maxfd pollable s l = Ok s' /\ EI maxfd pollable s' z'.
Proof.
  induction l as [|o l IH]; intros s z z' H; cbn [spec_eops do_eops]; [intros [= <-]; eauto|].
  destruct (spec_eop twice maxfd z o) as [z1|] eqn:E; [|discriminate]. intros E2.
  assert (X : exists s1, do_eop maxfd pollable s o = Ok s1 /\ EI maxfd pollable s1 z1).
  { destruct o as [a|l0 b cb]; cbn [spec_eop do_eop] in *; [eapply eact_ok; eauto|].
    destruct (Nat.eqb_spec l0 0); [discriminate|]. eapply batch_ok; eauto. }
  destruct X as (s1 & -> & H1). cbn [bind]. eauto.
Qed.
Lemma ei_init maxfd pollable : EI maxfd pollable ep_init espec0.
Proof. constructor; cbn; auto; discriminate. Qed.

(* ================= C26 ================= *)
Lemma kernel_interest twice maxfd pollable ops z : spec_eops twice maxfd espec0 ops = Some z ->
  exists s, do_eops maxfd pollable ep_init ops = Ok s /\ elog s = dlog z /\
    forall f l i p, reg z f = Some (l, i, p) -> i <> 0 -> pollable f = true -> kern s l f = Some (kmask i).
Proof.
  intros E. destruct (eops_ok _ _ pollable _ _ _ _ (ei_init maxfd pollable) E) as (s & Es & H). exists s. split; auto. split; [apply (ei_log _ _ _ _ H)|].
  intros f l i p R. now apply (ei_reg _ _ _ _ H) in R.
Qed.

(* a descriptor the kernel refuses is registered all the same *)
Lemma refused maxfd pollable l f i : (l <> 0)%nat -> (f < maxfd)%nat -> 0 <= i <= 3 -> pollable f = false ->
  exists s, do_eops maxfd pollable ep_init [EAct (EAdd l f i)] = Ok s /\ tloop s f = l /\ active s l = 1 /\ kern s l f = None.
Proof.
  intros Hl Hf Hi Hp. apply Nat.ltb_lt in Hf. apply Nat.eqb_neq in Hl.
  cbn [do_eops do_eop do_eact]. unfold ev_add, update_internal. rewrite Hf, Hl. cbn [set_target tev]. rewrite upd_same.
  destruct (small_cases i Hi) as [->|[->|[->| ->]]]; cbn; unfold ctl_add; cbn; rewrite ?Hp; eexists; (split; [reflexivity|]); cbn;
    rewrite !upd_same; auto.
Qed.
(* a path watch never reaches the kernel *)
Lemma path_unwatched maxfd pollable l f : (l <> 0)%nat -> (f < maxfd)%nat ->
  exists s, do_eops maxfd pollable ep_init [EAct (EAdd l f PATHWATCH)] = Ok s /\ tloop s f = l /\ active s l = 1 /\ forall l' f', kern s l' f' = None.
Proof.
  intros Hl Hf. apply Nat.ltb_lt in Hf. cbn [do_eops do_eop do_eact]. unfold ev_add, update_internal. rewrite Hf. cbn [set_target tev]. rewrite upd_same.
  cbn. eexists. split; [reflexivity|]. cbn. rewrite !upd_same. auto.
Qed.

(* ================= C27 ================= *)
(* delivered P z log: every entry beyond dlog z was made in a state of the reference satisfying P *)
Inductive emits twice maxfd l cb : list (nat * Z) -> espec -> espec -> Prop :=
| em_nil z : emits twice maxfd l cb [] z z
| em_skip f m b z z' : (forall i p, reg z f = Some (l, i, p) -> i = 0 \/ (p = false /\ flags m = 0)) ->
    emits twice maxfd l cb b z z' -> emits twice maxfd l cb ((f, m) :: b) z z'
| em_path f m b z i : reg z f = Some (l, i, true) -> i <> 0 -> emits twice maxfd l cb ((f, m) :: b) z (slog_add z (EPath l f))
| em_call f m b z z1 z' i : reg z f = Some (l, i, false) -> i <> 0 -> flags m <> 0 ->
    spec_eacts twice maxfd (slog_add z (ECall l f (flags m))) (cb (dlog z) f (flags m)) = Some z1 ->
    emits twice maxfd l cb b z1 z' -> emits twice maxfd l cb ((f, m) :: b) z z'.
Lemma batch_emits twice maxfd l cb b : forall z z', spec_batch twice maxfd l cb b z = Some z' -> emits twice maxfd l cb b z z'.
Proof.
  induction b as [|[f m] b IH]; intros z z'; cbn [spec_batch]; [intros [= <-]; constructor|].
  destruct (f <? maxfd)%nat; [|discriminate].
  destruct (reg z f) as [[[l' i] p]|] eqn:R.
  - destruct (Nat.eqb_spec l l') as [<-|Nl]; cbn [andb].
    + destruct (Z.eqb_spec i 0) as [->|Ni]; cbn [negb].
      * intros E. apply em_skip; auto. intros i p0 X. rewrite R in X. injection X as <- <-. auto.
      * destruct p; [intros [= <-]; eapply em_path; eauto|].
        destruct (Z.eqb_spec (flags m) 0) as [F|F].
        -- intros E. apply em_skip; auto. intros i0 p0 X. rewrite R in X. injection X as <- <-. auto.
        -- destruct (spec_eacts _ _ _ _) eqn:E1; [|discriminate]. intros E. eapply em_call; eauto.
    + intros E. apply em_skip; auto. intros i0 p0 X. rewrite R in X. congruence.
  - intros E. apply em_skip; auto. intros i0 p0 X. congruence.
Qed.

Lemma poll_emits twice maxfd pollable ops l b cb z z' : spec_eops twice maxfd espec0 ops = Some z -> spec_eop twice maxfd z (EPoll l b cb) = Some z' ->
  emits twice maxfd l cb b z z' /\
  exists s s', do_eops maxfd pollable ep_init ops = Ok s /\ do_eop maxfd pollable s (EPoll l b cb) = Ok s' /\ elog s = dlog z /\ elog s' = dlog z'.
Proof.
  intros E1 E2. cbn [spec_eop] in E2. destruct (Nat.eqb_spec l 0) as [|Nl]; [discriminate|]. split; [now apply batch_emits|].
  destruct (eops_ok _ _ pollable _ _ _ _ (ei_init maxfd pollable) E1) as (s & Es & H).
  destruct (batch_ok _ _ _ _ _ Nl _ _ _ _ H E2) as (s' & Es' & H'). exists s, s'. rewrite (ei_log _ _ _ _ H), (ei_log _ _ _ _ H'). auto.
Qed.

(* a stale event: no callback, and the descriptor leaves this loop's interest list *)
Lemma stale_event twice maxfd pollable ops z l f m cb : spec_eops twice maxfd espec0 ops = Some z -> (l <> 0)%nat -> (f < maxfd)%nat ->
  (forall i p, reg z f = Some (l, i, p) -> i = 0) ->
  exists s s', do_eops maxfd pollable ep_init ops = Ok s /\ do_eop maxfd pollable s (EPoll l [(f, m)] cb) = Ok s' /\
    elog s' = elog s /\ kern s' l f = None /\ (forall l' f', (l', f') <> (l, f) -> kern s' l' f' = kern s l' f') /\
    tloop s' = tloop s /\ tev s' = tev s.
Proof.
  intros E Hl Hf Hn. destruct (eops_ok _ _ pollable _ _ _ _ (ei_init maxfd pollable) E) as (s & Es & H).
  exists s, (set_kern s (ctl_del (kern s) l f)). split; auto.
  assert (G : Nat.eqb l (tloop s f) && negb (Z.land (tev s f) RW =? 0) = false).
  { rewrite (ei_loop _ _ _ _ H). destruct (reg z f) as [[[l' i] p]|] eqn:R.
    - destruct (ei_reg _ _ _ _ H _ _ _ _ R) as (_ & _ & -> & _). destruct (Nat.eqb_spec l l') as [<-|]; auto. rewrite (Hn _ _ eq_refl). reflexivity.
    - apply Nat.eqb_neq in Hl. now rewrite Hl. }
  cbn [do_eop poll_batch]. rewrite (proj2 (Nat.ltb_lt f maxfd) Hf), G. split; auto. cbn. split; auto. split.
  - unfold ctl_del. apply updk_same.
  - split; auto. intros l' f' N. unfold ctl_del, updk. destruct (Nat.eqb_spec l' l), (Nat.eqb_spec f' f); subst; cbn; auto. congruence.
Qed.

(* a hangup alone shows READ and TIMEOUT (bits 1 and 4) *)
Lemma closed_bits m : Z.testbit m 4 = true -> Z.land (revents m) 5 = 5.
Proof. intros H. rewrite revents_flags. unfold flags. rewrite H. destruct (Z.testbit m 0), (Z.testbit m 2); reflexivity. Qed.
(* an error without data, space or hangup calls nothing and leaves everything as it was: the kernel reports it again *)
Lemma error_only maxfd pollable l f cb s : (f < maxfd)%nat -> tloop s f = l -> Z.land (tev s f) RW <> 0 -> tpath s f = false ->
  do_eop maxfd pollable s (EPoll l [(f, EPOLLERR)] cb) = Ok s.
Proof.
  intros Hf Hl Hi Hp. cbn [do_eop poll_batch]. apply Nat.ltb_lt in Hf. apply Z.eqb_neq in Hi. rewrite Hf, Hl, Nat.eqb_refl, Hi, Hp. reflexivity.
Qed.
(* a path watch drops the rest of the batch *)
Lemma path_drops maxfd pollable l f m rest cb s : (f < maxfd)%nat -> tloop s f = l -> Z.land (tev s f) RW <> 0 -> tpath s f = true ->
  do_eop maxfd pollable s (EPoll l ((f, m) :: rest) cb) = Ok (add_elog s (EPath l f)).
Proof.
  intros Hf Hl Hi Hp. cbn [do_eop poll_batch]. apply Nat.ltb_lt in Hf. apply Z.eqb_neq in Hi. rewrite Hf, Hl, Nat.eqb_refl, Hi, Hp. reflexivity.
Qed.

(* ================= C28 ================= *)
(* how many descriptors are registered with loop l *)
Definition on_loop (z : espec) (l f : nat) : bool := match reg z f with Some (l', _, _) => Nat.eqb l' l | None => false end.
Definition registered (maxfd : nat) (z : espec) (l : nat) : nat := length (filter (on_loop z l) (seq 0 maxfd)).

Lemma filter_upd (P Q : nat -> bool) f : (forall g, g <> f -> P g = Q g) -> forall l, NoDup l ->
  Z.of_nat (length (filter P l)) = Z.of_nat (length (filter Q l)) +
    if in_dec Nat.eq_dec f l then (if P f then 1 else 0) - (if Q f then 1 else 0) else 0.
Proof.
  intros H. induction l as [|a l IH]; intros Hd; [cbn; lia|]. inversion Hd as [|? ? Ha Hl]; subst. specialize (IH Hl).
  cbn [filter]. destruct (Nat.eq_dec a f) as [->|N].
  - destruct (in_dec Nat.eq_dec f l); [contradiction|]. destruct (in_dec Nat.eq_dec f (f :: l)) as [_|X]; [|exfalso; apply X; left; auto].
    destruct (P f), (Q f); cbn [length]; lia.
  - rewrite (H a N). destruct (in_dec Nat.eq_dec f (a :: l)) as [I|I]; destruct (in_dec Nat.eq_dec f l) as [J|J];
      try (exfalso; apply I; right; auto; fail); try (destruct I as [I|I]; [congruence|contradiction]);
      destruct (Q a); cbn [length]; lia.
Qed.

Definition CI (maxfd : nat) (s : ep) (z : espec) := forall l, (l <> 0)%nat -> active s l = Z.of_nat (registered maxfd z l).

Lemma registered_upd maxfd z f r l : (f < maxfd)%nat -> Z.of_nat (registered maxfd (sreg z f r) l) = Z.of_nat (registered maxfd z l)
  + (if match r with Some (l', _, _) => Nat.eqb l' l | None => false end then 1 else 0) - (if on_loop z l f then 1 else 0).
Proof.
  intros Hf. unfold registered. rewrite (filter_upd (on_loop (sreg z f r) l) (on_loop z l) f).
  - destruct (in_dec _ _ _) as [_|X]; [|exfalso; apply X; apply in_seq; lia].
    unfold on_loop at 2. cbn [sreg reg]. rewrite upd_same. lia.
  - intros g N. unfold on_loop. cbn [sreg reg]. now rewrite upd_other.
  - apply seq_NoDup.
Qed.

Lemma update_active pollable s l f e s' : update_internal pollable s l f e = Ok s' -> active s' = active s.
Proof.
  unfold update_internal. destruct (_ =? _); [intros [= <-]; auto|]. destruct (has e DEL); [intros [= <-]; auto|].
  destruct (Nat.eqb l 0); [discriminate|]. destruct (_ =? 0); [intros [= <-]; auto|]. unfold ctl_mod. destruct (kern s l f); intros [= <-]; auto.
Qed.

Lemma eact_count maxfd pollable s z a z' s' : EI maxfd pollable s z -> CI maxfd s z -> spec_eact false maxfd z a = Some z' ->
  do_eact maxfd pollable s a = Ok s' -> CI maxfd s' z'.
Proof.
  intros H C. destruct a as [l f e|f|f e|f]; cbn [spec_eact do_eact].
  - destruct (_ && _ && _) eqn:G; [|discriminate]. rewrite !andb_true_iff, negb_true_iff, Nat.eqb_neq in G. destruct G as [[Gl Ge] Gr].
    unfold ev_add. destruct (Nat.ltb_spec f maxfd) as [Hf|Hf]; [|intros [= <-] [= <-]; auto].
    intros [= <-]. set (s0 := set_target _ _ _ _ _). destruct (update_internal pollable s0 l f (Z.lor e ADD)) as [s1| | |] eqn:E1; cbn [bind]; try discriminate.
    intros [= <-]. apply update_active in E1. intros l' Hl'. cbn [set_active active]. rewrite registered_upd by auto.
    assert (O : on_loop z l' f = false) by (unfold on_loop; destruct (reg z f); auto; discriminate).
    rewrite O, E1. unfold upd. destruct (Nat.eqb_spec l' l) as [->|N].
    + rewrite Nat.eqb_refl. cbn. rewrite C by auto. lia.
    + apply not_eq_sym, Nat.eqb_neq in N. rewrite N. cbn. rewrite C by auto. lia.
  - unfold ev_del. destruct (Nat.ltb_spec f maxfd) as [Hf|Hf]; [|discriminate]. intros [= <-]. rewrite (ei_loop _ _ _ _ H).
    destruct (reg z f) as [[[l i] p]|] eqn:R.
    + destruct (ei_reg _ _ _ _ H _ _ _ _ R) as (R1 & _). rewrite (proj2 (Nat.eqb_neq l 0) R1).
      destruct (update_internal pollable s l f DEL) as [s1| | |] eqn:E1; cbn [bind]; try discriminate.
      intros [= <-]. apply update_active in E1. intros l' Hl'. cbn [set_loop set_active active]. rewrite registered_upd by auto.
      unfold on_loop. rewrite R, E1. unfold upd. destruct (Nat.eqb_spec l' l) as [->|N].
      * rewrite Nat.eqb_refl, C by auto. lia.
      * apply not_eq_sym, Nat.eqb_neq in N. rewrite N, C by auto. lia.
    + cbn [Nat.eqb]. intros [= <-] l' Hl'. rewrite registered_upd by auto. unfold on_loop. rewrite R, C by auto. lia.
  - unfold ev_set. destruct (_ && _ && _) eqn:G; [|discriminate]. rewrite !andb_true_iff, Nat.ltb_lt in G. destruct G as [[Gf G1] G2].
    destruct (reg z f) as [[[l i] p]|] eqn:R; [|discriminate]. intros [= <-]. rewrite (proj2 (Nat.ltb_lt f maxfd) Gf).
    intros E1 l' Hl'. rewrite registered_upd by auto. unfold on_loop. rewrite R.
    assert (A : active s' = active s) by (destruct (_ =? e) in E1; [injection E1 as <-; auto|now apply update_active in E1]).
    rewrite A, C by auto. lia.
  - destruct (reg z f); [discriminate|]. intros [= <-] [= <-]. exact C.
Qed.

Lemma eacts_count maxfd pollable l : forall s z z' s', EI maxfd pollable s z -> CI maxfd s z -> spec_eacts false maxfd z l = Some z' ->
  do_eacts maxfd pollable s l = Ok s' -> CI maxfd s' z'.
Proof.
  induction l as [|a l IH]; intros s z z' s' H C; cbn [spec_eacts do_eacts]; [intros [= <-] [= <-]; auto|].
  destruct (spec_eact false maxfd z a) as [z1|] eqn:E; [|discriminate]. intros E2.
  destruct (eact_ok _ _ _ _ _ _ _ H E) as (s1 & D1 & H1). rewrite D1. cbn [bind]. intros D2.
  exact (IH s1 z1 z' s' H1 (eact_count _ _ _ _ _ _ _ H C E D1) E2 D2).
Qed.
Lemma batch_count maxfd pollable l cb : (l <> 0)%nat -> forall b s z z' s', EI maxfd pollable s z -> CI maxfd s z -> spec_batch false maxfd l cb b z = Some z' ->
  poll_batch maxfd pollable l cb b s = Ok s' -> CI maxfd s' z'.
Proof.
  intros Hl. induction b as [|[f m] b IH]; intros s z z' s' H C; cbn [spec_batch poll_batch]; [intros [= <-] [= <-]; auto|].
  destruct (f <? maxfd)%nat; [|discriminate]. rewrite (ei_loop _ _ _ _ H).
  destruct (reg z f) as [[[l' i] p]|] eqn:R.
  - destruct (ei_reg _ _ _ _ H _ _ _ _ R) as (R1 & R2 & R3 & R4 & R5). rewrite R3, R4.
    destruct (Nat.eqb l l' && negb (i =? 0)) eqn:G.
    + destruct p; [intros [= <-] [= <-]; exact C|]. rewrite revents_flags. destruct (flags m =? 0); [eauto|].
      rewrite (ei_log _ _ _ _ H). destruct (spec_eacts _ _ _ _) as [z1|] eqn:E; [|discriminate]. intros E2.
      destruct (eacts_ok _ _ _ _ _ _ _ (log_ok _ _ _ _ (ECall l f (flags m)) H) E) as (s1 & D1 & H1). rewrite D1. cbn [bind].
      intros D2. refine (IH s1 z1 z' s' H1 _ E2 D2).
      refine (eacts_count maxfd pollable _ (add_elog s (ECall l f (flags m))) _ z1 s1 (log_ok _ _ _ _ _ H) _ E D1). exact C.
    + intros E D. refine (IH _ z z' s' _ _ E D); [|exact C]. apply del_kern_ok; auto. intros l0 i0 p0 X. rewrite R in X. injection X as <- <- <-.
      apply andb_false_iff in G. destruct G as [G|G]; [left; now apply Nat.eqb_neq|right]. apply negb_false_iff in G. now apply Z.eqb_eq.
  - rewrite (proj2 (Nat.eqb_neq l 0) Hl). cbn [andb]. intros E D. refine (IH _ z z' s' _ _ E D); [|exact C]. apply del_kern_ok; auto. intros l0 i0 p0 X. congruence.
Qed.
Lemma eops_count maxfd pollable l : forall s z z', EI maxfd pollable s z -> CI maxfd s z -> spec_eops false maxfd z l = Some z' ->
  exists s', do_eops maxfd pollable s l = Ok s' /\ EI maxfd pollable s' z' /\ CI maxfd s' z'.
Proof.
  induction l as [|o l IH]; intros s z z' H C; cbn [spec_eops do_eops]; [intros [= <-]; eauto|].
  destruct (spec_eop false maxfd z o) as [z1|] eqn:E; [|discriminate]. intros E2.
  assert (X : exists s1, do_eop maxfd pollable s o = Ok s1 /\ EI maxfd pollable s1 z1 /\ CI maxfd s1 z1).
  { destruct o as [a|l0 b cb]; cbn [spec_eop do_eop] in *.
    - destruct (eact_ok _ _ _ _ _ _ _ H E) as (s1 & A & B). exists s1. split; auto. split; auto. exact (eact_count _ _ _ _ _ _ _ H C E A).
    - destruct (Nat.eqb_spec l0 0) as [|Nl]; [discriminate|]. destruct (batch_ok _ _ _ _ _ Nl _ _ _ _ H E) as (s1 & A & B).
      exists s1. split; auto. split; auto. exact (batch_count _ _ _ _ Nl _ _ _ _ _ H C E A). }
  destruct X as (s1 & -> & H1 & C1). cbn [bind]. eauto.
Qed.

Lemma count_balanced maxfd pollable ops z : spec_eops false maxfd espec0 ops = Some z ->
  exists s, do_eops maxfd pollable ep_init ops = Ok s /\ forall l, (l <> 0)%nat ->
    active s l = Z.of_nat (registered maxfd z l) /\ (is_running s l = true <-> exists f i p, reg z f = Some (l, i, p)).
Proof.
  intros E. destruct (eops_count maxfd pollable ops ep_init espec0 z (ei_init _ _)) as (s & Es & H & C); auto.
  { intros l _. cbn. unfold registered. assert (X : forall q, filter (on_loop espec0 l) q = []) by (induction q; auto). now rewrite X. }
  exists s. split; auto. intros l Hl. split; auto. unfold is_running. rewrite (C l Hl), Z.ltb_lt. unfold registered. split.
  - intros P. destruct (filter (on_loop z l) (seq 0 maxfd)) as [|f q] eqn:F; [cbn in P; lia|].
    assert (X : In f (filter (on_loop z l) (seq 0 maxfd))) by (rewrite F; left; auto). apply filter_In in X. destruct X as [_ X].
    unfold on_loop in X. destruct (reg z f) as [[[l' i] p]|] eqn:R; [|discriminate]. apply Nat.eqb_eq in X. subst l'. eauto.
  - intros (f & i & p & R). assert (X : In f (filter (on_loop z l) (seq 0 maxfd))).
    { apply filter_In. split; [apply in_seq; pose proof (ei_in _ _ _ _ H _ _ R); lia|]. unfold on_loop. rewrite R. apply Nat.eqb_refl. }
    destruct (filter (on_loop z l) (seq 0 maxfd)); [destruct X|cbn; lia].
Qed.

(* registering n+1 times and removing (any number of times afterwards) leaves a count of n *)
Lemma add_step maxfd pollable s l f i : (l <> 0)%nat -> (f < maxfd)%nat -> 0 <= i <= 3 ->
  exists s', do_eact maxfd pollable s (EAdd l f i) = Ok s' /\ tloop s' f = l /\ active s' l = active s l + 1.
Proof.
  intros Hl Hf Hi. cbn [do_eact]. unfold ev_add. rewrite (proj2 (Nat.ltb_lt f maxfd) Hf).
  destruct (update_ok pollable (set_target s f l 0 (i =? PATHWATCH)) l f (Z.lor i ADD) Hl) as (s1 & E & U1 & U2 & U3 & _).
  { exists i. auto. } { cbn [set_target tev]. rewrite upd_same. cbn. congruence. }
  rewrite E. cbn [bind]. eexists. split; [reflexivity|]. cbn. rewrite U1, upd_same, U3. cbn. rewrite upd_same. auto.
Qed.
Lemma adds maxfd pollable l f i : (l <> 0)%nat -> (f < maxfd)%nat -> 0 <= i <= 3 -> forall n s, tloop s f = l \/ n <> 0%nat -> exists s',
  do_eacts maxfd pollable s (repeat (EAdd l f i) n) = Ok s' /\ tloop s' f = l /\ active s' l = active s l + Z.of_nat n.
Proof.
  intros Hl Hf Hi. induction n as [|n IH]; intros s H.
  - exists s. cbn. split; auto. split; [destruct H; congruence|lia].
  - destruct (add_step maxfd pollable s l f i Hl Hf Hi) as (s1 & E & T & C). destruct (IH s1 (or_introl T)) as (s' & E2 & T2 & C2).
    exists s'. cbn [repeat do_eacts]. rewrite E. cbn [bind]. split; auto. split; auto. lia.
Qed.
Lemma eacts_app maxfd pollable a b : forall s s1, do_eacts maxfd pollable s a = Ok s1 -> do_eacts maxfd pollable s (a ++ b) = do_eacts maxfd pollable s1 b.
Proof.
  induction a as [|o a IH]; intros s s1; cbn [app do_eacts]; [intros [= <-]; auto|].
  destruct (do_eact maxfd pollable s o); cbn [bind]; try discriminate. auto.
Qed.
Lemma double_add maxfd pollable l f i n m : (l <> 0)%nat -> (f < maxfd)%nat -> 0 <= i <= 3 ->
  exists s, do_eacts maxfd pollable ep_init (repeat (EAdd l f i) (S n) ++ repeat (EDel f) (S m)) = Ok s /\
    tloop s f = 0%nat /\ active s l = Z.of_nat n.
Proof.
  intros Hl Hf Hi. destruct (adds maxfd pollable l f i Hl Hf Hi (S n) ep_init) as (s1 & E1 & T1 & C1); [auto|].
  rewrite (eacts_app _ _ _ _ _ _ E1).
  assert (D0 : forall k s, tloop s f = 0%nat -> do_eacts maxfd pollable s (repeat (EDel f) k) = Ok s).
  { induction k as [|k IH]; intros s T; cbn [repeat do_eacts do_eact]; auto. unfold ev_del. rewrite (proj2 (Nat.ltb_lt f maxfd) Hf), T. cbn [Nat.eqb bind]. auto. }
  cbn [repeat do_eacts do_eact]. unfold ev_del. rewrite (proj2 (Nat.ltb_lt f maxfd) Hf), T1, (proj2 (Nat.eqb_neq l 0) Hl).
  assert (U : exists s2, update_internal pollable s1 l f DEL = Ok s2).
  { unfold update_internal. destruct (_ =? _); eauto. change (has DEL DEL) with true. eauto. }
  destruct U as (s2 & U). rewrite U. cbn [bind]. apply update_active in U. eexists. split; [apply D0; cbn; apply upd_same|].
  cbn [set_loop set_active tloop active]. rewrite !upd_same, U, C1. cbn [ep_init active]. split; [reflexivity|lia].
Qed.

(* registering for paths together with reading or writing: always edge-triggered reading *)
Lemma path_mixed maxfd pollable l f i : (l <> 0)%nat -> (f < maxfd)%nat -> 1 <= i <= 3 -> pollable f = true ->
  exists s, do_eops maxfd pollable ep_init [EAct (EAdd l f (Z.lor PATHWATCH i))] = Ok s /\ tpath s f = false /\ kern s l f = Some (1 + 2 ^ 31).
Proof.
  intros Hl Hf Hi Hp. cbn [do_eops do_eop do_eact]. unfold ev_add. rewrite (proj2 (Nat.ltb_lt f maxfd) Hf).
  assert (H : i = 1 \/ i = 2 \/ i = 3) by lia.
  unfold update_internal. cbn [set_target tev kern]. rewrite upd_same, (proj2 (Nat.eqb_neq l 0) Hl).
  destruct H as [->|[-> | ->]]; cbn -[upd updk]; unfold ctl_add; cbn [ep_init kern]; rewrite Hp; eexists; (split; [reflexivity|]);
    cbn [set_active set_ev set_kern set_target tpath kern]; (split; [apply upd_same|apply updk_same]).
Qed.
