(* Ports of the Windows poller: closing ends, nothing is left over, the races that are not excluded; waiting times. *)
Require Import Verif.Base Verif.WrModel Verif.WrProofs Verif.WrProofs2 Verif.WrProofs3.
Require Import List ZArith Bool Lia.
Import ListNotations.
Open Scope Z_scope.

Lemma lifetime N ls : Z.of_nat N < 268435456 -> calm N world0 ls -> exists s o, run N world0 ls = Ok (s, o) /\ legal spec0 o.
Proof. intros HN C. destruct (run_good N HN ls _ _ (inv0 N) C) as (s & o & R & L & _). eauto. Qed.

(* a thread that waits for the others to leave, and one that tells it they have *)
Lemma reach_inv N ls s o : Z.of_nat N < 268435456 -> calm N world0 ls -> run N world0 ls = Ok (s, o) -> Inv N s (afters spec0 o).
Proof. intros HN C R. destruct (run_good N HN ls _ _ (inv0 N) C) as (s1 & o1 & R1 & _ & V). rewrite R in R1. injection R1 as <- <-. exact V. Qed.
Lemma loc_await a x : loc_of a x = XAwait -> x = TAwait a.
Proof. destruct x; cbn; try discriminate; destruct (Nat.eqb_spec a0 a); congruence. Qed.
Lemma loc_sig a x : loc_of a x = XSig -> x = TSig a.
Proof. destruct x; cbn; try discriminate; destruct (Nat.eqb_spec a0 a); congruence. Qed.
Lemma loc_in a x : loc_of a x = XIn -> x = THold a \/ exists h, x = TLoad a h.
Proof. destruct x; cbn; try discriminate; destruct (Nat.eqb_spec a0 a); try congruence; [left|right; exists h]; congruence. Qed.

Lemma await_ends N ls s o t a : Z.of_nat N < 268435456 -> calm N world0 ls -> run N world0 ls = Ok (s, o) -> thr s t = TAwait a ->
  (exists u, thr s u = THold a \/ exists h, thr s u = TLoad a h) \/
  (exists u s', thr s u = TSig a /\ step N s (LMeet u t) = Ok (s', []) /\ thr s' t = TPoison a /\ thr s' u = TOut).
Proof.
  intros HN C R E. pose proof (reach_inv N ls s o HN C R) as V. assert (LN : loc_of a (thr s t) = XAwait) by (rewrite E; cbn; now rewrite Nat.eqb_refl).
  destruct (live_of N s _ a t V) as (p & M); [rewrite LN; discriminate|]. pose proof (phase_at N s _ a p V M) as PH.
  destruct PH as [h0 HT I Rs O u| t0 h0 NT I Rs E0 O u| t0 h0 NT I Rs E0 O u | t0 NT I Rs E0 O u | t0 NT I Rs E0 O NZ u | t0 v0 NT I Rs E0 E1 O u | t0 NT I Rs E0 O u| t0 NT I Rs E0 O u].
  - destruct (O t); congruence.
  - assert (NE : t <> t0) by congruence. rewrite (O t NE) in LN. discriminate.
  - assert (NE : t <> t0) by congruence. destruct (O t NE); congruence.
  - assert (NE : t <> t0) by congruence. destruct (O t NE); congruence.
  - left. apply cnt_pos in NZ as (w & _ & W). exists w. destruct (Nat.eq_dec w t0) as [->|NW]; [rewrite E0 in W; discriminate|]. destruct (O w NW) as [Q|Q]; rewrite Q in W; [discriminate|]. apply loc_in. exact Q.
  - right. assert (Q : t = t0) by (destruct (Nat.eq_dec t t0) as [Q|N1]; [exact Q|]; destruct (Nat.eq_dec t v0) as [->|N2]; [congruence|]; rewrite (O t N1 N2) in LN; discriminate). subst t0.
    apply loc_sig in E1. exists v0. unfold step. cbn [who forallb act].
    assert (LV : (v0 < N)%nat) by (destruct (Nat.lt_ge_cases v0 N) as [|G]; [assumption|]; rewrite (v_far _ _ _ V v0 G) in E1; discriminate).
    assert (LT : (t < N)%nat) by (destruct (Nat.lt_ge_cases t N) as [|G]; [assumption|]; rewrite (v_far _ _ _ V t G) in E; discriminate).
    rewrite (proj2 (Nat.ltb_lt v0 N) LV), (proj2 (Nat.ltb_lt t N) LT). cbn [andb]. rewrite E1, E, Nat.eqb_refl. eexists. split; [reflexivity|]. split; [reflexivity|].
    cbn [thr w_thr]. split; [apply set_same|]. rewrite set_other by congruence. apply set_same.
  - assert (NE : t <> t0) by congruence. rewrite (O t NE) in LN. discriminate.
  - assert (NE : t <> t0) by congruence. rewrite (O t NE) in LN. discriminate.
Qed.
(* who signals is awaited *)
Lemma signal_met N ls s o t a : Z.of_nat N < 268435456 -> calm N world0 ls -> run N world0 ls = Ok (s, o) -> thr s t = TSig a -> exists u, thr s u = TAwait a.
Proof.
  intros HN C R E. pose proof (reach_inv N ls s o HN C R) as V. assert (LN : loc_of a (thr s t) = XSig) by (rewrite E; cbn; now rewrite Nat.eqb_refl).
  destruct (live_of N s _ a t V) as (p & M); [rewrite LN; discriminate|]. pose proof (phase_at N s _ a p V M) as PH.
  destruct PH as [h0 HT I Rs O u| t0 h0 NT I Rs E0 O u| t0 h0 NT I Rs E0 O u | t0 NT I Rs E0 O u | t0 NT I Rs E0 O NZ u | t0 v0 NT I Rs E0 E1 O u | t0 NT I Rs E0 O u| t0 NT I Rs E0 O u].
  - destruct (O t); congruence.
  - assert (NE : t <> t0) by congruence. rewrite (O t NE) in LN. discriminate.
  - assert (NE : t <> t0) by congruence. destruct (O t NE); congruence.
  - assert (NE : t <> t0) by congruence. destruct (O t NE); congruence.
  - assert (NE : t <> t0) by congruence. destruct (O t NE); congruence.
  - exists t0. apply loc_await. exact E0.
  - assert (NE : t <> t0) by congruence. rewrite (O t NE) in LN. discriminate.
  - assert (NE : t <> t0) by congruence. rewrite (O t NE) in LN. discriminate.
Qed.
(* when nobody is in a call, the ports in memory and the open handles are those that were created and not closed *)
Lemma nothing_left N ls s o : Z.of_nat N < 268435456 -> calm N world0 ls -> run N world0 ls = Ok (s, o) -> (forall t, thr s t = TOut) ->
  (forall a p, mem s a = Some p -> exists h, lookup h (sm (afters spec0 o)) = Some (pid p)) /\
  (forall h id, lookup h (hands s) = Some id <-> lookup h (sm (afters spec0 o)) = Some id).
Proof.
  intros HN C R E. pose proof (reach_inv N ls s o HN C R) as V.
  assert (LT : forall a p, mem s a = Some p -> exists h, In (h, a) (tree s) /\ iocp p = Some h).
  { intros a p M. pose proof (phase_at N s _ a p V M) as PH.
    destruct PH as [h0 HT I Rs O u| t0 h0 NT I Rs E0 O u| t0 h0 NT I Rs E0 O u | t0 NT I Rs E0 O u | t0 NT I Rs E0 O NZ u | t0 v0 NT I Rs E0 E1 O u | t0 NT I Rs E0 O u| t0 NT I Rs E0 O u];
      [|rewrite E in E0; discriminate ..]. exists h0. split; [apply HT; reflexivity|exact I]. }
  assert (LM : forall h a p, In (h, a) (tree s) -> mem s a = Some p -> lookup h (sm (afters spec0 o)) = Some (pid p)).
  { intros h a p IT M. rewrite (v_sm _ _ _ V), lookup_map, (in_lookup h (tree s) a (v_keys _ _ _ V) IT). unfold pid_at. now rewrite M. }
  split; [intros a p M; destruct (LT a p M) as (h & IT & _); eauto|]. intros h id. split.
  - intros Q. apply lookup_in in Q. apply (v_hands _ _ _ V) in Q as (a & p & M & I & <-). destruct (LT a p M) as (h1 & IT & I1). assert (h1 = h) by congruence. subst h1. eauto.
  - rewrite (v_sm _ _ _ V), lookup_map. destruct (lookup h (tree s)) as [a|] eqn:LK; [|discriminate]. apply lookup_in in LK. destruct (live_tree N s _ a h V LK) as (p & M).
    intros Q. injection Q as <-. unfold pid_at. rewrite M. apply in_lookup; [apply (v_hkeys _ _ _ V)|]. apply (v_hands _ _ _ V). exists a, p. split; [exact M|].
    split; [|reflexivity]. destruct (LT a p M) as (h1 & IT & I1). pose proof (phase_at N s _ a p V M) as PH.
    destruct PH as [h0 HT I Rs O u| t0 h0 NT | t0 h0 NT | t0 NT | t0 NT | t0 v0 NT | t0 NT | t0 NT]; try (elim (NT h LK)). apply HT in LK. congruence.
Qed.

(* ---- what is not excluded ---- *)
Definition device_run : list label := [LCreate 0 7 100; LAdd 0; LFind 1 100; LRef 1; LDel 0 100; LClose 0; LUse 1 true].
(* a registration that needs a new device handle while the port is being closed *)
Lemma device_race : run 2 world0 device_run = UB.
Proof. vm_compute. reflexivity. Qed.
(* a wait that has read the handle when the port is closed and another port gets the same handle value *)
Definition steal_run : list label :=
  [LCreate 0 7 100; LAdd 0; LFind 1 100; LRef 1; LLoad 1; LDel 0 100; LClose 0; LCreate 2 8 100; LAdd 2; LTake 1].
Lemma steal_race : exists s, run 3 world0 steal_run = Ok (s, [OCreate 0 (Some (100, 0%nat)); OCall 1 100 (Some 0%nat); OClose 0 100 (Some 0%nat); OCreate 2 (Some (100, 1%nat)); OTake 1 1]).
Proof. eexists. vm_compute. reflexivity. Qed.
Lemma steal_illegal : ~ legal spec0 [OCreate 0 (Some (100, 0%nat)); OCall 1 100 (Some 0%nat); OClose 0 100 (Some 0%nat); OCreate 2 (Some (100, 1%nat)); OTake 1 1].
Proof. cbn. intros (_ & _ & _ & _ & H & _). discriminate H. Qed.

(* ---- times ---- *)
(* what was asked, in milliseconds, rounded up *)
Definition asked (sec nsec : Z) : Z := sec * 1000 + (nsec + 999999) / 1000000.
Lemma as_int_small x : -2147483648 <= x <= 2147483647 -> as_int x = x.
Proof. intros H. unfold as_int. rewrite Z.mod_small; lia. Qed.
Lemma chk_small x : -2147483648 <= x <= 2147483647 -> chk_int x = Ok x.
Proof. intros H. unfold chk_int. destruct (Z.leb_spec (-2147483648) x); [|lia]. destruct (Z.leb_spec x 2147483647); [reflexivity|lia]. Qed.
Lemma pwait2_value sec nsec : 0 <= sec <= 2000000 -> 0 <= nsec < 1000000000 -> pwait2 (Some (sec, nsec)) = Ok (sec * 1000 + (nsec + 999999) mod 1000000).
Proof.
  intros S Ns. unfold pwait2. rewrite !as_int_small by lia. rewrite chk_small by lia. cbn [bind]. rewrite chk_small by lia. cbn [bind]. rewrite chk_small by lia. cbn [bind].
  rewrite Z.rem_mod_nonneg by lia. replace (nsec + 1000000 - 1) with (nsec + 999999) by ring. apply chk_small. pose proof (Z.mod_pos_bound (nsec + 999999) 1000000). lia.
Qed.
(* right for one nanosecond count in a million *)
Lemma pwait2_iff sec nsec : 0 <= sec <= 2000000 -> 0 <= nsec < 1000000000 ->
  (pwait2 (Some (sec, nsec)) = Ok (asked sec nsec) <-> exists q, 0 <= q < 1000 /\ nsec = q * 1000001 + 2).
Proof.
  intros S Ns. rewrite (pwait2_value sec nsec S Ns). unfold asked.
  pose proof (Z.div_mod (nsec + 999999) 1000000 ltac:(lia)) as D. pose proof (Z.mod_pos_bound (nsec + 999999) 1000000 ltac:(lia)) as B.
  remember ((nsec + 999999) / 1000000) as d. remember ((nsec + 999999) mod 1000000) as m. clear Heqd Heqm. split.
  - intros H. injection H as H. assert (m = d) by lia. exists (d - 1). split; lia.
  - intros (q & Q & ->). f_equal. assert (d = q + 1) by lia. lia.
Qed.
(* whole seconds: more than sixteen minutes too long *)
Lemma pwait2_seconds sec : 0 <= sec <= 2000000 -> pwait2 (Some (sec, 0)) = Ok (asked sec 0 + 999999).
Proof. intros S. rewrite (pwait2_value sec 0 S ltac:(lia)). unfold asked. change ((0 + 999999) mod 1000000) with 999999. change ((0 + 999999) / 1000000) with 0. f_equal. lia. Qed.
Lemma pwait2_none : pwait2 None = Ok (-1).
Proof. reflexivity. Qed.

Lemma loop_pos timeout due : 0 < timeout <= 2147483647 -> forall rs now g res t l, now < due <= now + timeout -> g = due - now -> (forall d k, In (d, k) rs -> 0 <= d) ->
  wait_loop timeout due now g rs = Ok (res, t, l) ->
  (forall n x, In (n, x) l -> n + x = due /\ 0 < x) /\ (res = WZero -> due <= t).
Proof.
  intros HT. induction rs as [|[d k] rs IH]; intros now g res t l B G NN; cbn [wait_loop]; [discriminate|].
  assert (D0 : 0 <= d) by (apply (NN d k); left; reflexivity). assert (ONE : now + g = due /\ 0 < g) by lia. destruct k.
  - intros H. injection H as <- <- <-. split; [|discriminate]. intros n x [Q|[]]. injection Q as <- <-. exact ONE.
  - destruct (Z.ltb_spec timeout 0); [lia|]. destruct (Z.leb_spec due (now + d)) as [LE|GT]; cbn [bind].
    + intros H0. injection H0 as <- <- <-. split; [|auto]. intros n x [Q|[]]. injection Q as <- <-. exact ONE.
    + destruct (wait_loop timeout due (now + d) (w32 (due - (now + d))) rs) as [[[r1 t1] l1]| | |] eqn:W; try discriminate. cbn [bind]. intros H0. injection H0 as <- <- <-.
      assert (NN' : forall d0 k0, In (d0, k0) rs -> 0 <= d0) by (intros d0 k0 Q; apply (NN d0 k0); right; exact Q).
      destruct (IH (now + d) (w32 (due - (now + d))) r1 t1 l1) as (A & Z0); [lia|rewrite w32_small; lia|exact NN'|exact W|]. split; [|exact Z0].
      intros n x [Q|Q]; [injection Q as <- <-; exact ONE|auto].
  - destruct (Z.eqb_spec g INFINITE) as [E|_]; [unfold INFINITE in E; lia|]. intros H. injection H as <- <- <-. split; [intros n x [Q|[]]; injection Q as <- <-; exact ONE|]. lia.
  - intros H. injection H as <- <- <-. split; [|discriminate]. intros n x [Q|[]]. injection Q as <- <-. exact ONE.
Qed.
Lemma wait_pos timeout now rs res t l : 0 < timeout <= 2147483647 -> (forall d k, In (d, k) rs -> 0 <= d) -> port_wait timeout now rs = Ok (res, t, l) ->
  (forall n x, In (n, x) l -> n + x = now + timeout /\ 0 < x) /\ (res = WZero -> now + timeout <= t).
Proof. intros HT NN. unfold port_wait. destruct (Z.ltb_spec 0 timeout); [|lia]. apply loop_pos; auto; lia. Qed.
Lemma wait_zero now rs res t l : 0 <= now -> (forall d k, In (d, k) rs -> 0 <= d) -> port_wait 0 now rs = Ok (res, t, l) -> l = [(now, 0)].
Proof.
  intros H0 NN. unfold port_wait. cbn [Z.ltb Z.eqb Z.compare]. destruct rs as [|[d k] rs]; [discriminate|]. cbn [wait_loop Z.ltb Z.compare].
  assert (0 <= d) by (apply (NN d k); left; reflexivity). destruct k.
  - intros H1. now injection H1 as <- <- <-.
  - destruct (Z.leb_spec 0 (now + d)); [|lia]. cbn [bind]. intros H2. now injection H2 as <- <- <-.
  - cbn [Z.eqb INFINITE]. intros H1. now injection H1 as <- <- <-.
  - intros H1. now injection H1 as <- <- <-.
Qed.
(* what the last call of the kernel gave is what is reported *)
Lemma loop_told timeout due : 0 <= timeout <= 2147483647 -> forall rs now g res t l, 0 <= g <= 2147483647 -> due - now <= 2147483647 -> (forall d k, In (d, k) rs -> 0 <= d) ->
  wait_loop timeout due now g rs = Ok (res, t, l) ->
  exists d k, nth_error rs (length l - 1) = Some (d, k) /\ (0 < length l)%nat /\ (res = WErr <-> k = KErr) /\ (res = WGot <-> k = KGot).
Proof.
  intros HT. induction rs as [|[d k] rs IH]; intros now g res t l G DU NN; cbn [wait_loop]; [discriminate|].
  assert (D0 : 0 <= d) by (apply (NN d k); left; reflexivity).
  destruct k.
  - intros H. injection H as <- <- <-. exists d, KGot. cbn. repeat split; auto; discriminate.
  - destruct (Z.ltb_spec timeout 0); [lia|]. destruct (Z.leb_spec due (now + d)) as [LE|GT]; cbn [bind].
    + intros H0. injection H0 as <- <- <-. exists d, KNone. cbn. repeat split; auto; discriminate.
    + destruct (wait_loop timeout due (now + d) (w32 (due - (now + d))) rs) as [[[r1 t1] l1]| | |] eqn:W; try discriminate. cbn [bind]. intros H0. injection H0 as <- <- <-.
      assert (NN' : forall d0 k0, In (d0, k0) rs -> 0 <= d0) by (intros d0 k0 Q; apply (NN d0 k0); right; exact Q).
      rewrite w32_small in W by lia.
      destruct (IH (now + d) (due - (now + d)) r1 t1 l1) as (d1 & k1 & A & P & B); [lia|lia|exact NN'|exact W|].
      exists d1, k1. cbn [length]. replace (S (length l1) - 1)%nat with (S (length l1 - 1)) by lia. cbn. repeat split; try apply B; auto; lia.
  - destruct (Z.eqb_spec g INFINITE) as [E|_]; [unfold INFINITE in E; lia|]. intros H. injection H as <- <- <-. exists d, KTimeout. cbn. repeat split; auto; discriminate.
  - intros H. injection H as <- <- <-. exists d, KErr. cbn. repeat split; auto; discriminate.
Qed.
Lemma wait_told timeout now rs res t l : 0 <= timeout <= 2147483647 -> 0 <= now -> (forall d k, In (d, k) rs -> 0 <= d) -> port_wait timeout now rs = Ok (res, t, l) ->
  exists d k, nth_error rs (length l - 1) = Some (d, k) /\ (0 < length l)%nat /\ (res = WErr <-> k = KErr) /\ (res = WGot <-> k = KGot).
Proof.
  intros HT HN NN. unfold port_wait. destruct (Z.ltb_spec 0 timeout); [|destruct (Z.eqb_spec timeout 0); [|lia]]; intros W; eapply loop_told; try exact W; auto; lia.
Qed.
Lemma wait_endless timeout now rs res t l : timeout < 0 -> port_wait timeout now rs = Ok (res, t, l) -> res <> WZero /\ forall n x, In (n, x) l -> x = INFINITE.
Proof.
  intros HT. unfold port_wait. destruct (Z.ltb_spec 0 timeout); [lia|]. destruct (Z.eqb_spec timeout 0); [lia|]. revert now res t l.
  induction rs as [|[d k] rs IH]; intros now res t l; cbn [wait_loop]; [discriminate|]. destruct k.
  - intros H1. injection H1 as <- <- <-. split; [discriminate|]. intros n0 x [Q|[]]. congruence.
  - destruct (Z.ltb_spec timeout 0); [|lia]. destruct (wait_loop timeout 0 (now + d) INFINITE rs) as [[[r1 t1] l1]| | |] eqn:W; try discriminate. cbn [bind]. intros H2. injection H2 as <- <- <-.
    destruct (IH _ _ _ _ W) as (A & B). split; [exact A|]. intros n0 x [Q|Q]; [congruence|eauto].
  - rewrite Z.eqb_refl. apply IH.
  - intros H1. injection H1 as <- <- <-. split; [discriminate|]. intros n0 x [Q|[]]. congruence.
Qed.
