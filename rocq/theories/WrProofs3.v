(* Ports of the Windows poller: every step. *)
Require Import Verif.Base Verif.WrModel Verif.WrProofs Verif.WrProofs2.
Require Import List ZArith Bool Lia.
Import ListNotations.
Open Scope Z_scope.

(* no device is opened for a port that is being closed, and the handle a wait has read is not that of another port
   when the kernel is called *)
Definition calm_label (s : world) (l : label) : Prop :=
  match l with
  | LUse t true => forall a p, thr s t = THold a -> mem s a = Some p -> iocp p <> None
  | LTake t => forall a h p id, thr s t = TLoad a (Some h) -> mem s a = Some p -> lookup h (hands s) = Some id -> id = pid p
  | _ => True
  end.
Fixpoint calm (N : nat) (s : world) (ls : list label) : Prop :=
  match ls with [] => True | l :: r => calm_label s l /\ forall s' o, step N s l = Ok (s', o) -> calm N s' r end.

Section Threads.
Variable N : nat.
Hypothesis HN : Z.of_nat N < 268435456.
Notation Inv := (Inv N).

Lemma phase_at s z a p : Inv s z -> mem s a = Some p -> phase N p (fun h => In (h, a) (tree s)) (fun t => loc_of a (thr s t)) (In (pid p) (sused z)).
Proof. intros V M. pose proof (v_here _ _ _ V a) as P. rewrite M in P. apply P. Qed.
Lemma fresh_at s z a p : Inv s z -> mem s a = Some p -> ~ In (pid p) (sfreed z).
Proof. intros V M. pose proof (v_here _ _ _ V a) as P. rewrite M in P. apply P. Qed.

Definition good (s : world) (z : spec) (r : outcome (world * list obs)) : Prop := exists s' o, r = Ok (s', o) /\ legal z o /\ Inv s' (afters z o).
Lemma good_same s z : Inv s z -> good s z (Ok (s, [])).
Proof. intros V. exists s, []. split; [reflexivity|]. split; [exact I|exact V]. Qed.

Ltac thrs V t := let u := fresh in intros u ? ?; unfold set; destruct (Nat.eqb_spec u t); [discriminate|]; apply (v_found _ _ _ V).

Lemma g_create s z t a h : Inv s z -> (t < N)%nat -> good s z (act N s (LCreate t a h)).
Proof.
  intros V L. cbn [act]. destruct (thr s t) eqn:E; try (apply good_same; exact V). destruct (mem s a) as [p|] eqn:M; [apply good_same; exact V|].
  destruct (has_h h (hands s)) eqn:HH; [apply good_same; exact V|]. eexists _, []. split; [reflexivity|]. split; [exact I|]. cbn [afters fold_left].
  unfold w_thr, w_nxt, w_hands, w_mem. cbn [mem tree hands nxt thr].
  assert (NH : lookup h (hands s) = None) by (unfold has_h in HH; destruct (lookup h (hands s)); [discriminate|reflexivity]).
  pose proof (v_here _ _ _ V a) as P. rewrite M in P. cbn in P. destruct P as (P1 & P2).
  assert (LO : forall b u, b <> a -> loc_of b (set (thr s) t (TNew a h) u) = loc_of b (thr s u)).
  { intros b u NB. unfold set. destruct (Nat.eqb_spec u t) as [->|]; [|reflexivity]. rewrite E. cbn. destruct (Nat.eqb_spec a b); congruence. }
  assert (UN : ~ In (nxt s) (sused z)) by (intros Q; apply (v_used _ _ _ V) in Q; lia).
  assert (FN : ~ In (nxt s) (sfreed z)) by (intros Q; apply (v_freed _ _ _ V) in Q; lia).
  constructor; [|cbn [mem tree hands nxt thr] ..].
  - intros b. destruct (Nat.eq_dec b a) as [->|NB].
    + cbn [mem tree hands nxt thr]. rewrite set_same. cbn [here]. split; [|exact FN]. apply (ph_new N _ _ _ _ t h); cbn [rst iocp pid]; auto.
      * rewrite set_same. cbn. now rewrite Nat.eqb_refl.
      * intros u U. rewrite set_other by exact U. apply P2.
    + apply (here_other N s z); cbn [mem tree hands nxt thr]; [apply (v_here _ _ _ V b)|now rewrite set_other|tauto|auto|tauto].
  - apply (v_keys _ _ _ V).
  - thrs V t.
  - apply (far_set N s z t _ V L).
  - cbn. constructor; [|apply (v_hkeys _ _ _ V)]. intros Q. apply in_map_iff in Q as ([h1 id] & E1 & Q). cbn in E1. subst h1. apply (lookup_none _ _ NH id Q).
  - intros h1 id. cbn [In]. rewrite (v_hands _ _ _ V). split.
    + intros [Q|(b & q & B & C)]; [injection Q as <- <-; exists a; eexists; rewrite set_same; split; [reflexivity|]; split; reflexivity|].
      exists b, q. rewrite set_other by congruence. auto.
    + intros (b & q & B & C & D). destruct (Nat.eq_dec b a) as [->|NB]; [rewrite set_same in B; injection B as <-; cbn in C, D; left; congruence|].
      right. rewrite set_other in B by exact NB. eauto.
  - intros b c q r B C Q. destruct (Nat.eq_dec b a) as [->|NB]; destruct (Nat.eq_dec c a) as [->|NC]; auto.
    + rewrite set_same in B. rewrite set_other in C by exact NC. injection B as <-. cbn in Q. pose proof (v_nxt _ _ _ V c r C). lia.
    + rewrite set_same in C. rewrite set_other in B by exact NB. injection C as <-. cbn in Q. pose proof (v_nxt _ _ _ V b q B). lia.
    + rewrite set_other in B by exact NB. rewrite set_other in C by exact NC. apply (v_pid _ _ _ V b c q r B C Q).
  - intros b q B. destruct (Nat.eq_dec b a) as [->|NB]; [rewrite set_same in B; injection B as <-; cbn; lia|]. rewrite set_other in B by exact NB. pose proof (v_nxt _ _ _ V b q B). lia.
  - rewrite (v_sm _ _ _ V). apply map_ext_in. intros [h1 b] IB. cbn. f_equal. unfold pid_at. cbn [mem]. rewrite set_other; [reflexivity|]. intros ->. apply (P1 h1 IB).
  - intros u. rewrite (v_cur _ _ _ V). unfold cur. cbn [thr]. unfold set at 1. destruct (Nat.eqb_spec u t) as [->|NU]; [now rewrite E|].
    assert (K : forall b, loc_of b (thr s u) <> XNone -> b <> a) by (intros b Q ->; apply Q, P2).
    destruct (thr s u) eqn:EU; try reflexivity; f_equal; unfold pid_at; cbn [mem]; rewrite set_other; try reflexivity; apply K; cbn; rewrite Nat.eqb_refl; discriminate.
  - intros id Q. pose proof (v_used _ _ _ V id Q). lia.
  - intros id Q. pose proof (v_freed _ _ _ V id Q). lia.
Qed.

Lemma g_add s z t : Inv s z -> (t < N)%nat -> good s z (act N s (LAdd t)).
Proof.
  intros V L. cbn [act]. destruct (thr s t) as [|a h| | | | | | | | |] eqn:E; try (apply good_same; exact V). destruct (unshared N s) eqn:US; [|apply good_same; exact V].
  assert (LN : loc_of a (thr s t) = XNew h) by (rewrite E; cbn; now rewrite Nat.eqb_refl).
  destruct (live_of N s z a t V) as (p & M); [rewrite LN; discriminate|]. pose proof (phase_at s z a p V M) as PH.
  assert (LO : forall b u, b <> a -> loc_of b (set (thr s) t TOut u) = loc_of b (thr s u)).
  { intros b u NB. unfold set. destruct (Nat.eqb_spec u t) as [->|]; [|reflexivity]. rewrite E. cbn. destruct (Nat.eqb_spec a b); congruence. }
  pose proof (chg_loc a (thr s) t TOut) as C.
  destruct (L_add N p _ _ _ (In (pid p) (pid p :: sused z)) t _ h (fun h' => In (h', a) ((h, a) :: tree s)) L PH LN C) as (NU & IP & PH').
  { intros h'. cbn. split; [|intros ->; auto]. intros [Q|Q]; [congruence|]. destruct PH as [h0 HT I Rs O u| t0 h0 NT I Rs E0 O u| t0 h0 NT I Rs E0 O u | t0 NT I Rs E0 O u | t0 NT I Rs E0 O NZ u | t0 v0 NT I Rs E0 E1 O u | t0 NT I Rs E0 O u| t0 NT I Rs E0 O u]; try (elim (NT h' Q)). destruct (O t); congruence. }
  { left. reflexivity. }
  assert (NT : lookup h (tree s) = None).
  { destruct (lookup h (tree s)) as [b|] eqn:LK; [|reflexivity]. exfalso. apply lookup_in in LK. destruct (live_tree N s z b h V LK) as (q & Q).
    pose proof (phase_at s z b q V Q) as PB. assert (IQ : iocp q = Some h).
    { destruct PB as [h0 HT I0 Rs O u| t0 h0 NT0 | t0 h0 NT0 | t0 NT0 | t0 NT0 | t0 v0 NT0 | t0 NT0 | t0 NT0]; try (elim (NT0 h LK)). apply HT in LK. congruence. }
    assert (H1 : In (h, pid p) (hands s)) by (apply (v_hands _ _ _ V); eauto). assert (H2 : In (h, pid q) (hands s)) by (apply (v_hands _ _ _ V); eauto).
    apply in_lookup in H1; [|apply (v_hkeys _ _ _ V)]. apply in_lookup in H2; [|apply (v_hkeys _ _ _ V)]. assert (b = a) by (apply (v_pid _ _ _ V b a q p Q M); congruence). subst b.
    rewrite M in Q. injection Q as <-. destruct PB as [h0 HT I0 Rs O u| t0 h0 NT0 | t0 h0 NT0 | t0 NT0 | t0 NT0 | t0 v0 NT0 | t0 NT0 | t0 NT0]; try (elim (NT0 h LK)). destruct (O t); congruence. }
  unfold has_h. rewrite NT. unfold get. rewrite M. cbn [bind]. eexists _, _. split; [reflexivity|]. split.
  { cbn. split; [|exact I]. split; [|exact NU]. rewrite (v_sm _ _ _ V), lookup_map, NT. reflexivity. }
  cbn [afters fold_left after]. unfold w_thr, w_tree. cbn [mem tree hands nxt thr].
  assert (UF := unshared_ok N s z V US).
  apply (upd_inv N s z _ _ a p p V M); cbn [mem tree hands nxt thr sm sused sfreed scur]; auto.
  - apply (far_set N s z t _ V L).
  - intros b h1 NB. cbn. split; [intros [Q|Q]; [congruence|exact Q]|auto].
  - cbn. constructor; [|apply (v_keys _ _ _ V)]. intros Q. apply in_map_iff in Q as ([h1 b] & E1 & Q). cbn in E1. subst h1. apply (lookup_none _ _ NT b Q).
  - intros t0 h0 o0. unfold set. destruct (Nat.eqb_spec t0 t); [discriminate|]. intros Q. elim (UF _ _ _ Q).
  - apply (v_hkeys _ _ _ V).
  - apply (same_hands N s z a p p V M eq_refl).
  - intros id NI. cbn. split; [intros [Q|Q]; [congruence|exact Q]|auto].
  - cbn. rewrite (v_sm _ _ _ V). f_equal. f_equal. unfold pid_at. now rewrite M.
  - intros u. rewrite (v_cur _ _ _ V). unfold cur, set. destruct (Nat.eqb_spec u t) as [->|]; [now rewrite E|reflexivity].
Qed.

Lemma g_find s z t h : Inv s z -> (t < N)%nat -> good s z (act N s (LFind t h)).
Proof.
  intros V L. cbn [act]. destruct (thr s t) eqn:E; try (apply good_same; exact V). eexists _, []. split; [reflexivity|]. split; [exact I|].
  apply (quiet N s z); cbn [afters fold_left w_thr mem tree hands nxt thr]; auto.
  - intros b u. unfold set. destruct (Nat.eqb_spec u t) as [->|]; [now rewrite E|reflexivity].
  - apply (far_set N s z t _ V L).
  - intros u h1 o. unfold set. destruct (Nat.eqb_spec u t) as [->|]; [congruence|apply (v_found _ _ _ V)].
  - intros u. rewrite (v_cur _ _ _ V). unfold cur, w_thr. cbn [thr]. unfold set. destruct (Nat.eqb_spec u t) as [->|]; [now rewrite E|reflexivity].
Qed.

(* the phase of a port in the tree *)
Lemma g_ref s z t : Inv s z -> (t < N)%nat -> good s z (act N s (LRef t)).
Proof.
  intros V L. cbn [act]. destruct (thr s t) as [| |h [a|]| | | | | | | |] eqn:E; try (apply good_same; exact V).
  2: { eexists _, _. split; [reflexivity|]. pose proof (v_found _ _ _ V t h None E) as LK. split.
       { cbn. split; [|exact I]. rewrite (v_sm _ _ _ V), lookup_map, <- LK. reflexivity. }
       apply (quiet N s z); cbn [afters fold_left w_thr mem tree hands nxt thr after sm sused sfreed scur]; auto.
       - intros b u. unfold set. destruct (Nat.eqb_spec u t) as [->|]; [now rewrite E|reflexivity].
       - apply (far_set N s z t _ V L).
       - thrs V t.
       - intros u. unfold cur, w_thr. cbn [thr]. unfold set. destruct (Nat.eqb_spec u t) as [->|]; [reflexivity|apply (v_cur _ _ _ V)]. }
  pose proof (v_found _ _ _ V t h (Some a) E) as LK. symmetry in LK. pose proof (lookup_in _ _ _ LK) as IT. destruct (live_tree N s z a h V IT) as (p & M).
  pose proof (phase_at s z a p V M) as PH. assert (LN : loc_of a (thr s t) = XNone) by (now rewrite E).
  pose proof (chg_loc a (thr s) t (THold a)) as C. cbn [loc_of] in C. rewrite Nat.eqb_refl in C.
  destruct (L_in N HN p _ _ _ t _ h L PH IT LN C) as (LA & PH').
  unfold reflock_ref, get. rewrite M. cbn [bind]. rewrite LA. cbn [Z.eqb]. cbn [bind w_rst w_mem mem]. rewrite set_same. cbn [bind].
  eexists _, _. split; [reflexivity|]. cbn [pid]. split.
  { cbn [legal fair after]. split; [|exact I]. rewrite (v_sm _ _ _ V), lookup_map, LK. unfold pid_at. now rewrite M. }
  cbn [afters fold_left after]. unfold w_thr, w_rst, w_mem. cbn [mem tree hands nxt thr].
  apply (upd_inv N s z _ _ a p (mkm (w32 (rst p + REF)) (iocp p) (pid p)) V M); cbn [mem tree hands nxt thr sm sused sfreed scur]; auto.
  - apply set_same.
  - intros b NB. now apply set_other.
  - intros b u NB. unfold set. destruct (Nat.eqb_spec u t) as [->|]; [|reflexivity]. rewrite E. cbn. destruct (Nat.eqb_spec a b); congruence.
  - apply (far_set N s z t _ V L).
  - tauto.
  - apply (v_keys _ _ _ V).
  - thrs V t.
  - apply (v_hkeys _ _ _ V).
  - apply (same_hands N s z a p _ V M). reflexivity.
  - tauto.
  - apply (v_sm _ _ _ V).
  - intros u. unfold set. destruct (Nat.eqb_spec u t) as [->|]; [unfold pid_at; now rewrite M|]. apply (v_cur _ _ _ V).
Qed.

Lemma g_use s z t dev : Inv s z -> calm_label s (LUse t dev) -> good s z (act N s (LUse t dev)).
Proof.
  intros V CA. cbn [act]. destruct (thr s t) as [| | |a| | | | | | |] eqn:E; try (apply good_same; exact V).
  destruct (live_of N s z a t V) as (p & M); [rewrite E; cbn; rewrite Nat.eqb_refl; discriminate|]. unfold get. rewrite M. cbn [bind].
  assert (Q : dev && (match iocp p with None => true | _ => false end) = false).
  { destruct dev; [|reflexivity]. cbn in *. specialize (CA a p E M). destruct (iocp p); [reflexivity|congruence]. }
  rewrite Q. exists s, [OUse t (pid p)]. split; [reflexivity|]. split; [|exact V]. cbn. split; [|exact I]. split; [|apply (fresh_at s z a p V M)].
  rewrite (v_cur _ _ _ V). unfold cur. rewrite E. unfold pid_at. now rewrite M.
Qed.
Lemma g_load s z t : Inv s z -> (t < N)%nat -> good s z (act N s (LLoad t)).
Proof.
  intros V L. cbn [act]. destruct (thr s t) as [| | |a| | | | | | |] eqn:E; try (apply good_same; exact V).
  destruct (live_of N s z a t V) as (p & M); [rewrite E; cbn; rewrite Nat.eqb_refl; discriminate|]. unfold get. rewrite M. cbn [bind].
  eexists _, []. split; [reflexivity|]. split; [exact I|]. apply (quiet N s z); cbn [afters fold_left w_thr mem tree hands nxt thr]; auto.
  - intros b u. unfold set. destruct (Nat.eqb_spec u t) as [->|]; [now rewrite E|reflexivity].
  - apply (far_set N s z t _ V L).
  - thrs V t.
  - intros u. rewrite (v_cur _ _ _ V). unfold cur, w_thr, pid_at. cbn [thr mem]. unfold set. destruct (Nat.eqb_spec u t) as [->|]; [now rewrite E|reflexivity].
Qed.
Lemma g_take s z t : Inv s z -> (t < N)%nat -> calm_label s (LTake t) -> good s z (act N s (LTake t)).
Proof.
  intros V L CA. cbn [act]. destruct (thr s t) as [| | | |a h| | | | | |] eqn:E; try (apply good_same; exact V).
  destruct (live_of N s z a t V) as (p & M); [rewrite E; cbn; rewrite Nat.eqb_refl; discriminate|].
  eexists _, _. split; [reflexivity|].
  assert (K : forall z', sm z' = sm z -> sused z' = sused z -> sfreed z' = sfreed z -> (forall u, scur z' u = scur z u) -> Inv (w_thr s t (THold a)) z').
  { intros z' Z1 Z2 Z3 Z4. apply (quiet N s z); cbn [w_thr mem tree hands nxt thr]; auto.
    - intros b u. unfold set. destruct (Nat.eqb_spec u t) as [->|]; [now rewrite E|reflexivity].
    - apply (far_set N s z t _ V L).
    - thrs V t.
    - intros u. rewrite Z4, (v_cur _ _ _ V). unfold cur, w_thr, pid_at. cbn [thr mem]. unfold set. destruct (Nat.eqb_spec u t) as [->|]; [now rewrite E|reflexivity]. }
  destruct h as [h|]; [|split; [exact I|apply K; reflexivity]]. destruct (lookup h (hands s)) as [id|] eqn:LK; [|split; [exact I|apply K; reflexivity]].
  rewrite (CA a h p id E M LK). split; [|apply K; reflexivity]. cbn. split; [|exact I]. rewrite (v_cur _ _ _ V). unfold cur. rewrite E. unfold pid_at. now rewrite M.
Qed.
Lemma g_unref s z t : Inv s z -> (t < N)%nat -> good s z (act N s (LUnref t)).
Proof.
  intros V L. cbn [act]. destruct (thr s t) as [| | |a| | | | | | |] eqn:E; try (apply good_same; exact V).
  destruct (live_of N s z a t V) as (p & M); [rewrite E; cbn; rewrite Nat.eqb_refl; discriminate|].
  pose proof (phase_at s z a p V M) as PH. assert (LN : loc_of a (thr s t) = XIn) by (rewrite E; cbn; now rewrite Nat.eqb_refl).
  destruct (L_out N HN p _ _ _ t (far_loc N s z a V) L PH LN) as (LA & PH').
  unfold reflock_unref, get. rewrite M. cbn [bind]. rewrite LA. cbn [Z.eqb]. cbn [bind fst snd].
  set (v := w32 (rst p - REF)) in *. eexists _, _. split; [reflexivity|]. split.
  { cbn. split; [|exact I]. rewrite (v_cur _ _ _ V). unfold cur. rewrite E. discriminate. }
  cbn [afters fold_left after]. unfold w_thr, w_rst, w_mem. cbn [mem tree hands nxt thr]. set (x := if v =? DESTROY then TSig a else TOut).
  assert (C : chg (fun u => loc_of a (thr s u)) t (if v =? DESTROY then XSig else XNone) (fun u => loc_of a (set (thr s) t x u))).
  { replace (if v =? DESTROY then XSig else XNone) with (loc_of a x); [apply chg_loc|]. unfold x. destruct (v =? DESTROY); cbn; now rewrite ?Nat.eqb_refl. }
  specialize (PH' _ C).
  apply (upd_inv N s z _ _ a p (mkm v (iocp p) (pid p)) V M); cbn [mem tree hands nxt thr sm sused sfreed scur]; auto.
  - apply set_same.
  - intros b NB. now apply set_other.
  - intros b u NB. unfold set. destruct (Nat.eqb_spec u t) as [->|]; [|reflexivity]. rewrite E. unfold x. cbn. destruct (v =? DESTROY); cbn; destruct (Nat.eqb_spec a b); congruence.
  - apply (far_set N s z t _ V L).
  - tauto.
  - apply (v_keys _ _ _ V).
  - intros t0 h0 o0. unfold set. destruct (Nat.eqb_spec t0 t); [unfold x; destruct (v =? DESTROY); discriminate|]. apply (v_found _ _ _ V).
  - apply (v_hkeys _ _ _ V).
  - apply (same_hands N s z a p _ V M). reflexivity.
  - tauto.
  - apply (v_sm _ _ _ V).
  - intros u. unfold set. destruct (Nat.eqb_spec u t) as [->|]; [unfold x; destruct (v =? DESTROY); reflexivity|]. apply (v_cur _ _ _ V).
Qed.
Lemma g_del s z t h : Inv s z -> (t < N)%nat -> good s z (act N s (LDel t h)).
Proof.
  intros V L. cbn [act]. destruct (thr s t) eqn:E; try (apply good_same; exact V). destruct (unshared N s) eqn:US; [|apply good_same; exact V].
  destruct (lookup h (tree s)) as [a|] eqn:LK.
  2: { exists s, [OClose t h None]. split; [reflexivity|]. assert (LZ : lookup h (sm z) = None) by (rewrite (v_sm _ _ _ V), lookup_map, LK; reflexivity). split.
       { cbn. split; [now rewrite LZ|exact I]. }
       cbn [afters fold_left after]. apply (quiet N s z); cbn [sm sused sfreed scur]; auto; try (apply V).
       unfold drop. assert (K : forall m : list (Z * nat), lookup h m = None -> filter (fun e => negb (fst e =? h)) m = m).
       { clear. induction m as [|[k b] m IH]; [reflexivity|]. unfold lookup. cbn. destruct (k =? h) eqn:KH; [discriminate|]. cbn. intros Q. f_equal. apply IH. exact Q. }
       apply K. exact LZ. }
  pose proof (lookup_in _ _ _ LK) as IT. destruct (live_tree N s z a h V IT) as (p & M).
  pose proof (phase_at s z a p V M) as PH. assert (LN : loc_of a (thr s t) = XNone) by (now rewrite E).
  pose proof (chg_loc a (thr s) t (TDel a)) as C. cbn [loc_of] in C. rewrite Nat.eqb_refl in C.
  assert (DI : forall h', In (h', a) (drop h (tree s)) <-> In (h', a) (tree s) /\ h' <> h) by (intros h'; apply in_drop).
  destruct (L_del N HN p _ _ _ t _ h (fun h' => In (h', a) (drop h (tree s))) L PH IT LN DI C) as (LA & PH').
  unfold reflock_ref, get, w_tree. cbn [mem]. rewrite M. cbn [bind]. rewrite LA. cbn [Z.eqb]. cbn [bind w_rst w_mem mem]. rewrite set_same. cbn [bind].
  eexists _, _. split; [reflexivity|]. cbn [pid]. split.
  { cbn [legal fair after]. split; [|exact I]. rewrite (v_sm _ _ _ V), lookup_map, LK. unfold pid_at. now rewrite M. }
  cbn [afters fold_left after]. unfold w_thr, w_rst, w_mem. cbn [mem tree hands nxt thr]. assert (UF := unshared_ok N s z V US).
  apply (upd_inv N s z _ _ a p (mkm (w32 (rst p + REF)) (iocp p) (pid p)) V M); cbn [mem tree hands nxt thr sm sused sfreed scur]; auto.
  - apply set_same.
  - intros b NB. now apply set_other.
  - intros b u NB. unfold set. destruct (Nat.eqb_spec u t) as [->|]; [|reflexivity]. rewrite E. cbn. destruct (Nat.eqb_spec a b); congruence.
  - apply (far_set N s z t _ V L).
  - intros b h1 NB. rewrite in_drop. split; [tauto|]. intros Q. split; [exact Q|]. intros ->. apply in_lookup in Q; [|apply (v_keys _ _ _ V)]. congruence.
  - apply drop_keys. apply (v_keys _ _ _ V).
  - intros t0 h0 o0. unfold set. destruct (Nat.eqb_spec t0 t); [discriminate|]. intros Q. elim (UF _ _ _ Q).
  - apply (v_hkeys _ _ _ V).
  - apply (same_hands N s z a p _ V M). reflexivity.
  - tauto.
  - rewrite (v_sm _ _ _ V). apply drop_map.
  - intros u. unfold set. destruct (Nat.eqb_spec u t) as [->|]; [rewrite (v_cur _ _ _ V); unfold cur; now rewrite E|]. apply (v_cur _ _ _ V).
Qed.
Lemma g_close s z t : Inv s z -> (t < N)%nat -> good s z (act N s (LClose t)).
Proof.
  intros V L. cbn [act]. destruct (thr s t) as [| | | | | |a| | | |] eqn:E; try (apply good_same; exact V).
  assert (LN : loc_of a (thr s t) = XDel) by (rewrite E; cbn; now rewrite Nat.eqb_refl). destruct (live_of N s z a t V) as (p & M); [rewrite LN; discriminate|].
  pose proof (phase_at s z a p V M) as PH. destruct (del_iocp N p _ _ _ t PH LN) as (h & IP).
  pose proof (chg_loc a (thr s) t (TClosed a)) as C. cbn [loc_of] in C. rewrite Nat.eqb_refl in C. pose proof (L_close N p _ _ _ t _ L PH LN C) as PH'.
  unfold get. rewrite M. cbn [bind]. rewrite IP. eexists _, []. split; [reflexivity|]. split; [exact I|].
  cbn [afters fold_left]. unfold w_thr, w_hands, w_mem. cbn [mem tree hands nxt thr].
  apply (upd_inv N s z _ _ a p (mkm (rst p) None (pid p)) V M); cbn [mem tree hands nxt thr]; auto.
  - apply set_same.
  - intros b NB. now apply set_other.
  - intros b u NB. unfold set. destruct (Nat.eqb_spec u t) as [->|]; [|reflexivity]. rewrite E. cbn. destruct (Nat.eqb_spec a b); congruence.
  - apply (far_set N s z t _ V L).
  - tauto.
  - apply (v_keys _ _ _ V).
  - thrs V t.
  - apply drop_keys. apply (v_hkeys _ _ _ V).
  - intros h1 id. rewrite in_drop. cbn [iocp]. split.
    + intros (Q & NE). left. split; [exact Q|]. intros ->. apply (v_hands _ _ _ V) in Q as (b & q & B1 & B2 & B3). rewrite (v_pid _ _ _ V b a q p B1 M B3) in B1. congruence.
    + intros [(Q & NE)|(Q & _)]; [|discriminate]. split; [exact Q|]. intros ->. assert (H1 : In (h, pid p) (hands s)) by (apply (v_hands _ _ _ V); eauto).
      apply in_lookup in H1; [|apply (v_hkeys _ _ _ V)]. apply in_lookup in Q; [|apply (v_hkeys _ _ _ V)]. congruence.
  - tauto.
  - apply (v_sm _ _ _ V).
  - intros u. unfold set. destruct (Nat.eqb_spec u t) as [->|]; [rewrite (v_cur _ _ _ V); unfold cur; now rewrite E|]. apply (v_cur _ _ _ V).
Qed.
Lemma g_destroy s z t : Inv s z -> (t < N)%nat -> good s z (act N s (LDestroy t)).
Proof.
  intros V L. cbn [act]. destruct (thr s t) as [| | | | | | |a| | |] eqn:E; try (apply good_same; exact V).
  assert (LN : loc_of a (thr s t) = XClosed) by (rewrite E; cbn; now rewrite Nat.eqb_refl). destruct (live_of N s z a t V) as (p & M); [rewrite LN; discriminate|].
  pose proof (phase_at s z a p V M) as PH. destruct (L_destroy N HN p _ _ _ t (far_loc N s z a V) L PH LN) as (LA & PH').
  unfold reflock_destroy, get. rewrite M. cbn [bind]. rewrite LA, Z.eqb_refl. cbn [bind fst snd].
  set (v := w32 (rst p + (DESTROY - REF))) in *. eexists _, []. split; [reflexivity|]. split; [exact I|].
  cbn [afters fold_left]. unfold w_thr, w_rst, w_mem. cbn [mem tree hands nxt thr]. set (c := negb (Z.land v REF_MASK =? 0)) in *. set (x := if c then TAwait a else TPoison a).
  assert (C : chg (fun u => loc_of a (thr s u)) t (if c then XAwait else XPoison) (fun u => loc_of a (set (thr s) t x u))).
  { replace (if c then XAwait else XPoison) with (loc_of a x); [apply chg_loc|]. unfold x. destruct c; cbn; now rewrite ?Nat.eqb_refl. }
  specialize (PH' _ C).
  apply (upd_inv N s z _ _ a p (mkm v (iocp p) (pid p)) V M); cbn [mem tree hands nxt thr]; auto.
  - apply set_same.
  - intros b NB. now apply set_other.
  - intros b u NB. unfold set. destruct (Nat.eqb_spec u t) as [->|]; [|reflexivity]. rewrite E. unfold x. destruct c; cbn; destruct (Nat.eqb_spec a b); congruence.
  - apply (far_set N s z t _ V L).
  - tauto.
  - apply (v_keys _ _ _ V).
  - intros t0 h0 o0. unfold set. destruct (Nat.eqb_spec t0 t); [unfold x; destruct c; discriminate|]. apply (v_found _ _ _ V).
  - apply (v_hkeys _ _ _ V).
  - apply (same_hands N s z a p _ V M). reflexivity.
  - tauto.
  - apply (v_sm _ _ _ V).
  - intros u. rewrite (v_cur _ _ _ V). unfold cur, set. destruct (Nat.eqb_spec u t) as [->|]; [rewrite E; unfold x; destruct c; reflexivity|]. reflexivity.
Qed.
Lemma g_meet s z t w : Inv s z -> (t < N)%nat -> (w < N)%nat -> good s z (act N s (LMeet t w)).
Proof.
  intros V L LW. cbn [act]. destruct (thr s t) as [| | | | |a| | | | |] eqn:E; try (apply good_same; exact V). destruct (thr s w) as [| | | | | | | |b| |] eqn:EW; try (apply good_same; exact V).
  destruct (Nat.eqb_spec a b) as [<-|]; [|apply good_same; exact V].
  assert (LN : loc_of a (thr s t) = XSig) by (rewrite E; cbn; now rewrite Nat.eqb_refl). assert (LM : loc_of a (thr s w) = XAwait) by (rewrite EW; cbn; now rewrite Nat.eqb_refl).
  destruct (live_of N s z a t V) as (p & M); [rewrite LN; discriminate|]. pose proof (phase_at s z a p V M) as PH.
  pose proof (chg_loc a (thr s) t TOut) as C. pose proof (chg_loc a (set (thr s) t TOut) w (TPoison a)) as C'. cbn [loc_of] in C, C'. rewrite Nat.eqb_refl in C'.
  pose proof (L_meet N p _ _ _ t w _ _ PH LN LM C C') as PH'. eexists _, []. split; [reflexivity|]. split; [exact I|].
  cbn [afters fold_left]. unfold w_thr. cbn [mem tree hands nxt thr]. assert (NE : w <> t) by congruence.
  apply (upd_inv N s z _ _ a p p V M); cbn [mem tree hands nxt thr]; auto.
  - intros b u NB. unfold set. destruct (Nat.eqb_spec u w) as [->|]; [rewrite EW; cbn; destruct (Nat.eqb_spec a b); congruence|]. destruct (Nat.eqb_spec u t) as [->|]; [|reflexivity]. rewrite E. cbn. destruct (Nat.eqb_spec a b); congruence.
  - intros u U. rewrite !set_other by lia. apply (v_far _ _ _ V u U).
  - tauto.
  - apply (v_keys _ _ _ V).
  - intros t0 h0 o0. unfold set. destruct (Nat.eqb_spec t0 w); [discriminate|]. destruct (Nat.eqb_spec t0 t); [discriminate|]. apply (v_found _ _ _ V).
  - apply (v_hkeys _ _ _ V).
  - apply (same_hands N s z a p _ V M). reflexivity.
  - tauto.
  - apply (v_sm _ _ _ V).
  - intros u. rewrite (v_cur _ _ _ V). unfold cur, set. destruct (Nat.eqb_spec u w) as [->|]; [now rewrite EW|]. destruct (Nat.eqb_spec u t) as [->|]; [now rewrite E|]. reflexivity.
Qed.
Lemma g_poison s z t : Inv s z -> (t < N)%nat -> good s z (act N s (LPoison t)).
Proof.
  intros V L. cbn [act]. destruct (thr s t) as [| | | | | | | | |a|] eqn:E; try (apply good_same; exact V).
  assert (LN : loc_of a (thr s t) = XPoison) by (rewrite E; cbn; now rewrite Nat.eqb_refl). destruct (live_of N s z a t V) as (p & M); [rewrite LN; discriminate|].
  pose proof (phase_at s z a p V M) as PH. pose proof (chg_loc a (thr s) t (TFree a)) as C. cbn [loc_of] in C. rewrite Nat.eqb_refl in C.
  destruct (L_poison N p _ _ _ t _ PH LN C) as (RD & PH'). unfold reflock_poison, get. rewrite M. cbn [bind]. rewrite RD, Z.eqb_refl. cbn [bind].
  eexists _, []. split; [reflexivity|]. split; [exact I|]. cbn [afters fold_left]. unfold w_thr, w_rst, w_mem. cbn [mem tree hands nxt thr].
  apply (upd_inv N s z _ _ a p (mkm POISON (iocp p) (pid p)) V M); cbn [mem tree hands nxt thr]; auto.
  - apply set_same.
  - intros b NB. now apply set_other.
  - intros b u NB. unfold set. destruct (Nat.eqb_spec u t) as [->|]; [|reflexivity]. rewrite E. cbn. destruct (Nat.eqb_spec a b); congruence.
  - apply (far_set N s z t _ V L).
  - tauto.
  - apply (v_keys _ _ _ V).
  - thrs V t.
  - apply (v_hkeys _ _ _ V).
  - apply (same_hands N s z a p _ V M). reflexivity.
  - tauto.
  - apply (v_sm _ _ _ V).
  - intros u. rewrite (v_cur _ _ _ V). unfold cur, set. destruct (Nat.eqb_spec u t) as [->|]; [now rewrite E|]. reflexivity.
Qed.
Lemma g_free s z t : Inv s z -> (t < N)%nat -> good s z (act N s (LFree t)).
Proof.
  intros V L. cbn [act]. destruct (thr s t) as [| | | | | | | | | |a] eqn:E; try (apply good_same; exact V).
  assert (LN : loc_of a (thr s t) = XFree) by (rewrite E; cbn; now rewrite Nat.eqb_refl). destruct (live_of N s z a t V) as (p & M); [rewrite LN; discriminate|].
  pose proof (phase_at s z a p V M) as PH. pose proof (chg_loc a (thr s) t TOut) as C. cbn [loc_of] in C.
  destruct (L_free N p _ _ _ t _ PH LN C) as (IP & US & NT & NX & NI). unfold get. rewrite M. cbn [bind]. rewrite IP.
  eexists _, _. split; [reflexivity|]. assert (PA : forall b, b <> a -> pid_at (w_mem s a None) b = pid_at s b) by (intros b NB; unfold pid_at, w_mem; cbn [mem]; now rewrite set_other).
  assert (TN : forall h b, In (h, b) (tree s) -> b <> a) by (intros h b Q ->; apply (NT h Q)).
  assert (CN : forall u b, loc_of b (thr s u) = XIn -> b <> a) by (intros u b Q ->; apply (NI u Q)).
  split.
  { cbn. split; [|exact I]. split; [exact US|]. split; [apply (fresh_at s z a p V M)|]. split.
    - intros h. rewrite (v_sm _ _ _ V), lookup_map. destruct (lookup h (tree s)) as [b|] eqn:LK; [|discriminate]. apply lookup_in in LK. intros Q. injection Q as Q.
      destruct (live_tree N s z b h V LK) as (q & QB). unfold pid_at in Q. rewrite QB in Q. apply (TN h b LK). apply (v_pid _ _ _ V b a q p QB M Q).
    - intros u. rewrite (v_cur _ _ _ V). unfold cur. intros Q.
      assert (K : exists b, loc_of b (thr s u) = XIn /\ pid_at s b = pid p).
      { destruct (thr s u); try discriminate; injection Q as Q; eexists; split; [cbn; now rewrite Nat.eqb_refl|exact Q|cbn; now rewrite Nat.eqb_refl|exact Q]. }
      destruct K as (b & K1 & K2). destruct (live_of N s z b u V) as (q & QB); [rewrite K1; discriminate|]. unfold pid_at in K2. rewrite QB in K2.
      apply (CN u b K1). apply (v_pid _ _ _ V b a q p QB M K2). }
  cbn [afters fold_left after]. unfold w_thr. cbn [w_mem mem tree hands nxt thr].
  constructor; [|cbn [mem tree hands nxt thr sm sused sfreed scur] ..].
  - intros b. destruct (Nat.eq_dec b a) as [->|NB].
    + cbn [mem tree hands nxt thr]. rewrite set_same. split; [exact NT|exact NX].
    + apply (here_other N s z); cbn [mem tree hands nxt thr sused sfreed]; [apply (v_here _ _ _ V b)|now rewrite set_other|tauto| |].
      * intros u. unfold set. destruct (Nat.eqb_spec u t) as [->|]; [|reflexivity]. rewrite E. cbn. destruct (Nat.eqb_spec a b); congruence.
      * intros q Q. split; [tauto|]. cbn. split; [|auto]. intros [W|W]; [|exact W]. elim NB. apply (v_pid _ _ _ V b a q p Q M). congruence.
  - apply (v_keys _ _ _ V).
  - thrs V t.
  - apply (far_set N s z t _ V L).
  - apply (v_hkeys _ _ _ V).
  - intros h id. rewrite (v_hands _ _ _ V). split; intros (b & q & B1 & B2 & B3).
    + exists b, q. rewrite set_other; [auto|]. intros ->. congruence.
    + exists b, q. destruct (Nat.eq_dec b a) as [->|NB]; [rewrite set_same in B1; discriminate|]. rewrite set_other in B1 by exact NB. auto.
  - intros b c q r B D. destruct (Nat.eq_dec b a) as [->|NB]; [rewrite set_same in B; discriminate|]. destruct (Nat.eq_dec c a) as [->|NC]; [rewrite set_same in D; discriminate|].
    rewrite set_other in B by exact NB. rewrite set_other in D by exact NC. apply (v_pid _ _ _ V b c q r B D).
  - intros b q B. destruct (Nat.eq_dec b a) as [->|NB]; [rewrite set_same in B; discriminate|]. rewrite set_other in B by exact NB. apply (v_nxt _ _ _ V b q B).
  - rewrite (v_sm _ _ _ V). apply map_ext_in. intros [h b] IB. cbn. f_equal. symmetry. unfold pid_at. cbn [mem]. rewrite set_other; [reflexivity|]. apply (TN h b IB).
  - intros u. rewrite (v_cur _ _ _ V). unfold cur. cbn [thr]. unfold set at 1. destruct (Nat.eqb_spec u t) as [->|NU]; [now rewrite E|].
    assert (K : forall b, loc_of b (thr s u) = XIn -> pid_at s b = pid_at {| mem := set (mem s) a None; tree := tree s; hands := hands s; nxt := nxt s; thr := set (thr s) t TOut |} b).
    { intros b Q. unfold pid_at. cbn [mem]. rewrite set_other; [reflexivity|]. apply (CN u b Q). }
    destruct (thr s u) eqn:EU; try reflexivity; f_equal; apply K; cbn; now rewrite Nat.eqb_refl.
  - apply (v_used _ _ _ V).
  - intros id [<-|Q]; [apply (v_nxt _ _ _ V a p M)|apply (v_freed _ _ _ V id Q)].
Qed.

Lemma step_good s z l : Inv s z -> calm_label s l -> good s z (step N s l).
Proof.
  intros V C. unfold step. destruct (forallb _ (who l)) eqn:W; [|apply good_same; exact V].
  destruct l; cbn [who forallb] in W; rewrite ?andb_true_r in W; try apply andb_true_iff in W as (W & W2); apply Nat.ltb_lt in W; try apply Nat.ltb_lt in W2.
  - now apply g_create.
  - cbn [act]. destruct (thr s t); try (apply good_same; exact V). exists s, [OCreate t None]. split; [reflexivity|]. split; [split; exact I|exact V].
  - now apply g_add.
  - now apply g_find.
  - now apply g_ref.
  - now apply g_use.
  - now apply g_load.
  - now apply g_take.
  - now apply g_unref.
  - now apply g_del.
  - now apply g_close.
  - now apply g_destroy.
  - now apply g_meet.
  - now apply g_poison.
  - now apply g_free.
Qed.
Lemma inv0 : Inv world0 spec0.
Proof.
  constructor; cbn; auto; try discriminate; try easy; try constructor.
  - intros H. contradiction.
  - intros (a & p & H & _). discriminate.
Qed.
Lemma run_good ls : forall s z, Inv s z -> calm N s ls -> good s z (run N s ls).
Proof.
  induction ls as [|l ls IH]; intros s z V C; [apply good_same; exact V|]. cbn in C. destruct C as (C1 & C2). cbn [run].
  destruct (step_good s z l V C1) as (s1 & o1 & S1 & L1 & V1). rewrite S1. cbn [bind fst snd]. destruct (IH s1 _ V1 (C2 _ _ S1)) as (s2 & o2 & S2 & L2 & V2).
  rewrite S2. cbn [bind fst snd]. exists s2, (o1 ++ o2). split; [reflexivity|]. split; [apply legal_app; assumption|]. rewrite afters_app. exact V2.
Qed.
End Threads.
