(* What the invariant says about threads and heaps. *)
From Coq Require Import List Bool Arith Lia.
From Verif Require Import Base HpModel HpProofs HpProofs2.
Import ListNotations.

(* the first allocation, up to the point where everything is set up *)
Definition first_use (t : nat) : list (nat * choice) := repeat (t, Malloc) 6.

Lemma first_use_inv : forall t, exists s, run None (first_use t) cold = Ok s /\ Inv s [] /\ (forall u, tls s u = None) /\
  (forall u, u <> t -> at_ s u = Idle) /\ fresh s = 0 /\ owner s = (fun _ => None).
Proof.
  intros t.
  assert (E : exists s, run None (first_use t) cold = Ok s /\ inited s = true /\ key s = true /\ lock s = false /\ hd s = None /\
    owner s = (fun _ => None) /\ fresh s = 0 /\ tls s = (fun _ => None) /\ at_ s t = M5 /\ forall u, u <> t -> at_ s u = Idle).
  { unfold first_use. cbn [repeat run]. do 6 (unfold step at 1; unfold cold; simp; cbn [bind]).
    eexists. split; [reflexivity|]. simp. do 8 (split; [reflexivity|]). intros u Hu. rewrite !upd_other by exact Hu. reflexivity. }
  destruct E as (s & E & E1 & E2 & E3 & E4 & E5 & E6 & E7 & E8 & E9). exists s. split; [exact E|].
  assert (HA : forall u, at_ s u = M5 \/ at_ s u = Idle) by (intros u; destruct (Nat.eq_dec u t) as [->|Ne]; auto).
  assert (HH : forall u x, ~ holds s u x).
  { intros u x [D|D]; [rewrite E7 in D; discriminate|]. destruct (HA u) as [A|A]; rewrite A in D; exact D. }
  split; [|split; [intros u; rewrite E7; reflexivity|auto]].
  constructor.
  - auto.
  - intros _ u D. destruct (HA u) as [A|A]; rewrite A in D; exact D.
  - intros u v D. destruct (HA u) as [A|A]; rewrite A in D; contradiction.
  - congruence.
  - rewrite E4. reflexivity.
  - constructor.
  - intros x [].
  - intros u x D. destruct (HH u x D).
  - rewrite E6. intros x D. lia.
  - intros u. destruct (HA u) as [A|A]; rewrite A; exact I.
  - intros u. destruct (HA u) as [A|A]; rewrite A; exact I.
  - rewrite E5. discriminate.
Qed.

(* the thread that has a heap is its owner *)
Definition Own (s : st) : Prop := forall t h, tls s t = Some h -> at_ s t <> A7 h -> owner s h = Some t.

Lemma own_step : forall s q t c s', Inv s q -> Own s -> step None t c s = Ok s' -> Own s'.
Proof.
  intros s q t c s' H HO Hs u h Hu Hp.
  pose proof (V_fits _ _ H t) as Hf. pose proof (V_fits _ _ H u) as Hfu. pose proof (V_init _ _ H) as (Hi & Hk).
  assert (Hdiff : forall x, holds s t x -> tls s u = Some x -> u = t).
  { intros x Hx Ht. apply (V_holds _ _ H t x Hx). left. exact Ht. }
  unfold step in Hs.
  destruct (at_ s t) as [| | | | | | | | | |o| |hh j e|hh j e|o|hh|hh|hh|hh| |hh|hh|hh|hh|hh|hh| |] eqn:E; cbn [fits] in Hf; try contradiction;
    rewrite ?Hi, ?Hk in Hs.
  all: try (injection Hs as <-; simp; apply HO; [exact Hu|]; unfold upd in Hp; destruct (Nat.eqb_spec u t) as [->|]; [rewrite E; discriminate|exact Hp]).
  - (* Idle *)
    destruct c as [|g| | |k|].
    + injection Hs as <-. simp. apply HO; [exact Hu|]. unfold upd in Hp. destruct (Nat.eqb_spec u t) as [->|]; [rewrite E; discriminate|exact Hp].
    + injection Hs as <-. destruct (owner s g) as [v|]; [|auto]. destruct (Nat.eqb v t); [|auto].
      simp. apply HO; [exact Hu|]. unfold upd in Hp. destruct (Nat.eqb_spec u t) as [->|]; [rewrite E; discriminate|exact Hp].
    + injection Hs as <-. simp. apply HO; [exact Hu|]. unfold upd in Hp. destruct (Nat.eqb_spec u t) as [->|]; [rewrite E; discriminate|exact Hp].
    + destruct (tls s t) as [x|]; injection Hs as <-; [|auto]. simp. unfold upd in Hu, Hp. destruct (Nat.eqb_spec u t) as [->|]; [discriminate|]. auto.
    + injection Hs as <-. auto.
    + injection Hs as <-. auto.
  - (* A0 *) injection Hs as <-. destruct (lock s); [auto|]. simp. apply HO; [exact Hu|]. unfold upd in Hp. destruct (Nat.eqb_spec u t) as [->|]; [rewrite E; discriminate|exact Hp].
  - (* A2 *) destruct o; injection Hs as <-; simp; apply HO; try exact Hu; unfold upd in Hp; destruct (Nat.eqb_spec u t) as [->|]; try (rewrite E; discriminate); exact Hp.
  - (* A3 *) destruct c as [|g| | |k|]; injection Hs as <-; auto; simp; (apply HO; [exact Hu|]); unfold upd in Hp; destruct (Nat.eqb_spec u t) as [->|]; try (rewrite E; discriminate); exact Hp.
  - (* A4 *) injection Hs as <-. simp. pose proof (V_shape _ _ H t) as Hsh. rewrite E in Hsh. cbn in Hsh.
    assert (Hj : holds s t j) by (right; rewrite E; cbn; lia).
    unfold upd at 1. destruct (Nat.eqb_spec h j) as [->|].
    + exfalso. rewrite (Hdiff _ Hj Hu) in Hu. congruence.
    + apply HO; [exact Hu|]. unfold upd in Hp. destruct (Nat.eqb_spec u t) as [->|]; [rewrite E; discriminate|exact Hp].
  - (* A6 *) injection Hs as <-. simp. unfold upd in Hu, Hp. destruct (Nat.eqb_spec u t) as [->|]; [|auto]. injection Hu as <-. congruence.
  - (* A7 *) injection Hs as <-. simp. unfold upd at 1. destruct (Nat.eqb_spec h hh) as [->|Nh].
    + f_equal. symmetry. apply (Hdiff hh); [left; exact Hf|exact Hu].
    + apply HO; [exact Hu|]. unfold upd in Hp. destruct (Nat.eqb_spec u t) as [->|]; [rewrite E; congruence|exact Hp].
  - (* R2 *) injection Hs as <-. simp. destruct (tls s t) as [g|] eqn:Et.
    + assert (g = hh) as -> by (destruct Hf; congruence). rewrite Nat.eqb_refl in *. cbn [tls at_ owner] in *.
      unfold upd in Hu, Hp. destruct (Nat.eqb_spec u t) as [->|]; [discriminate|]. auto.
    + apply HO; [exact Hu|]. unfold upd in Hp. destruct (Nat.eqb_spec u t) as [->|]; [rewrite E; discriminate|exact Hp].
  - (* R3 *) injection Hs as <-. destruct (lock s); [auto|]. simp. apply HO; [exact Hu|]. unfold upd in Hp. destruct (Nat.eqb_spec u t) as [->|]; [rewrite E; discriminate|exact Hp].
  - (* R4 *) injection Hs as <-. simp. assert (Hj : holds s t hh) by (right; rewrite E; reflexivity).
    unfold upd at 1. destruct (Nat.eqb_spec h hh) as [->|].
    + exfalso. rewrite (Hdiff _ Hj Hu) in Hu. congruence.
    + apply HO; [exact Hu|]. unfold upd in Hp. destruct (Nat.eqb_spec u t) as [->|]; [rewrite E; discriminate|exact Hp].
  - (* R8 *) injection Hs as <-. simp. unfold upd in Hu, Hp. destruct (Nat.eqb_spec u t) as [->|]; [discriminate|]. auto.
Qed.

Lemma run_own : forall l s q, Inv s q -> Own s -> exists s' q', run None l s = Ok s' /\ Inv s' q' /\ Own s'.
Proof.
  induction l as [|[t c] r IH]; intros s q H HO; cbn [run]; [eauto|].
  destruct (step_inv s q t c H) as (s1 & q1 & E & H1). rewrite E. cbn [bind]. apply (IH s1 q1 H1). exact (own_step _ _ _ _ _ H HO E).
Qed.

Lemma run_app : forall main l1 l2 s, run main (l1 ++ l2) s = do s1 <- run main l1 s; run main l2 s1.
Proof.
  intros main. induction l1 as [|[t c] r IH]; intros l2 s; cbn [app run]; [reflexivity|].
  destruct (step main t c s); cbn [bind]; auto.
Qed.

Lemma all_runs : forall t l, exists s q, run None (first_use t ++ l) cold = Ok s /\ Inv s q /\ Own s.
Proof.
  intros t l. destruct (first_use_inv t) as (s & E & H & Ht & _). rewrite run_app, E. cbn [bind].
  apply (run_own l s [] H). intros u h Hu. rewrite Ht in Hu. discriminate.
Qed.

(* -- statements -- *)
Lemma never_two : forall t l, exists s, run None (first_use t ++ l) cold = Ok s /\ forall a b h, inside s a h -> inside s b h -> a = b.
Proof.
  intros t l. destruct (all_runs t l) as (s & q & E & H & _). exists s. split; [exact E|]. intros a b h Ha Hb.
  assert (G : forall u, inside s u h -> holds s u h).
  { intros u Hu. right. unfold inside in Hu. destruct (at_ s u); try contradiction; cbn; auto. }
  symmetry. apply (V_holds _ _ H a h (G a Ha)), G, Hb.
Qed.

(* where a heap is: waiting for a thread, or with one *)
Fixpoint walk (n : nat -> option nat) (o : option nat) (k : nat) : option nat :=
  match k with 0 => o | S k' => match o with Some x => walk n (n x) k' | None => None end end.
Definition orphan_at (s : st) (n : nat) : option nat := walk (nxt s) (hd s) n.

Lemma walk_chain : forall n q o k, chain n o q -> walk n o k = nth_error q k.
Proof.
  intros n. induction q as [|x q IH]; intros o k H.
  - cbn in H. subst o. destruct k; reflexivity.
  - destruct H as (-> & H). destruct k as [|k]; [reflexivity|]. cbn. apply IH, H.
Qed.

Lemma one_place : forall t l, exists s q, run None (first_use t ++ l) cold = Ok s /\
  (forall n, orphan_at s n = nth_error q n) /\ NoDup q /\
  (forall x, In x q -> x < fresh s /\ owner s x = None /\ forall u, tls s u <> Some x) /\
  (forall u v x, tls s u = Some x -> tls s v = Some x -> u = v) /\
  ((forall u, at_ s u = Idle) -> lock s = false /\ forall x, x < fresh s -> In x q \/ exists u, tls s u = Some x).
Proof.
  intros t l. destruct (all_runs t l) as (s & q & E & H & _). exists s, q. split; [exact E|]. split.
  { intros n. unfold orphan_at. apply walk_chain, H. }
  split; [apply H|]. split.
  { intros x Hx. destruct (V_queue _ _ H x Hx) as (A & B & C). split; [exact A|]. split; [exact B|]. intros u Hu. apply (C u). left. exact Hu. }
  split.
  { intros u v x Hu Hv. symmetry. apply (V_holds _ _ H u x (or_introl Hu)). left. exact Hv. }
  intros Hidle. split.
  - destruct (lock s) eqn:El; [|reflexivity]. destruct (V_held _ _ H El) as (u & Hc). rewrite Hidle in Hc. contradiction.
  - intros x Hx. destruct (V_all _ _ H x Hx) as [A|(u & [A|A])]; [auto|eauto|]. rewrite Hidle in A. contradiction.
Qed.

(* a free works in the block's heap directly exactly when the heap is the thread's own *)
Lemma free_direct : forall t l u g, exists s, run None (first_use t ++ l) cold = Ok s /\
  (at_ s u = Idle -> exists s', step None u (Free g) s = Ok s' /\ (inside s' u g <-> tls s u = Some g)).
Proof.
  intros t l u g. destruct (all_runs t l) as (s & q & E & H & HO). exists s. split; [exact E|]. intros Hi.
  unfold step. rewrite Hi. eexists. split; [reflexivity|].
  destruct (owner s g) as [v|] eqn:Eo.
  - destruct (Nat.eqb_spec v u) as [->|Nv].
    + pose proof (V_owner _ _ H _ _ Eo) as Ho. rewrite Hi in Ho. cbn in Ho. unfold inside. simp.
      destruct Ho as [(Ho & _)|[]]. tauto.
    + unfold inside. rewrite Hi. split; [contradiction|]. intros Ht. rewrite (HO u g Ht) in Eo; [congruence|]. rewrite Hi. discriminate.
  - unfold inside. rewrite Hi. split; [contradiction|]. intros Ht. rewrite (HO u g Ht) in Eo; [congruence|]. rewrite Hi. discriminate.
Qed.

(* the thread with the lock gives it back, whatever the others do not do *)
Definition left_ (p : pc) : nat :=
  match p with
  | A1 => 4 | A2 _ => 3 | A3 => 2 | A4 _ j e => 1 + 2 * (e - j) | A4w _ j e => 2 * (e - j) | A5 _ => 1
  | R4 _ => 4 | R5 _ => 3 | R6 _ => 2 | R7 => 1 | _ => 0
  end.

Lemma lock_back : forall t l, exists s, run None (first_use t ++ l) cold = Ok s /\
  (lock s = true -> exists u n s', run None (repeat (u, Mem 0) n) s = Ok s' /\ lock s' = false).
Proof.
  intros t l. destruct (all_runs t l) as (s & q & E & H & _). exists s. split; [exact E|]. intros Hl.
  destruct (V_held _ _ H Hl) as (u & Hc). exists u. clear E Hl.
  assert (G : forall n s q, Inv s q -> left_ (at_ s u) <= n -> crit (at_ s u) -> exists m s', run None (repeat (u, Mem 0) m) s = Ok s' /\ lock s' = false).
  { clear s q H Hc. induction n as [|n IH]; intros s q H Hn Hc.
    - pose proof (V_shape _ _ H u) as Hs. destruct (at_ s u); cbn in *; try contradiction; try lia.
    - assert (Hend : forall s1, step None u (Mem 0) s = Ok s1 -> lock s1 = false -> exists m s', run None (repeat (u, Mem 0) m) s = Ok s' /\ lock s' = false).
      { intros s1 E1 El. exists 1, s1. cbn. rewrite E1. auto. }
      assert (Hmore : forall s1, step None u (Mem 0) s = Ok s1 -> left_ (at_ s1 u) <= n -> crit (at_ s1 u) -> exists m s', run None (repeat (u, Mem 0) m) s = Ok s' /\ lock s' = false).
      { intros s1 E1 Hle Hc1. destruct (step_inv s q u (Mem 0) H) as (s2 & q2 & E2 & H2). assert (s2 = s1) as -> by congruence.
        destruct (IH s1 q2 H2 Hle Hc1) as (m & s' & Em & El). exists (S m), s'. cbn. rewrite E1. auto. }
      pose proof (V_shape _ _ H u) as Hs. unfold step in Hend, Hmore.
      destruct (at_ s u) as [| | | | | | | | | |o| |hh j e|hh j e|o|hh|hh|hh|hh| |hh|hh|hh|hh|hh|hh| |] eqn:Ea; cbn in Hc; try contradiction; cbn in Hn.
      + eapply Hmore; [reflexivity| |]; simp; cbn; auto; lia.
      + destruct o; (eapply Hmore; [reflexivity| |]; simp; cbn; auto; lia).
      + eapply Hmore; [reflexivity| |]; simp; cbn; auto; lia.
      + cbn in Hs. eapply Hmore; [reflexivity| |]; simp; cbn; auto; lia.
      + cbn in Hs. eapply Hmore; [reflexivity| |]; simp; destruct (Nat.ltb_spec (S j) e); cbn; auto; lia.
      + eapply Hend; [reflexivity|]. reflexivity.
      + eapply Hmore; [reflexivity| |]; simp; cbn; auto; lia.
      + eapply Hmore; [reflexivity| |]; simp; cbn; auto; lia.
      + eapply Hmore; [reflexivity| |]; simp; cbn; auto; lia.
      + eapply Hend; [reflexivity|]. reflexivity. }
  destruct (G _ s q H (le_n _) Hc) as (n & s' & En & El). eauto.
Qed.

(* a thread without a heap gets one that waits, and asks for memory only when none does *)
Lemma alone : forall t l u k, exists s, run None (first_use t ++ l) cold = Ok s /\
  (at_ s u = Idle -> tls s u = None -> lock s = false ->
   exists n s' h, run None ((u, Malloc) :: repeat (u, Mem k) n) s = Ok s' /\ inside s' u h /\ tls s' u = Some h /\ owner s' h = Some u /\
     match hd s with Some x => h = x /\ fresh s' = fresh s /\ hd s' = nxt s x | None => h = fresh s /\ fresh s' = fresh s + 1 + k end).
Proof.
  intros t l u k. destruct (all_runs t l) as (s & q & E & H & HO). exists s. split; [exact E|]. intros Hi Ht Hl.
  pose proof (V_init _ _ H) as (H1 & H2). clear E HO.
  destruct (hd s) as [x|] eqn:Eh.
  - exists 9. cbn [repeat run]. do 10 (unfold step at 1; simp; rewrite ?Hi, ?H1, ?H2, ?Ht, ?Hl, ?Eh; cbn [bind]).
    eexists _, x. split; [reflexivity|]. unfold inside. simp. auto 10.
  - assert (G : forall d s1 h j e, at_ s1 u = A4 h j e -> e - j = S d -> j < e -> exists s2, run None (repeat (u, Mem k) (2 * S d)) s1 = Ok s2 /\ at_ s2 u = A5 (Some h) /\ fresh s2 = fresh s1).
    { induction d as [|d IH]; intros s1 h j e Ea Hd Hj.
      - cbn [Nat.mul Nat.add repeat run]. unfold step at 1. rewrite Ea. cbn [bind]. unfold step at 1. simp. cbn [bind].
        destruct (Nat.ltb_spec (S j) e); [lia|]. eexists. split; [reflexivity|]. simp. auto.
      - replace (2 * S (S d)) with (S (S (2 * S d))) by lia. cbn [repeat run]. unfold step at 1. rewrite Ea. cbn [bind]. unfold step at 1. simp. cbn [bind].
        destruct (Nat.ltb_spec (S j) e); [|lia]. lazymatch goal with |- context [run None _ ?z] => set (z' := z) end.
        assert (Ez : at_ z' u = A4 h (S j) e) by (unfold z'; cbn [at_]; apply upd_same). assert (Fz : fresh z' = fresh s1) by reflexivity. clearbody z'.
        destruct (IH z' h (S j) e Ez) as (s2 & E2 & A2' & F2); [lia|lia|].
        exists s2. split; [exact E2|]. split; [exact A2'|congruence]. }
    assert (P : exists n s1, run None ((u, Malloc) :: repeat (u, Mem k) n) s = Ok s1 /\ at_ s1 u = A5 (Some (fresh s)) /\ fresh s1 = fresh s + 1 + k).
    { assert (P0 : exists s1, run None ((u, Malloc) :: repeat (u, Mem k) 7) s = Ok s1 /\ fresh s1 = fresh s + 1 + k /\
                at_ s1 u = if Nat.eqb k 0 then A5 (Some (fresh s)) else A4 (fresh s) (fresh s + 1) (fresh s + 1 + k)).
      { cbn [repeat run]. do 8 (unfold step at 1; simp; rewrite ?Hi, ?H1, ?H2, ?Ht, ?Hl, ?Eh; cbn [bind]).
        eexists. split; [reflexivity|]. simp. auto. }
      destruct P0 as (s1 & E1 & F1 & A1'). destruct (Nat.eqb_spec k 0) as [->|Nk]; [eauto|].
      destruct (G (k - 1) s1 _ _ _ A1') as (s2 & E2 & A2' & F2); [lia|lia|].
      exists (7 + 2 * S (k - 1)), s2. rewrite repeat_app. change ((u, Malloc) :: repeat (u, Mem k) 7 ++ repeat (u, Mem k) (2 * S (k - 1))) with (((u, Malloc) :: repeat (u, Mem k) 7) ++ repeat (u, Mem k) (2 * S (k - 1))).
      rewrite run_app, E1. cbn [bind]. rewrite E2. split; [reflexivity|]. split; [exact A2'|lia]. }
    destruct P as (n & s1 & E1 & A1' & F1). exists (n + 3). rewrite repeat_app.
    change ((u, Malloc) :: repeat (u, Mem k) n ++ repeat (u, Mem k) 3) with (((u, Malloc) :: repeat (u, Mem k) n) ++ repeat (u, Mem k) 3).
    rewrite run_app, E1. cbn [bind repeat run]. do 3 (unfold step at 1; simp; rewrite ?A1'; cbn [bind]).
    eexists _, (fresh s). split; [reflexivity|]. unfold inside. simp. auto 10.
Qed.
