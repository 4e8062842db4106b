(* Specification and proofs for SignalModel. *)
From Verif Require Import Base SignalModel.

(* ---- specification ---- *)
(* what the caller may rely on: the last callback registered per signal *)
Definition regs := Z -> option nat.
(* rules: a signal is removed only from its own callback, once, and not after registering it again there;
   callbacks return *)
Fixpoint legal_body (g : Z) (armed : bool) (l : list sop) : bool :=
  match l with
  | [] => true
  | SAdd s _ _ :: k => legal_body g (armed && negb (s =? g)%Z) k
  | SDel s :: k => armed && (s =? g)%Z && legal_body g false k
  end.
Definition legal_act (a : act) : bool :=
  match a with Op (SAdd _ _ _) => true | Op (SDel _) => false | Sig g b ret => ret && legal_body g true b end.
(* registrations after some operations with the given results *)
Fixpoint reg_sops (r : regs) (l : list sop) (rs : list Z) : regs :=
  match l, rs with
  | SAdd s h _ :: k, v :: rs' => reg_sops (if (v =? 0)%Z then upd r s (Some h) else r) k rs'
  | SDel s :: k, _ :: rs' => reg_sops (upd r s None) k rs'
  | _, _ => r
  end.
Fixpoint expected (r : regs) (l : list act) (rs : list (list Z)) : list (Z * option nat) :=
  match l, rs with
  | Op o :: k, v :: rs' => expected (reg_sops r [o] v) k rs'
  | Sig g b _ :: k, v :: rs' => (g, r g) :: expected (match r g with Some _ => reg_sops r b v | None => r end) k rs'
  | _, _ => []
  end.

(* ---- proofs ---- *)
Lemma find_idx_iff {A} (p : A -> bool) l i : find_idx p l = Some i <->
  (exists x, nth_error l i = Some x /\ p x = true) /\ forall j y, j < i -> nth_error l j = Some y -> p y = false.
Proof.
  revert i; induction l as [|x l IH]; intros i; cbn.
  - split; [discriminate|]. intros [(y & H & _) _]. now destruct i.
  - destruct (p x) eqn:E.
    + split.
      * intros [= <-]. split; [exists x; auto|]. intros; lia.
      * intros [_ H]. destruct i as [|i]; [reflexivity|]. specialize (H 0 x ltac:(lia) eq_refl). congruence.
    + destruct (find_idx p l) as [k|] eqn:F; cbn.
      * split.
        -- intros [= <-]. destruct (proj1 (IH k) eq_refl) as [(y & N & P) L]. split; [exists y; auto|].
           intros [|j] z J Z; cbn in Z; [congruence|]. apply (L j z); [lia|exact Z].
        -- intros [(y & N & P) L]. destruct i as [|i]; cbn in N; [congruence|]. f_equal. f_equal. 
           enough (Some k = Some i) by congruence. apply IH. split; [eauto|]. intros j z J Z. apply (L (S j) z); [lia|exact Z].
      * split; [discriminate|]. intros [(y & N & P) L]. destruct i as [|i]; cbn in N; [congruence|].
        enough (None = Some i) by discriminate. apply IH. split; [eauto|]. intros j z J Z. apply (L (S j) z); [lia|exact Z].
Qed.

Definition is_of (g : Z) (x : slot) : bool := (ssig x =? g)%Z && negb (no_proc x).
Definition first_is (l : list slot) (g : Z) (i : nat) (h : nat) : Prop :=
  (exists x, nth_error l i = Some x /\ ssig x = g /\ sproc x = Some h) /\
  (forall j y, j < i -> nth_error l j = Some y -> is_of g y = false).
Lemma first_find l g i h : first_is l g i h -> find_idx (fun x => (ssig x =? g)%Z && negb (no_proc x)) l = Some i.
Proof.
  intros [(x & N & S & P) L]. apply find_idx_iff. split; [|exact L]. exists x. split; [exact N|].
  unfold no_proc. rewrite P, S, Z.eqb_refl. reflexivity.
Qed.
Lemma set_nth_get {A} i j (v : A) l : i < length l -> nth_error (set_nth i v l) j = if j =? i then Some v else nth_error l j.
Proof. intros H. destruct (Nat.eqb_spec j i) as [->|N]; [now apply set_nth_same|apply set_nth_other; lia]. Qed.
Lemma nth_lt {A} (l : list A) i x : nth_error l i = Some x -> i < length l.
Proof. intros H. apply nth_error_Some. congruence. Qed.

(* writing slot i keeps the first slot of g when slot i is not of g before nor after *)
Lemma first_keep l g k h i v old : first_is l g k h -> nth_error l i = Some old -> k <> i -> is_of g v = false -> first_is (set_nth i v l) g k h.
Proof.
  intros [(x & N & S & P) L] O NE V. pose proof (nth_lt _ _ _ O) as B. split.
  - exists x. rewrite set_nth_get by assumption. destruct (Nat.eqb_spec k i); [contradiction|auto].
  - intros j y J Y. rewrite set_nth_get in Y by assumption. destruct (Nat.eqb_spec j i); [congruence|exact (L j y J Y)].
Qed.
(* changing only srun *)
Lemma first_run l g k h i x b : first_is l g k h -> nth_error l i = Some x -> first_is (set_nth i {| ssig := ssig x; sproc := sproc x; srun := b |} l) g k h.
Proof.
  intros [(y & N & S & P) L] O. pose proof (nth_lt _ _ _ O) as B. split.
  - rewrite set_nth_get by assumption. destruct (Nat.eqb_spec k i) as [->|].
    + rewrite O in N. injection N as ->. eexists; split; [reflexivity|]. auto.
    + eauto.
  - intros j z J Z. rewrite set_nth_get in Z by assumption. destruct (Nat.eqb_spec j i) as [->|].
    + injection Z as <-. specialize (L i x J O). exact L.
    + exact (L j z J Z).
Qed.

Definition inv (s : sst) (r : regs) : Prop := forall g,
  match r g with
  | Some h => disp s g = true /\ exists i, first_is (slots s) g i h /\ tgts s g = {| tset := true; tidx := i; tloop := true |}
  | None => disp s g = false
  end.
(* while the callback of g runs and may still remove itself *)
Definition armed_in (s : sst) (g : Z) : Prop := exists h i x, disp s g = true /\ first_is (slots s) g i h /\ tgts s g = {| tset := true; tidx := i; tloop := true |} /\
  nth_error (slots s) i = Some x /\ srun x = true.

Lemma add_inv s r g h ok s' v : inv s r -> sig_add s g h ok = (s', v) -> inv s' (if (v =? 0)%Z then upd r g (Some h) else r) /\
  (forall c, c <> g -> armed_in s c -> armed_in s' c) /\ running s' = running s /\ log s' = log s.
Proof.
  intros I. unfold sig_add. destruct (find_idx _ (slots s)) as [i|] eqn:F; [|intros [= <- <-]; cbn; auto].
  destruct ok; [|intros [= <- <-]; cbn; auto]. intros [= <- <-]. cbn [Z.eqb]. apply find_idx_iff in F. destruct F as [(x & N & P) L].
  pose proof (nth_lt _ _ _ N) as B.
  assert (KEEP : forall c k hh, c <> g -> first_is (slots s) c k hh -> first_is (set_nth i {| ssig := g; sproc := Some h; srun := false |} (slots s)) c k hh).
  { intros c k hh NE FI. apply first_keep with (old := x); [exact FI|exact N| |unfold is_of; cbn; destruct (Z.eqb_spec g c); [congruence|reflexivity]].
    intros ->. destruct FI as [(y & N' & S' & P') _]. rewrite N in N'. injection N' as ->. unfold no_proc in P. rewrite P', S' in P. cbn in P.
    apply Z.eqb_eq in P. contradiction. }
  split; [|split; [|split; reflexivity]].
  - intros c. unfold upd at 1. destruct (Z.eqb_spec c g) as [->|NE].
    + cbn. unfold upd. rewrite Z.eqb_refl. split; [reflexivity|]. exists i. split; [|reflexivity]. split.
      * eexists. rewrite set_nth_same by assumption. split; [reflexivity|]. auto.
      * intros j y J Y. rewrite set_nth_other in Y by lia. specialize (L j y J Y). apply orb_false_iff in L. unfold is_of. destruct L as [_ ->]. reflexivity.
    + cbn. specialize (I c). unfold upd. destruct (Z.eqb_spec c g); [contradiction|]. destruct (r c) as [hh|]; [|exact I].
      destruct I as (D & k & FI & T). split; [exact D|]. exists k. split; [apply KEEP; assumption|exact T].
  - intros c NE (hh & k & y & D & FI & T & N' & R). exists hh, k, y. cbn. unfold upd. destruct (Z.eqb_spec c g); [contradiction|].
    split; [exact D|]. split; [now apply KEEP|]. split; [exact T|]. split; [|exact R].
    rewrite set_nth_other; [exact N'|]. intros ->. destruct FI as [(z & N2 & S2 & P2) _]. rewrite N in N2. injection N2 as ->.
    unfold no_proc in P. rewrite P2, S2 in P. cbn in P. apply Z.eqb_eq in P. contradiction.
Qed.

Lemma del_inv s r g : inv s r -> armed_in s g -> exists s', sig_del s g = Ok (s', 0%Z) /\ inv s' (upd r g None) /\ running s' = running s /\ log s' = log s.
Proof.
  intros I (h & i & x & D & FI & T & N & R). unfold sig_del. rewrite T. cbn [tset tidx tloop]. rewrite (rd_ok _ _ _ N). cbn [bind].
  pose proof FI as [(y & N' & S & P) L]. rewrite N in N'. injection N' as <-. rewrite S, Z.eqb_refl, R. cbn [andb].
  eexists. split; [reflexivity|]. split; [|split; reflexivity]. intros c. unfold upd at 1. cbn [slots disp tgts].
  unfold upd. destruct (Z.eqb_spec c g) as [->|NE]; [reflexivity|]. specialize (I c). destruct (r c) as [hh|]; [|exact I].
  destruct I as (D' & k & FI' & T'). split; [exact D'|]. exists k. split; [|exact T'].
  apply first_keep with (old := x); [exact FI'|exact N| |unfold is_of; cbn; apply andb_false_r].
  intros ->. destruct FI' as [(z & N2 & S2 & _) _]. rewrite N in N2. injection N2 as ->. congruence.
Qed.

Lemma body_inv g l : forall s r armed, inv s r -> (armed = true -> armed_in s g) -> legal_body g armed l = true ->
  exists s' rs, do_sops s l = Ok (s', rs) /\ length rs = length l /\ inv s' (reg_sops r l rs) /\ running s' = running s /\ log s' = log s.
Proof.
  induction l as [|o l IH]; intros s r armed I A LG; cbn [do_sops legal_body] in *.
  - exists s, []. auto 6.
  - destruct o as [c h ok|c]; cbn [do_sop].
    + destruct (sig_add s c h ok) as [s1 v] eqn:E. cbn [bind fst snd].
      destruct (add_inv s r c h ok s1 v I E) as (I1 & K & R1 & L1).
      destruct (IH s1 _ (armed && negb (c =? g)%Z) I1) as (s2 & rs & -> & LN & I2 & R2 & L2).
      * intros H. apply andb_true_iff in H. destruct H as [H1 H2]. apply K; [|auto].
        intros ->. now rewrite Z.eqb_refl in H2.
      * exact LG.
      * cbn [bind fst snd]. exists s2, (v :: rs). cbn. rewrite LN, R2, L2, R1, L1. auto 6.
    + apply andb_true_iff in LG. destruct LG as [H LG]. apply andb_true_iff in H. destruct H as [-> H]. apply Z.eqb_eq in H. subst c.
      destruct (del_inv s r g I (A eq_refl)) as (s1 & -> & I1 & R1 & L1). cbn [bind fst snd].
      destruct (IH s1 _ false I1 ltac:(discriminate) LG) as (s2 & rs & -> & LN & I2 & R2 & L2).
      cbn [bind fst snd]. exists s2, (0%Z :: rs). cbn. rewrite LN, R2, L2, R1, L1. auto 6.
Qed.

Lemma run_inv s r i b q : inv s r -> inv (set_srun s i b q) r.
Proof.
  intros I c. specialize (I c). destruct (r c) as [h|]; [|exact I]. destruct I as (D & k & FI & T). split; [exact D|]. exists k. split; [|exact T].
  cbn. destruct (nth_error (slots s) i) as [x|] eqn:N; [|exact FI]. now apply first_run.
Qed.
Lemma log_inv s r e : inv s r -> inv (with_log s e) r.
Proof. intros I c. exact (I c). Qed.

Lemma deliver_ok s r g b : inv s r -> running s = false -> legal_body g true b = true ->
  exists s' rs, deliver s g b true = Ok (s', rs) /\ running s' = false /\ log s' = log s ++ [(g, r g)] /\
  inv s' (match r g with Some _ => reg_sops r b rs | None => r end).
Proof.
  intros I R LG. unfold deliver. pose proof (I g) as IG. destruct (r g) as [h|] eqn:E.
  - destruct IG as (D & i & FI & T). rewrite D, R. rewrite (first_find _ _ _ _ FI).
    pose proof FI as [(x & N & S & P) _]. rewrite (rd_ok _ _ _ N). cbn [bind]. rewrite P.
    destruct (body_inv g b (set_srun (with_log s (g, Some h)) i true true) r true) as (s2 & rs & -> & LN & I2 & R2 & L2).
    + apply run_inv, log_inv, I.
    + intros _. exists h, i, {| ssig := ssig x; sproc := sproc x; srun := true |}. cbn. rewrite N.
      split; [exact D|]. split; [now apply first_run|]. split; [exact T|]. split; [|reflexivity].
      apply set_nth_same. exact (nth_lt _ _ _ N).
    + exact LG.
    + cbn [bind fst snd]. do 2 eexists. split; [reflexivity|]. split; [reflexivity|]. split; [cbn; rewrite L2; reflexivity|].
      now apply run_inv.
  - rewrite IG. do 2 eexists. split; [reflexivity|]. split; [exact R|]. split; [reflexivity|]. now apply log_inv.
Qed.

Lemma acts_ok l : forall s r, inv s r -> running s = false -> forallb legal_act l = true ->
  exists s' rs, do_acts s l = Ok (s', rs) /\ log s' = log s ++ expected r l rs.
Proof.
  induction l as [|a l IH]; intros s r I R LG; cbn [do_acts forallb] in *.
  - exists s, []. cbn. rewrite app_nil_r. auto.
  - apply andb_true_iff in LG. destruct LG as [LA LG]. destruct a as [o|g b ret].
    + destruct o as [c h ok|c]; [|discriminate]. cbn [do_sop]. destruct (sig_add s c h ok) as [s1 v] eqn:E. cbn [bind fst snd].
      destruct (add_inv s r c h ok s1 v I E) as (I1 & _ & R1 & L1).
      destruct (IH s1 _ I1 ltac:(congruence) LG) as (s2 & rs & -> & L2). cbn [bind fst snd].
      exists s2, ([v] :: rs). split; [reflexivity|]. rewrite L2, L1. reflexivity.
    + cbn [legal_act] in LA. apply andb_true_iff in LA. destruct LA as [-> LB].
      destruct (deliver_ok s r g b I R LB) as (s1 & v & -> & R1 & L1 & I1). cbn [bind fst snd].
      destruct (IH s1 _ I1 R1 LG) as (s2 & rs & -> & L2). cbn [bind fst snd].
      exists s2, (v :: rs). split; [reflexivity|]. rewrite L2, L1. cbn [expected]. now rewrite <- app_assoc.
Qed.
Lemma inv0 n : inv (sst0 n) (fun _ => None).
Proof. intros g. reflexivity. Qed.
Lemma last_registered_called n l : forallb legal_act l = true -> exists s rs, do_acts (sst0 n) l = Ok (s, rs) /\ log s = expected (fun _ => None) l rs.
Proof. intros H. exact (acts_ok l (sst0 n) _ (inv0 n) eq_refl H). Qed.

(* ---- violations ---- *)
(* removing a signal from anywhere else reports success, leaves it installed, and takes one from the
   number of descriptors the loop believes it watches *)
Lemma del_outside n g h : 0 < n -> exists s s1, sig_add (sst0 n) g h true = (s, 0%Z) /\ sig_del s g = Ok (s1, 0%Z) /\
  act_desc s1 = (-1)%Z /\ act_sig s1 = 1%Z /\ exists s2, deliver s1 g [] true = Ok (s2, []) /\ log s2 = [(g, Some h)].
Proof.
  intros H. destruct n as [|n]; [lia|]. do 2 eexists. split; [reflexivity|].
  unfold sig_del. cbn. unfold upd. rewrite !Z.eqb_refl. cbn. rewrite Z.eqb_refl. cbn.
  split; [reflexivity|]. split; [reflexivity|]. split; [reflexivity|]. unfold deliver. cbn. unfold upd. rewrite !Z.eqb_refl. cbn. rewrite ?Z.eqb_refl. cbn.
  eexists. split; reflexivity.
Qed.
(* and removing it from its callback afterwards dereferences a NULL loop *)
Lemma del_twice_ub n g h : 0 < n -> do_acts (sst0 n) [Op (SAdd g h true); Op (SDel g); Sig g [SDel g] true] = UB.
Proof.
  intros H. destruct n as [|n]; [lia|]. cbn. unfold sig_del. cbn. unfold upd. rewrite !Z.eqb_refl. cbn. rewrite !Z.eqb_refl. cbn.
  unfold deliver. cbn. rewrite !Z.eqb_refl. cbn. rewrite ?Z.eqb_refl. cbn. unfold sig_del. cbn. rewrite !Z.eqb_refl. cbn. rewrite ?Z.eqb_refl. reflexivity.
Qed.
(* a callback that leaves by an exception makes the next signal end the process *)
Lemma throw_then_exit n g h b : 0 < n -> do_acts (sst0 n) [Op (SAdd g h true); Sig g [] false; Sig g b true] = Exn.
Proof.
  intros H. destruct n as [|n]; [lia|]. cbn. unfold deliver, upd. cbn. rewrite !Z.eqb_refl. cbn. rewrite ?Z.eqb_refl. reflexivity.
Qed.
(* registering a signal twice counts it twice; removing it takes one: the loop runs for ever *)
Lemma count_leaks n g h h' : 0 < n -> exists s, do_acts (sst0 n) [Op (SAdd g h true); Op (SAdd g h' true); Sig g [SDel g] true] = Ok (s, [[0%Z]; [0%Z]; [0%Z]]) /\
  act_sig s = 1%Z /\ disp s g = false.
Proof.
  intros H. destruct n as [|n]; [lia|]. cbn. unfold sig_add. cbn. rewrite Z.eqb_refl. cbn.
  unfold deliver, upd. cbn. rewrite !Z.eqb_refl. cbn. rewrite ?Z.eqb_refl. cbn. unfold sig_del. cbn. unfold upd. rewrite !Z.eqb_refl. cbn. rewrite ?Z.eqb_refl. cbn.
  eexists. split; [reflexivity|]. cbn. rewrite Z.eqb_refl. auto.
Qed.
(* re-registering after an earlier slot became free leaves a dead entry behind: a legal program with a
   single live signal exhausts the table *)
Definition adds (l : list nat) : list act := map (fun g => Op (SAdd (Z.of_nat g) g true)) l.
Definition steal (x y : nat) : list act := [Sig (Z.of_nat x) [SDel (Z.of_nat x)] true; Op (SAdd (Z.of_nat y) y true)].
Definition fill_prog (n : nat) : list act := adds (seq 1 n) ++ steal 1 2 ++ [Op (SAdd 1 1 true)].
Lemma table_full : forallb legal_act (fill_prog 65) = true /\ exists s rs, do_acts (sst0 65) (fill_prog 65) = Ok (s, rs) /\ last rs [] = [(-1)%Z].
Proof. split; [vm_compute; reflexivity|]. do 2 eexists. split; [vm_compute; reflexivity|]. reflexivity. Qed.
