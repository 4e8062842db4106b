(* Proofs about runs of spans (SmModel.v), part 5: looking for a run in the caches *)
From Coq Require Import ZArith List Lia Bool Permutation Arith.
From Verif Require Import Base SmModel SmProofs SmProofs2 SmProofs3 SmProofs4.
Import ListNotations.
Local Open Scope Z_scope.

Definition olist {A} (o : option A) : list A := match o with None => [] | Some x => [x] end.
Lemma okp_k p r : is_cache p -> okp p r -> rk r = true.
Proof. destruct p; cbn; try tauto. Qed.
Lemma only_trans (P : place -> Prop) a b c : only P a b -> only P b c -> only P a c.
Proof. intros (K & A) (K' & A'). split; [eapply keeps_trans; eauto|]. intros p N. rewrite A', A; auto. Qed.
Lemma only_refl (P : place -> Prop) a : only P a a.
Proof. split; [split; auto|auto]. Qed.
Lemma only_weaken (P Q : place -> Prop) a b : (forall p, P p -> Q p) -> only P a b -> only Q a b.
Proof. intros I (K & A). split; auto. Qed.

Lemma adopt_list_ok b c h want rs : forall s gr E, inv b s (rs ++ olist gr ++ E) -> Forall (okp (DF h)) rs -> (forall g, gr = Some g -> rk g = true /\ rn g = 1) ->
  exists gr' s', adopt_list c s h (map rx rs) want (option_map rx gr) = Ok (option_map rx gr', s') /\ inv b s' (olist gr' ++ E) /\
    (forall g, gr' = Some g -> rk g = true /\ rn g = 1) /\ only (tidy h) s s' /\
    (want = true -> gr' = None -> gr = None /\ cache s' (TC h 1) = cache s (TC h 1)) /\ (want = false -> gr' = gr).
Proof.
  induction rs as [|r rs IH]; intros s gr E I F G; cbn [map adopt_list].
  - exists gr, s. split; auto. split; auto. split; auto. split; [apply only_refl|]. auto.
  - inversion F as [|? ? F1 F2]; subst. destruct F1 as (F1 & F1').
    destruct (inv_header _ _ _ r I (or_introl eq_refl) F1) as (-> & HC & _). cbn [bind]. rewrite HC.
    destruct (want && (rn r =? 1)) eqn:W.
    + apply andb_true_iff in W as [W1 W2]. apply Z.eqb_eq in W2. destruct gr as [g|]; cbn [option_map].
      * destruct (cache_insert_ok b c s h r (rs ++ olist (Some g) ++ E) I F1 F1') as (s1 & -> & I1 & O1). cbn [bind].
        destruct (IH s1 (Some g) E I1 F2 G) as (gr' & s' & A & I' & G' & O' & N' & W'). exists gr', s'. split; auto. split; auto. split; auto.
        split; [eapply only_trans; [eapply only_weaken; [apply tplace_tidy|exact O1]|exact O']|]. split; auto.
        intros X Y. destruct (N' X Y). discriminate.
      * change (Some (rx r)) with (option_map rx (Some r)). destruct (IH s (Some r) E) as (gr' & s' & A & I' & G' & O' & N' & W').
        -- eapply inv_perm; [|exact I]. cbn [olist]. perm.
        -- auto.
        -- intros g Y. inversion Y; subst. auto.
        -- exists gr', s'. split; auto. split; auto. split; auto. split; auto. split; [|congruence].
           intros X Y. destruct (N' X Y). discriminate.
    + assert (X : (do s0 <- cache_insert c s h (rx r); adopt_list c s0 h (map rx rs) want (option_map rx gr)) = match option_map rx gr with
        | Some _ => do s0 <- cache_insert c s h (rx r); adopt_list c s0 h (map rx rs) want (option_map rx gr)
        | None => do s0 <- cache_insert c s h (rx r); adopt_list c s0 h (map rx rs) want (option_map rx gr) end) by (destruct (option_map rx gr); auto).
      destruct (cache_insert_ok b c s h r (rs ++ olist gr ++ E) I F1 F1') as (s1 & -> & I1 & O1). cbn [bind].
      destruct (IH s1 gr E I1 F2 G) as (gr' & s' & A & I' & G' & O' & N' & W'). exists gr', s'. split; auto. split; auto. split; auto.
      split; [eapply only_trans; [eapply only_weaken; [apply tplace_tidy|exact O1]|exact O']|]. split; auto.
      intros X' Y. destruct (N' X' Y) as (N1 & N2). split; auto. rewrite N2. destruct O1 as (_ & O1). apply O1. intros [Q|[Q|Q]]; try discriminate.
      inversion Q as [Q']. rewrite X' in W. cbn [andb] in W. apply Z.eqb_neq in W. lia.
Qed.

Definition tidy2 (h : nat) (p : place) : Prop := tidy h p \/ p = DF h.
Lemma adopt_ok b c s h want E : inv b s E ->
  exists q s', adopt c s h want = Ok (q, s') /\ gives b 1 E q s' /\ only (tidy2 h) s s' /\ cache s' (DF h) = [] /\
    (want = true -> q = None -> cache s' (TC h 1) = cache s (TC h 1)) /\ (want = false -> q = None).
Proof.
  intro I. unfold adopt. destruct (inv_outs b s (DF h) (cache s (DF h)) [] E I) as (rs & R1 & R2 & I1).
  - cbn; auto.
  - rewrite app_nil_r. auto.
  - cbn; auto.
  - destruct (adopt_list_ok b c h want rs (set_cache s (DF h) []) None E) as (gr & s' & A & I2 & G & O & N & W).
    + exact I1.
    + auto.
    + discriminate.
    + rewrite R1 in A. cbn [option_map] in A. exists (option_map rx gr), s'. split; auto. split.
      { destruct gr as [g|]; cbn [option_map gives olist] in *; auto. exists g. destruct (G g eq_refl). auto. }
      destruct O as (O1 & O2). split.
      { split; [exact O1|]. intros p NP. rewrite O2; [|intro; apply NP; left; auto]. cbn [cache set_cache]. rewrite pput_other; auto. intro; apply NP; right; auto. }
      split; [rewrite O2; [cbn [cache set_cache]; apply pput_same|cbn; auto]|]. split.
      * intros X Y. destruct gr as [g|]; [discriminate|]. destruct (N X eq_refl) as (_ & ->). cbn [cache set_cache]. apply pput_other. discriminate.
      * intro X. rewrite (W X). auto.
Qed.

Lemma pop_ok b s h n E : inv b s E -> (1 <= n <= 63)%nat -> exists q s', pop s (TC h n) = (q, s') /\ gives b (Z.of_nat n) E q s' /\ only (fun p => p = TC h n) s s' /\
  (q = None -> s' = s /\ cache s (TC h n) = []).
Proof.
  intros I N. unfold pop. destruct (cache s (TC h n)) as [|x l] eqn:Q; [exists None, s; split; auto; split; auto; split; [apply only_refl|auto]|].
  assert (LT : (length (cache s (TC h n)) < t_limit n)%nat) by (destruct I as (T & I); apply (i_lim _ _ _ _ I (TC h n)); auto).
  destruct (inv_outs b s (TC h n) [x] l E I) as (rs & R1 & R2 & I1).
  - cbn; auto.
  - rewrite Q. cbn [app]. auto.
  - intro. rewrite Q in LT. cbn [length] in LT. lia.
  - destruct rs as [|r [|]]; try discriminate. inversion R1 as [R]. inversion R2 as [|? ? R3 _]; subst. destruct R3 as (R3 & R4 & R5).
    eexists _, _. split; [reflexivity|]. split; [exists r; auto|]. split; [|discriminate].
    split; [split; auto|]. intros p NP. cbn [cache set_cache]. apply pput_other. auto.
Qed.

Lemma okp_gc_tc n h r : okp (GC n) r <-> okp (TC h n) r. Proof. cbn. tauto. Qed.
Lemma okp_ov_tc n h r : okp (OV n) r <-> okp (TC h n) r. Proof. cbn. tauto. Qed.

Lemma global_extract_ok b s h n E : inv b s E -> (1 <= n <= 63)%nat -> cache s (TC h n) = [] ->
  exists q s', global_extract s h n = (q, s') /\ gives b (Z.of_nat n) E q s' /\ only (tplace h n) s s'.
Proof.
  intros I N EM. unfold global_extract. set (k := if Nat.eqb n 1 then 64%nat else 6%nat). set (g := cache s (GC n)). set (w := Nat.min k (length g)). set (o := cache s (OV n)).
  destruct (t_limit_big n N) as (L1 & L2 & L3).
  assert (LK : (k < t_limit n)%nat). { unfold k. destruct (Nat.eqb n 1) eqn:Q; [apply Nat.eqb_eq in Q; subst n; unfold t_limit; cbn [Nat.eqb]; lia|lia]. }
  assert (LG : (length g <= g_limit n)%nat). { destruct I as (T & I). apply (i_lim _ _ _ _ I (GC n)). auto. }
  destruct (inv_outs b s (GC n) (skipn (length g - w) g) (firstn (length g - w) g) E I) as (rs & R1 & R2 & I1).
  - cbn; auto.
  - fold g. rewrite <- (firstn_skipn (length g - w) g) at 1. apply Permutation_app_comm.
  - intros _. rewrite firstn_length. lia.
  - destruct (inv_outs b (set_cache s (GC n) (firstn (length g - w) g)) (OV n) (firstn (k - w) o) (skipn (k - w) o) (rs ++ E) I1) as (rs2 & S1 & S2 & I2).
    + cbn; auto.
    + cbn [cache set_cache]. rewrite pput_other by discriminate. fold o. rewrite firstn_skipn. auto.
    + cbn; auto.
    + set (s2 := set_cache (set_cache s (GC n) (firstn (length g - w) g)) (OV n) (skipn (k - w) o)) in *.
      assert (E2 : cache s2 (TC h n) = []). { unfold s2. cbn [cache set_cache]. rewrite !pput_other by discriminate. auto. }
      assert (I3 : inv b (set_cache s2 (TC h n) (rev (skipn (length g - w) g ++ firstn (k - w) o))) E).
      { apply inv_ins with (rs := rs2 ++ rs).
        - rewrite <- app_assoc. exact I2.
        - cbn; auto.
        - apply Forall_app. split; eapply Forall_impl; [intro a; apply (proj1 (okp_ov_tc n h a))|exact S2|intro a; apply (proj1 (okp_gc_tc n h a))|exact R2].
        - rewrite E2, app_nil_r, map_app, S1, R1. rewrite <- Permutation_rev. apply Permutation_app_comm.
        - intros _. rewrite rev_length, app_length, skipn_length, firstn_length. unfold w. lia. }
      destruct (pop_ok b _ h n E I3 N) as (q & s' & A & G & (O1 & O2) & _). exists q, s'. split; auto. split; auto. split.
      * destruct O1 as (X & Y). split; auto.
      * intros p NP. unfold tplace, gplace in NP. rewrite O2 by tauto. unfold s2. cbn [cache set_cache]. rewrite !pput_other; tauto.
Qed.

(* a run of at least lo, at most hi spans *)
Definition gives2 (b : bool) (lo hi : Z) (E : list run) (q : option Z) (s : st) : Prop :=
  match q with None => inv b s E | Some x => exists r, rx r = x /\ rk r = true /\ lo <= rn r <= hi /\ inv b s (r :: E) end.
Lemma gives_2 b n lo hi E q s : gives b n E q s -> lo <= n <= hi -> gives2 b lo hi E q s.
Proof. destruct q as [x|]; cbn; auto. intros (r & A & B & C & D) L. exists r. rewrite C. auto. Qed.
Lemma gives2_wide b lo hi lo' hi' E q s : gives2 b lo hi E q s -> lo' <= lo -> hi <= hi' -> gives2 b lo' hi' E q s.
Proof. destruct q as [x|]; cbn; auto. intros (r & A & B & C & D) L M. exists r. split; auto. split; auto. split; auto. lia. Qed.

(* the caches a thread uses *)
Definition mine (h : nat) (p : place) : Prop := match p with TC h' _ | CC h' _ | DF h' => h' = h | GC _ | OV _ => True | _ => False end.
Lemma puts_trans (P : place -> Prop) a b c : puts P a b -> puts P b c -> puts P a c.
Proof. intros A B p N. rewrite B, A; auto. Qed.
Lemma puts_weaken (P Q : place -> Prop) a b : (forall p, P p -> Q p) -> puts P a b -> puts Q a b.
Proof. intros I A p N. apply A. auto. Qed.
Lemma only_mine (P : place -> Prop) h a b : only P a b -> (forall p, P p -> mine h p) -> puts (mine h) a b.
Proof. intros (_ & A) W p N. apply A. auto. Qed.
Lemma tidy_mine h p : tidy h p -> mine h p. Proof. destruct p; cbn; tauto. Qed.
Lemma tidy2_mine h p : tidy2 h p -> mine h p. Proof. intros [A| ->]; [apply tidy_mine; auto|cbn; auto]. Qed.
Lemma tplace_mine h n p : tplace h n p -> mine h p. Proof. intro. eapply tidy_mine, tplace_tidy; eauto. Qed.

Lemma gok_keeps c s s' : keeps s s' -> gok c s -> gok c s'.
Proof. intros (_ & A) G. unfold gok. rewrite A. auto. Qed.

Lemma find_span_ok b c h fuel : forall s n E, inv b s E -> cfg_ok c -> gok c s -> (1 <= n)%nat -> (n + fuel <= 64)%nat ->
  exists q s', find_span c s h n fuel = Ok (q, s') /\ gives2 b (Z.of_nat n) (Z.of_nat (n + fuel) - 1) E q s' /\ gok c s' /\ puts (mine h) s s' /\
    (q = None -> keeps s s').
Proof.
  induction fuel as [|f IH]; intros s n E I K G N LE; cbn [find_span].
  - exists None, s. split; [reflexivity|]. split; [exact I|]. split; [exact G|]. split; [intros p _; auto|]. intros _. split; reflexivity.
  - destruct (pop_ok b s h n E I ltac:(lia)) as (q & s1 & -> & G1 & O1 & N1). destruct q as [x|].
    { exists (Some x), s1. split; auto. split; [eapply gives_2; [exact G1|lia]|]. split; [eapply gok_keeps; [apply O1|auto]|]. split; [eapply only_mine; [exact O1|intros p ->; cbn; auto]|discriminate]. }
    destruct (N1 eq_refl) as (-> & EM). clear G1 N1 O1.
    assert (ST : exists q s2, (if Nat.eqb n 1 then adopt c s h true else do q <- adopt c s h false; Ok (pop (snd q) (TC h n))) = Ok (q, s2) /\ gives b (Z.of_nat n) E q s2 /\ keeps s s2 /\ puts (mine h) s s2 /\
      (q = None -> cache s2 (TC h n) = [])).
    { destruct (Nat.eqb n 1) eqn:Q.
      - apply Nat.eqb_eq in Q. subst n. destruct (adopt_ok b c s h true E I) as (q & s2 & A & G2 & O2 & _ & W & _). exists q, s2. split; auto. split; auto. split; [apply O2|]. split; [eapply only_mine; [exact O2|apply tidy2_mine]|]. intro. rewrite W; auto.
      - destruct (adopt_ok b c s h false E I) as (q & s2 & -> & G2 & O2 & _ & _ & W). cbn [bind snd]. rewrite (W eq_refl) in *. cbn [gives] in G2.
        destruct (pop_ok b s2 h n E G2 ltac:(lia)) as (q' & s3 & A3 & G3 & O3 & N3). rewrite A3. exists q', s3. split; auto. split; auto.
        split; [eapply keeps_trans; [apply O2|apply O3]|]. split; [eapply puts_trans; [eapply only_mine; [exact O2|apply tidy2_mine]|eapply only_mine; [exact O3|intros p ->; cbn; auto]]|]. intro X. destruct (N3 X) as (-> & Y). auto. }
    destruct ST as (q & s2 & -> & G2 & O2 & F2 & E2). cbn [bind]. destruct q as [x|].
    { exists (Some x), s2. split; auto. split; [eapply gives_2; [exact G2|lia]|]. split; [eapply gok_keeps; eauto|]. split; [auto|discriminate]. }
    cbn [gives] in G2. destruct (global_extract_ok b s2 h n E G2 ltac:(lia) (E2 eq_refl)) as (q & s3 & -> & G3 & (O3 & F3)).
    assert (P3 : puts (mine h) s s3) by (eapply puts_trans; [exact F2|]; eapply puts_weaken; [apply tplace_mine|exact F3]).
    assert (K3 : keeps s s3) by (eapply keeps_trans; eauto).
    destruct q as [x|].
    { exists (Some x), s3. split; auto. split; [eapply gives_2; [exact G3|lia]|]. split; [eapply gok_keeps; eauto|]. split; [auto|discriminate]. }
    cbn [gives] in G3. assert (GK : gok c s3) by (eapply gok_keeps; eauto). destruct (Z.of_nat n <=? r_cnt (hres s3 h)) eqn:Q; [apply Z.leb_le in Q|].
    + destruct (span_map_ok b c s3 h (Z.of_nat n) (fun _ _ => None) E G3 K GK) as (q & s4 & -> & G4 & GK4 & F4 & N4); [intros M a i; discriminate|lia|].
      exists q, s4. split; auto. split; [eapply gives_2; [exact G4|lia]|]. split; auto. split; [eapply puts_trans; [exact P3|eapply puts_weaken; [apply tidy_mine|exact F4]]|]. intro X. destruct (N4 X). lia.
    + destruct (IH s3 (S n) E G3 K GK ltac:(lia) ltac:(lia)) as (q & s4 & -> & G4 & GK4 & F4 & N4). exists q, s4. split; auto. split; [eapply gives2_wide; [exact G4|lia|lia]|]. split; auto. split; [eapply puts_trans; eauto|].
      intro X. eapply keeps_trans; [exact K3|auto].
Qed.

Lemma extract_ok b c s h k n ans E : inv b s E -> cfg_ok c -> gok c s -> sys_ok ans -> (1 <= n <= 63)%nat -> (k <> None -> n = 1%nat) ->
  exists q s', extract c s h k n ans = Ok (q, s') /\ gives2 b (Z.of_nat n) (Z.of_nat n + (if (2 <? n)%nat then Z.of_nat n / 2 else 0)) E q s' /\ gives2 b (Z.of_nat n) 63 E q s' /\ gok c s' /\ puts (mine h) s s' /\
    (q = None -> exists M, ans M (align_count c (Z.of_nat n)) = None).
Proof.
  intros I K G A N KN. unfold extract. set (hi := Z.of_nat n + (if (2 <? n)%nat then Z.of_nat n / 2 else 0)).
  assert (HI : Z.of_nat n <= hi). { unfold hi. destruct (2 <? n)%nat; [|lia]. assert (0 <= Z.of_nat n / 2) by (apply Z.div_pos; lia). lia. }
  assert (S1 : exists q s', (let lim := if (2 <? n)%nat then (n + Nat.div2 n)%nat else n in let lim := if (63 <? lim)%nat then 63%nat else lim in
      do q <- find_span c s h n (S lim - n); match q with (Some x, s) => Ok (Some x, s) | (None, s) => span_map c s h (Z.of_nat n) ans end) = Ok (q, s') /\ gives2 b (Z.of_nat n) hi E q s' /\ gives2 b (Z.of_nat n) 63 E q s' /\ gok c s' /\ puts (mine h) s s' /\
    (q = None -> exists M, ans M (align_count c (Z.of_nat n)) = None)).
  { cbv zeta. set (l1 := if (2 <? n)%nat then (n + Nat.div2 n)%nat else n). set (l := if (63 <? l1)%nat then 63%nat else l1).
    assert (EL : Z.of_nat l1 = hi). { unfold l1, hi. destruct (2 <? n)%nat; [|lia]. rewrite Nat2Z.inj_add, Nat.div2_div, Nat2Z.inj_div. auto. }
    assert (L : (n <= l <= 63)%nat /\ (l <= l1)%nat). { unfold l. destruct (63 <? l1)%nat eqn:Q; [apply Nat.ltb_lt in Q|apply Nat.ltb_ge in Q]; lia. }
    destruct (find_span_ok b c h (S l - n) s n E I K G ltac:(lia) ltac:(lia)) as (q & s1 & -> & G1 & GK & F1 & _). cbn [bind]. destruct q as [x|].
    - exists (Some x), s1. split; auto. split; [eapply gives2_wide; [exact G1|lia|lia]|]. split; [eapply gives2_wide; [exact G1|lia|lia]|]. split; auto. split; [auto|discriminate].
    - cbn [gives2] in G1. destruct (span_map_ok b c s1 h (Z.of_nat n) ans E G1 K GK A ltac:(lia)) as (q & s2 & -> & G2 & GK2 & F2 & N2). exists q, s2. split; auto.
      split; [eapply gives_2; [exact G2|lia]|]. split; [eapply gives_2; [exact G2|lia]|]. split; auto. split; [eapply puts_trans; [exact F1|eapply puts_weaken; [apply tidy_mine|exact F2]]|]. intro X. destruct (N2 X). eauto. }
  destruct k as [k|]; [|exact S1]. assert (n = 1%nat) by (apply KN; discriminate). subst n.
  destruct (cache s (CC h k)) as [|x l] eqn:Q; [exact S1|]. clear S1.
  assert (LC : (length (cache s (CC h k)) <= 1)%nat) by (destruct I as (T & I); apply (i_lim _ _ _ _ I (CC h k))).
  destruct (inv_outs b s (CC h k) (x :: l) [] E I) as (rs & R1 & R2 & I1).
  - cbn; auto.
  - rewrite app_nil_r, Q. auto.
  - cbn; lia.
  - assert (l = []) by (rewrite Q in LC; destruct l; auto; cbn in LC; lia). subst l.
    destruct rs as [|r [|]]; try discriminate. inversion R1 as [R]. inversion R2 as [|? ? R3 _]; subst. destruct R3 as (R3 & R4).
    destruct (pop_ok b _ h 1 _ I1 ltac:(lia)) as (q & s1 & A1 & G1 & (O1 & O2) & N1).
    assert (A2 : exists s2, pop s (TC h 1) = (q, s2) /\ same_st (set_cache s2 (CC h k) []) s1 /\ gres s2 = gres s /\ puts (mine h) s s2).
    { unfold pop in A1 |- *. cbn [cache set_cache] in A1. rewrite pput_other in A1 by discriminate. destruct (cache s (TC h 1)) as [|y l].
      - inversion A1; subst. exists s. split; auto. split; [unfold same_st; auto|]. split; [auto|intros p _; auto].
      - inversion A1; subst. eexists. split; [reflexivity|]. split; [|split; [auto|intros p NP; cbn [cache set_cache]; apply pput_other; intros ->; cbn in NP; tauto]]. unfold same_st. cbn [hdrs maps cache hres gres set_cache]. split; [auto|]. split; [auto|]. split; [|auto].
        intro p. destruct (place_eq p (TC h 1)) as [->|NE].
        + rewrite (pput_other _ _ _ _ (ltac:(discriminate) : TC h 1 <> CC h k)), !pput_same. auto.
        + rewrite pput_other by auto. destruct (place_eq p (CC h k)) as [->|NE2]; [rewrite !pput_same; auto|]. rewrite !pput_other by auto. auto. }
    destruct A2 as (s2 & -> & SS & GS & FS). eexists _, _. split; [reflexivity|].
    assert (GK : gok c (set_cache s2 (CC h k) (olist q))) by (unfold gok; cbn [gres set_cache]; rewrite GS; auto).
    assert (IR : inv b (set_cache s2 (CC h k) (olist q)) (r :: E)).
    { destruct q as [y|]; cbn [olist].
      - destruct G1 as (ry & Y1 & Y2 & Y3 & Y4). apply (inv_same _ _ _ _ (same_st_sym _ _ SS)) in Y4.
        assert (Y5 : inv b (set_cache (set_cache s2 (CC h k) []) (CC h k) [y]) (r :: E)).
        { apply inv_ins with (rs := [ry]); [exact Y4|cbn; auto|constructor; [split; auto|constructor]| |cbn; lia]. cbn [map app cache set_cache]. rewrite pput_same, Y1. auto. }
        eapply inv_same; [|exact Y5]. unfold same_st. cbn [hdrs maps cache hres gres set_cache]. split; [auto|]. split; [auto|]. split; [|auto]. intro p.
        destruct (place_eq p (CC h k)) as [->|NE]; [rewrite !pput_same; auto|rewrite !pput_other by auto; auto].
      - apply (inv_same _ _ _ _ (same_st_sym _ _ SS)) in G1. exact G1. }
    split; [exists r; repeat split; auto; lia|]. split; [exists r; repeat split; auto; lia|]. split; [exact GK|]. split; [|discriminate].
    intros p NP. cbn [cache set_cache]. rewrite pput_other by (intros ->; cbn in NP; tauto). auto.
Qed.

Lemma give_caches_ok b c h fuel : forall s n E, inv b s E -> (1 <= n)%nat -> (n + fuel <= 64)%nat ->
  exists s', give_caches c s h n fuel = Ok s' /\ inv b s' E /\ only (tidy h) s s' /\
   (forall m, (n <= m < n + fuel)%nat -> cache s' (TC h m) = []) /\ (forall m, (m < n)%nat -> cache s' (TC h m) = cache s (TC h m)).
Proof.
  induction fuel as [|f IH]; intros s n E I N LE; cbn [give_caches].
  - exists s. split; auto. split; auto. split; [apply only_refl|]. split; [intros; lia|auto].
  - assert (ST : exists s1, match cache s (TC h n) with [] => Ok s | l => global_insert c (set_cache s (TC h n) []) (rev l) n end = Ok s1 /\ inv b s1 E /\ only (tplace h n) s s1 /\ cache s1 (TC h n) = []).
    { destruct (cache s (TC h n)) as [|x l] eqn:Q; [exists s; split; auto; split; auto; split; [apply only_refl|auto]|].
      destruct (inv_outs b s (TC h n) (rev (x :: l)) [] E I) as (rs & R1 & R2 & I1).
      - cbn; auto.
      - rewrite app_nil_r, Q. apply Permutation_rev.
      - destruct (t_limit_big n ltac:(lia)). cbn [lim length]. lia.
      - destruct (global_insert_ok b c (set_cache s (TC h n) []) rs n E I1) as (s1 & A & I2 & (O1 & O2)).
        + eapply Forall_impl; [intro a; apply (proj2 (okp_gc_tc n h a))|exact R2].
        + lia.
        + rewrite R1 in A. rewrite A. exists s1. split; auto. split; auto. split; [split; [exact O1|]|].
          * intros p NP. unfold tplace in NP. rewrite O2 by tauto. cbn [cache set_cache]. apply pput_other. tauto.
          * rewrite O2; [cbn [cache set_cache]; apply pput_same|]. intros [X|X]; discriminate. }
    destruct ST as (s1 & -> & I1 & O1 & E1). cbn [bind].
    destruct (IH s1 (S n) E I1 ltac:(lia) ltac:(lia)) as (s2 & A & I2 & O2 & E2 & E3). exists s2. split; auto. split; auto.
    split; [eapply only_trans; [eapply only_weaken; [apply tplace_tidy|exact O1]|exact O2]|]. split.
    + intros m M. destruct (Nat.eq_dec m n) as [->|NE]; [rewrite E3 by lia; auto|apply E2; lia].
    + intros m M. rewrite E3 by lia. apply O1. intros [X|[X|X]]; inversion X; lia.
Qed.
