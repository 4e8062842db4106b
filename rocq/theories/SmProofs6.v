(* Proofs about runs of spans (SmModel.v), part 6: every step keeps the invariant *)
From Coq Require Import ZArith List Lia Bool Permutation Arith.
From Verif Require Import Base SmModel SmProofs SmProofs2 SmProofs3 SmProofs4 SmProofs5.
Import ListNotations.
Local Open Scope Z_scope.

(* spans needed for 16 heaps, and for the heaps that fit a page *)
Definition heap_sizes (c : cfg) (hsc many : Z) : Prop := 1 <= hsc /\ (hsc < pps c -> 1 <= many <= pps c).

Lemma new_heap_ok b c hsc many s h ans E : inv b s E -> cfg_ok c -> gok c s -> sys_ok ans -> heap_sizes c hsc many -> r_cnt (hres s h) = 0 ->
  exists lost q s', new_heap c hsc many s h ans = Ok (q, s') /\ gives2 b 1 (Z.max hsc many) (lost ++ E) q s' /\ gok c s' /\ cache s' = cache s /\
    (r_cnt (gres s) = 0 \/ hsc <= r_cnt (gres s) -> lost = []).
Proof.
  intros I K G A (H1 & H2) HR. unfold new_heap. assert (I0 := inv_res_none b s h res0 E I HR eq_refl). set (s0 := set_hres s h res0) in *.
  change (gres s0) with (gres s). change (maps s0) with (maps s). change (hdrs s0) with (hdrs s).
  destruct (hsc <=? r_cnt (gres s)) eqn:Q; [apply Z.leb_le in Q|apply Z.leb_gt in Q].
  - destruct (global_get_ok b s0 hsc E I0) as (x & m & s' & -> & I1 & P1 & P2 & P3); [change (gres s0) with (gres s); lia|]. cbn [bind fst snd].
    exists [], (Some x), s'. split; auto. split; [exists (mkrun x hsc m true); cbn [rn]; repeat split; auto; lia|]. split; [intros _; apply G; lia|]. split; auto.
  - set (n := if hsc <? pps c then many else hsc). set (a := if hsc <? pps c then pps c else hsc).
    assert (N : 1 <= n <= a /\ n <= Z.max hsc many) by (unfold n, a; destruct (hsc <? pps c) eqn:Y; [apply Z.ltb_lt in Y|apply Z.ltb_ge in Y]; lia).
    assert (G0 : 0 <= r_cnt (gres s)) by (destruct I as (T & I); apply (i_gres _ _ _ _ I)).
    destruct (ans (maps s) a) as [i|] eqn:AN; [|exists [], None, s0; split; auto].
    assert (I1 := inv_map_new b s0 i a n E I0 (A _ _ _ AN) ltac:(lia)). change (maps s0) with (maps s) in I1. change (hdrs s0) with (hdrs s) in I1.
    set (s1 := set_hdrs (set_maps s0 ((i, a) :: maps s)) (zput (hdrs s) i (mkhdr true false 0 n a a))) in *.
    unfold rest in I1. destruct (n <? a) eqn:QN; cbn [app] in I1.
    2:{ exists [], (Some i), s1. split; auto. split; [exists (mkrun i n i true); cbn [rn]; repeat split; auto; lia|]. auto. }
    apply Z.ltb_lt in QN. assert (HK : 1 <= hrc c). { assert (X := k_map _ K). destruct (Z_le_gt_dec (mapc c) 64); [rewrite (k_small _ K); lia|rewrite (k_large _ K); lia]. }
    destruct (hrc c <? a - n) eqn:QH; [apply Z.ltb_lt in QH|apply Z.ltb_ge in QH].
    + replace (hrc c <? a - n) with true by (symmetry; apply Z.ltb_lt; lia).
      assert (M64 : 64 < mapc c). { destruct (Z_le_gt_dec (mapc c) 64) as [L|L]; [|lia]. assert (X := k_small _ K L). assert (Y := k_ge _ K). revert QH. unfold a. destruct (hsc <? pps c) eqn:Z1; [|apply Z.ltb_ge in Z1]; unfold n in *; rewrite ?Z1 in *; lia. }
      assert (I2 : inv b (set_hres s1 h (mkres i (i + n) (hrc c))) (mkrun (i + n + hrc c) (a - n - hrc c) i false :: mkrun i n i true :: E)).
      { assert (X : inv b s1 (mkrun (i + n) (a - n) i false :: mkrun i n i true :: E)) by (eapply inv_perm; [|exact I1]; perm).
        apply (inv_split _ _ _ _ _ _ (hrc c)) in X; [|lia]. unfold rest in X. replace (hrc c <? a - n) with true in X by (symmetry; apply Z.ltb_lt; lia). cbn [app] in X.
        eapply inv_res_in; [exact X|change (hres s1 h) with (nput (hres s) h res0 h); rewrite nput_same; auto|lia]. }
      set (s2 := set_hres s1 h (mkres i (i + n) (hrc c))) in *.
      destruct (Z.eq_dec (r_cnt (gres s)) 0) as [Z0|NZ].
      * exists [], (Some i). eexists. split; [reflexivity|]. split; [|split; [intros _; auto|split; auto]]. exists (mkrun i n i true). cbn [rn app]. split; auto. split; auto. split; [lia|].
        apply inv_gres_in with (bb := false); [exact I2|exact Z0|lia|lia].
      * exists [mkrun (r_start (gres s)) (r_cnt (gres s)) (r_master (gres s)) false], (Some i). eexists. split; [reflexivity|].
        split; [|split; [intros _; auto|split; [auto|intro X; lia]]]. exists (mkrun i n i true). cbn [rn app]. split; auto. split; auto. split; [lia|].
        destruct (inv_gres_out b s2 res0 _ I2) as (I3 & _); [change (gres s2) with (gres s); lia|auto|]. change (gres s2) with (gres s) in I3.
        assert (I4 : inv b (set_gres (set_gres s2 res0) (mkres i (i + n + hrc c) (a - n - hrc c))) (mkrun i n i true :: mkrun (r_start (gres s)) (r_cnt (gres s)) (r_master (gres s)) false :: E)).
        { apply inv_gres_in with (bb := false); [eapply inv_perm; [|exact I3]; perm|auto|lia|lia]. }
        exact I4.
    + exists [], (Some i). rewrite Z.ltb_irrefl. eexists. split; [reflexivity|]. split; [|split; auto].
      exists (mkrun i n i true). cbn [rn app]. split; auto. split; auto. split; [lia|].
      apply inv_res_in with (bb := false); [eapply inv_perm; [|exact I1]; perm|change (hres s1 h) with (nput (hres s) h res0 h); rewrite nput_same; auto|lia].
Qed.

(* what the program and the system may do *)
Definition legal (s : st) (o : op) : Prop :=
  match o with
  | Alloc h k n ans => (1 <= n <= 63)%nat /\ (k <> None -> n = 1%nat) /\ sys_ok ans
  | FreeSpan h k x => In x (cache s Held) /\ h_cnt (hdrs s x) = 1
  | FreeLarge h x | FreeOther h x => In x (cache s Held)
  | Exit h => True
  | NewHeap h ans => sys_ok ans /\ r_cnt (hres s h) = 0
  | Scribble x i d => In x (cache s Held) /\ x < i < x + h_cnt (hdrs s x)
  end.
(* no memory for new heaps is mapped while a part of the global reserve is left that is too small *)
Definition quiet (hsc : Z) (s : st) (o : op) : Prop :=
  match o with NewHeap _ _ => r_cnt (gres s) = 0 \/ hsc <= r_cnt (gres s) | _ => True end.

Lemma drop_one_perm x l : In x l -> Permutation l (x :: drop_one x l).
Proof.
  induction l as [|y l IH]; intro I; [destruct I|]. cbn [drop_one]. destruct (y =? x) eqn:Q; [apply Z.eqb_eq in Q; subst; auto|].
  apply Z.eqb_neq in Q. destruct I as [->|I]; [congruence|]. fold (drop_one x l). rewrite (IH I) at 1. apply perm_swap.
Qed.

(* the runs the program uses are not part of the caches *)
Lemma inv_held b s l E : inv b s E -> inv b (set_cache s Held l) E.
Proof.
  intros (T & I). destruct I as [[T1 T2 T3 T4] I2 I3 I4 I5 I6 I7]. exists T. split; auto.
  - split; auto. intros p CP. cbn [cache set_cache]. rewrite pput_other; [auto|]. intros ->. destruct CP.
  - intro p. cbn [cache set_cache]. destruct (place_eq p Held) as [->|NE]; [cbn; auto|rewrite pput_other by auto; auto].
Qed.
Definition hok (r : run) : Prop := rk r = true /\ 1 <= rn r <= 63.
Record sinv (s : st) (hs lost : list run) : Prop := {
  s_held : Permutation (cache s Held) (map rx hs); s_hok : Forall hok hs; s_inv : inv true s (hs ++ lost) }.

Lemma take_held s x hs lost : sinv s hs lost -> In x (cache s Held) -> exists r hs', rx r = x /\ Permutation hs (r :: hs') /\ hok r /\ h_cnt (hdrs s x) = rn r /\
  rdh s x = Ok (hdrs s x) /\ (if h_master (hdrs s x) then x else x - h_off (hdrs s x)) = rm r /\ Forall hok hs' /\
  Permutation (drop_one x (cache s Held)) (map rx hs') /\ inv true (set_cache s Held (drop_one x (cache s Held))) (r :: hs' ++ lost).
Proof.
  intros [P F I] J. assert (JX : In x (map rx hs)) by (eapply Permutation_in; eauto). apply in_map_iff in JX as (r & <- & JR).
  destruct (in_split _ _ JR) as (l1 & l2 & ->). assert (PH : Permutation (l1 ++ r :: l2) (r :: l1 ++ l2)) by (apply Permutation_sym, Permutation_middle).
  assert (F' := Permutation_Forall PH F). inversion F' as [|? ? F1 F2]; subst. exists r, (l1 ++ l2). destruct F1 as (F1 & F1').
  assert (I1 : inv true s (r :: (l1 ++ l2) ++ lost)) by (eapply inv_perm; [|exact I]; perm).
  destruct (inv_header _ _ _ r I1 (or_introl eq_refl) F1) as (A & B & C & D & G).
  split; auto. split; auto. split; [split; auto|]. split; auto. split; [exact A|]. split.
  { rewrite D. destruct (rx r =? rm r) eqn:Q; [apply Z.eqb_eq; auto|]. apply Z.eqb_neq in Q. rewrite (G Q). lia. }
  split; auto. split; [|apply inv_held; auto].
  apply (Permutation_cons_inv (a := rx r)). rewrite <- (drop_one_perm _ _ J), P. change (rx r :: map rx (l1 ++ l2)) with (map rx (r :: l1 ++ l2)). apply Permutation_map. auto.
Qed.

Lemma set_cache_twice s p k l : same_st (set_cache (set_cache s p k) p l) (set_cache s p l).
Proof.
  unfold same_st. cbn [hdrs maps cache hres gres set_cache]. split; [auto|]. split; [auto|]. split; [|auto]. intro q.
  destruct (place_eq q p) as [->|NE]; [rewrite !pput_same; auto|rewrite !pput_other by auto; auto].
Qed.

Lemma hold_own b lo hi E q s : gives2 b lo hi E q s -> inv b (hold Own (q, s)) E.
Proof.
  intros G. destruct q as [x|]; cbn [hold gives2] in *; auto. destruct G as (r & A & B & C & D).
  apply inv_ins with (rs := [r]); [exact D|cbn; auto|constructor; auto|cbn [map app]; rewrite A; auto|cbn; auto].
Qed.
Lemma hold_gres p q s : gres (hold p (q, s)) = gres s. Proof. destruct q; reflexivity. Qed.

(* what a step does to the runs in use *)
Definition at_most (n : nat) : Z := Z.of_nat n + (if (2 <? n)%nat then Z.of_nat n / 2 else 0).
Definition effect (c : cfg) (o : op) (l l' : list Z) (hs hs' : list run) : Prop :=
  match o with
  | Alloc _ _ n ans => (l' = l /\ hs' = hs /\ exists M, ans M (align_count c (Z.of_nat n)) = None) \/
      exists r, l' = rx r :: l /\ hs' = r :: hs /\ Z.of_nat n <= rn r <= at_most n
  | FreeSpan _ _ x | FreeLarge _ x | FreeOther _ x => l' = drop_one x l /\ exists r, rx r = x /\ Permutation hs (r :: hs')
  | _ => l' = l /\ hs' = hs
  end.

Lemma sinv_same s s' hs lost lost' : sinv s hs lost -> cache s' Held = cache s Held -> inv true s' (hs ++ lost') -> sinv s' hs lost'.
Proof. intros [P F I] E I'. split; auto. rewrite E. auto. Qed.

Lemma step_ok c hsc many s o hs lost : sinv s hs lost -> cfg_ok c -> gok c s -> heap_sizes c hsc many -> legal s o ->
  exists hs' more s', step c hsc many s o = Ok s' /\ sinv s' hs' (more ++ lost) /\ gok c s' /\ (quiet hsc s o -> more = []) /\ effect c o (cache s Held) (cache s' Held) hs hs'.
Proof.
  intros SI K G HS L. assert (I := s_inv _ _ _ SI). destruct o as [h k n ans|h k x|h x|h x|h|h ans|x i d]; cbn [step legal quiet effect] in *.
  - destruct L as (N & KN & A). destruct (extract_ok true c s h k n ans _ I K G A N KN) as (q & s1 & -> & G1 & G2 & GK & F & NO). cbn [bind].
    assert (FH : cache s1 Held = cache s Held) by (apply F; cbn; tauto).
    destruct q as [x|]; cbn [hold gives2] in *.
    + destruct G1 as (r & R1 & R2 & R3 & I1), G2 as (r' & R1' & R2' & R3' & I1').
      assert (RR : rn r = rn r').
      { destruct (inv_header _ _ _ r I1 (or_introl eq_refl) R2) as (_ & X & _). destruct (inv_header _ _ _ r' I1' (or_introl eq_refl) R2') as (_ & X' & _). congruence. }
      exists (r :: hs), []. eexists. split; [reflexivity|]. cbn [app]. split.
      { destruct SI as [P FO _]. split.
        - cbn [cache set_cache map]. rewrite pput_same, FH, R1. constructor. auto.
        - constructor; auto. split; auto. lia.
        - apply inv_held. exact I1. }
      split; [exact GK|]. split; auto. right. exists r. split; auto. cbn [cache set_cache]. rewrite pput_same, FH, R1. auto.
    + exists hs, [], s1. split; auto. split; [eapply sinv_same; eauto|]. split; [exact GK|]. split; [auto|]. left. split; [auto|]. split; auto.
  - destruct L as (J & HC). destruct (take_held s x hs lost SI J) as (r & hs' & R1 & PH & (R2 & R3) & R4 & R5 & _ & FH & PD & I1). set (s1 := set_cache s Held (drop_one x (cache s Held))) in *.
    assert (R6 : rn r = 1) by lia. assert (E1 : cache s1 Held = drop_one x (cache s Held)) by (unfold s1; cbn [cache set_cache]; apply pput_same).
    assert (LC : (length (cache s1 (CC h k)) <= 1)%nat) by (destruct I1 as (T & I1); apply (i_lim _ _ _ _ I1 (CC h k))).
    destruct (inv_outs true s1 (CC h k) (cache s1 (CC h k)) [] _ I1) as (rs & S1 & S2 & I2).
    { cbn; auto. } { rewrite app_nil_r; auto. } { cbn; lia. }
    assert (I3 : inv true (set_cache s1 (CC h k) [x]) (rs ++ hs' ++ lost)).
    { eapply inv_same; [apply set_cache_twice|]. apply inv_ins with (rs := [r]).
      - eapply inv_perm; [|exact I2]. clear. perm.
      - cbn; auto.
      - constructor; [split; auto|constructor].
      - cbn [map app cache set_cache]. rewrite pput_same, R1. auto.
      - cbn; lia. }
    assert (E3 : cache (set_cache s1 (CC h k) [x]) Held = drop_one x (cache s Held)) by (cbn [cache set_cache]; rewrite pput_other by discriminate; exact E1).
    exists hs', []. cbn [app]. destruct (cache s1 (CC h k)) as [|y l] eqn:Q.
    + destruct rs; [|discriminate]. eexists. split; [reflexivity|]. split; [split; [rewrite E3; auto|auto|exact I3]|]. split; [exact G|]. split; auto. split; auto. eauto.
    + assert (l = []) by (destruct l; auto; cbn in LC; lia). subst l. destruct rs as [|ry [|]]; try discriminate. inversion S1 as [SY]. inversion S2 as [|? ? S3 _]; subst y. destruct S3 as (S3 & S4).
      destruct (cache_insert_ok true c _ h ry _ I3 S3 ltac:(lia)) as (s2 & A2 & I4 & (O1 & O2)). exists s2. split; auto.
      assert (E4 : cache s2 Held = drop_one x (cache s Held)) by (rewrite O2; [exact E3|intros [X|[X|X]]; discriminate]).
      split; [split; [rewrite E4; auto|auto|exact I4]|]. split; [eapply gok_keeps; [exact O1|exact G]|]. split; auto. split; auto. eauto.
  - destruct (take_held s x hs lost SI L) as (r & hs' & R1 & PH & (R2 & R3) & R4 & R5 & R6 & FH & PD & I1). rewrite R5. cbn [bind]. set (s1 := set_cache s Held (drop_one x (cache s Held))) in *.
    assert (E1 : cache s1 Held = drop_one x (cache s Held)) by (unfold s1; cbn [cache set_cache]; apply pput_same). exists hs', []. cbn [app].
    destruct ((1 <? h_cnt (hdrs s x)) && Nat.eqb (length (cache s1 (TC h 1))) 0 && (r_cnt (hres s1 h) =? 0)) eqn:Q.
    + apply andb_true_iff in Q as [_ Q]. apply Z.eqb_eq in Q. eexists. split; [reflexivity|]. rewrite R6, R4. split; [|split; [exact G|split; [auto|]]].
      * split; [cbn [cache set_hres]; rewrite E1; auto|auto|]. rewrite <- R1. apply inv_res_in with (bb := rk r); [|exact Q|lia]. rewrite R1 in *. rewrite <- R1. destruct r; exact I1.
      * cbn [cache set_hres]. split; auto. eauto.
    + destruct (cache_insert_ok true c s1 h r _ I1 R2 R3) as (s2 & A & I4 & (O1 & O2)). rewrite R1 in A. rewrite A. exists s2. split; auto.
      assert (E4 : cache s2 Held = drop_one x (cache s Held)) by (rewrite O2; [exact E1|intros [X|[X|X]]; discriminate]).
      split; [split; [rewrite E4; auto|auto|exact I4]|]. split; [eapply gok_keeps; [exact O1|exact G]|]. split; auto. split; auto. eauto.
  - destruct (take_held s x hs lost SI L) as (r & hs' & R1 & PH & (R2 & R3) & R4 & R5 & _ & FH & PD & I1). set (s1 := set_cache s Held (drop_one x (cache s Held))) in *.
    assert (E1 : cache s1 Held = drop_one x (cache s Held)) by (unfold s1; cbn [cache set_cache]; apply pput_same). exists hs', []. cbn [app].
    eexists. split; [reflexivity|].
    assert (E4 : cache (set_cache s1 (DF h) (x :: cache s1 (DF h))) Held = drop_one x (cache s Held)) by (cbn [cache set_cache]; rewrite pput_other by discriminate; exact E1).
    split; [split; [rewrite E4; auto|auto|]|split; [exact G|split; [auto|split; [auto|eauto]]]].
    apply inv_ins with (rs := [r]); [exact I1|cbn; auto|constructor; [split; auto|constructor]|cbn [map app]; rewrite R1; auto|cbn; auto].
  - destruct (adopt_ok true c s h false _ I) as (q & s1 & -> & G1 & (O1 & O1') & _ & _ & W). cbn [bind snd]. rewrite (W eq_refl) in G1. cbn [gives] in G1.
    destruct (give_caches_ok true c h 63 s1 1 _ G1 ltac:(lia) ltac:(lia)) as (s2 & -> & I2 & (O2 & O2') & _). exists hs, [], s2. split; auto.
    assert (E : cache s2 Held = cache s Held) by (rewrite O2', O1'; auto; [intros [X|X]; [exact X|discriminate]]).
    split; [eapply sinv_same; eauto|]. split; [eapply gok_keeps; [exact O2|eapply gok_keeps; [exact O1|exact G]]|auto].
  - destruct L as (A & HR). destruct (new_heap_ok true c hsc many s h ans _ I K G A HS HR) as (more & q & s1 & -> & G1 & GK & CS & LO). cbn [bind].
    assert (E : cache (hold Own (q, s1)) Held = cache s Held). { destruct q; cbn [hold cache set_cache]; rewrite ?pput_other by discriminate; rewrite CS; auto. }
    exists hs, more, (hold Own (q, s1)). split; auto. split; [|split; [unfold gok; rewrite hold_gres; exact GK|auto]].
    eapply sinv_same; [exact SI|exact E|]. eapply inv_perm; [|eapply hold_own; exact G1]. clear. perm.
  - destruct L as (J & B). destruct (take_held s x hs lost SI J) as (r & hs' & R1 & PH & (R2 & R3) & R4 & _).
    exists hs, []. eexists. split; [reflexivity|]. split; [|split; [exact G|split; auto]]. eapply sinv_same; [exact SI|reflexivity|]. destruct I as (T & I). exists T. apply inv_core with (s := s) (E := hs ++ lost); [split; [|split]; reflexivity|exact I| |].
    + cbn [hdrs maps set_hdrs app]. assert (C := i_core _ _ _ _ I). eapply core_scribble with (r := r); [exact C| |lia].
      apply in_or_app. left. apply in_or_app. left. eapply Permutation_in; [apply Permutation_sym; exact PH|left; auto].
    + intro BT. cbn [maps set_hdrs app]. apply (i_mast _ _ _ _ I BT).
Qed.

(* states the program can bring about, from the start; [Q] restricts the steps *)
Inductive reach (c : cfg) (hsc many : Z) (Q : st -> op -> Prop) : st -> Prop :=
| reach0 : reach c hsc many Q st0
| reach1 s o s' : reach c hsc many Q s -> legal s o -> Q s o -> step c hsc many s o = Ok s' -> reach c hsc many Q s'.

Lemma inv0 : inv true st0 [].
Proof.
  exists []. split.
  - split; auto. intros p r [].
  - split; cbn [map app]; [intros r []|constructor|constructor|intros m t []].
  - intros _ m t [].
  - intros p. destruct p; cbn [lim cache st0 length]; auto; [|lia]. intro N. destruct (t_limit_big n N). lia.
  - cbn; lia.
  - cbn; lia.
  - cbn; lia.
Qed.

Lemma reach_inv c hsc many Q s : cfg_ok c -> heap_sizes c hsc many -> reach c hsc many Q s -> exists hs lost, sinv s hs lost /\ gok c s /\
  ((forall s o, reach c hsc many Q s -> Q s o -> quiet hsc s o) -> lost = []).
Proof.
  intros K HS R. induction R as [|s o s' R IH L QQ E].
  - exists [], []. split; [split; [constructor|constructor|apply inv0]|]. split; [unfold gok; cbn; lia|auto].
  - destruct IH as (hs & lost & I & G & LO). destruct (step_ok c hsc many s o hs lost I K G HS L) as (hs' & l2 & s2 & E2 & I2 & G2 & L2 & _).
    rewrite E in E2. inversion E2; subst s2. exists hs', (l2 ++ lost). split; auto. split; auto. intro X. rewrite (L2 (X _ _ R QQ)), (LO X). auto.
Qed.

(* with the settings that map at most 64 spans at once, there never is a global reserve *)
Lemma small_quiet c hsc many Q s o : cfg_ok c -> heap_sizes c hsc many -> mapc c <= 64 -> reach c hsc many Q s -> quiet hsc s o.
Proof.
  intros K HS M R. destruct (reach_inv c hsc many Q s K HS R) as (hs & lost & [_ _ (T & I)] & G & _). destruct o; cbn; auto. left.
  assert (X := i_gres _ _ _ _ I). unfold gok in G. destruct (Z.eq_dec (r_cnt (gres s)) 0); auto. assert (64 < mapc c) by (apply G; lia). lia.
Qed.
