(* Proofs about runs of spans (SmModel.v), part 4: getting and giving back runs *)
From Coq Require Import ZArith List Lia Bool Permutation Arith.
From Verif Require Import Base SmModel SmProofs SmProofs2 SmProofs3.
Import ListNotations.
Local Open Scope Z_scope.

Definition sys_ok (ans : system) : Prop := forall M a i, ans M a = Some i -> fresh M i a.

Lemma inv_split b s x n m bb k E : inv b s (mkrun x n m bb :: E) -> 1 <= k <= n -> inv b s (mkrun x k m (bb && (k =? n)) :: rest x n m k ++ E).
Proof.
  intros (T & I) B. exists T. eapply inv_core; [apply same_refl|exact I| |].
  - assert (C := i_core _ _ _ _ I). cbn [app] in *. rewrite <- app_assoc. eapply core_split; eauto.
  - intro BT. assert (K := i_mast _ _ _ _ I BT). cbn [app] in *. rewrite <- app_assoc. eapply masters_split; eauto.
Qed.

Lemma inv_map_new b s i a n E : inv b s E -> fresh (maps s) i a -> 1 <= n <= a ->
  inv b (set_hdrs (set_maps s ((i, a) :: maps s)) (zput (hdrs s) i (mkhdr true false 0 n a a))) (mkrun i n i true :: rest i a i n ++ E).
Proof.
  intros (T & I) F B. exists T. eapply inv_core; [|exact I| |].
  - repeat split.
  - cbn [hdrs maps set_hdrs set_maps app]. rewrite <- app_assoc. apply core_map_new; auto. apply (i_core _ _ _ _ I).
  - intro BT. cbn [hdrs maps set_hdrs set_maps app]. rewrite <- app_assoc. apply masters_map_new. apply (i_mast _ _ _ _ I BT).
Qed.

Lemma align_count_ge c n : cfg_ok c -> 1 <= n -> n <= align_count c n.
Proof.
  intros K N. unfold align_count. set (k := if mapc c <? n then n else mapc c).
  assert (n <= k) by (unfold k; destruct (mapc c <? n) eqn:Q; [lia|apply Z.ltb_ge in Q; lia]).
  destruct (big c && negb (k mod pps c =? 0)); auto. assert (P := k_map _ K). assert (Y := Z.mod_pos_bound k (mapc c) ltac:(lia)). lia.
Qed.
(* a super span leaves more over than a heap reserves only when heaps reserve 64 spans *)
Lemma align_count_rest c n : cfg_ok c -> 1 <= n -> hrc c < align_count c n - n -> 64 < mapc c.
Proof.
  intros K N. assert (P := k_map _ K). destruct (Z_le_gt_dec (mapc c) 64) as [L|G]; [|lia].
  rewrite (k_small _ K L). unfold align_count. set (k := if mapc c <? n then n else mapc c).
  assert (Y := Z.mod_pos_bound k (mapc c) ltac:(lia)). assert (D := k_div _ K). unfold k in *. intro H. exfalso. revert H.
  destruct (mapc c <? n) eqn:Q; [apply Z.ltb_lt in Q|apply Z.ltb_ge in Q].
  - destruct (big c && negb (n mod pps c =? 0)); lia.
  - rewrite D. cbn [Z.eqb negb]. rewrite andb_false_r. lia.
Qed.

Lemma rest_self x n m : rest x n m n = [].
Proof. unfold rest. rewrite Z.ltb_irrefl. auto. Qed.

(* places a thread puts its runs in when it tidies up *)
Definition tidy (h : nat) (p : place) : Prop := match p with TC h' _ => h' = h | GC _ | OV _ => True | _ => False end.
Lemma tplace_tidy h n p : tplace h n p -> tidy h p.
Proof. intros [->|[->| ->]]; cbn; auto. Qed.
Definition puts (P : place -> Prop) (s s' : st) : Prop := forall p, ~ P p -> cache s' p = cache s p.

(* the run a function handed out, with the ones in hand before *)
Definition gives (b : bool) (n : Z) (E : list run) (q : option Z) (s : st) : Prop :=
  match q with None => inv b s E | Some x => exists r, rx r = x /\ rk r = true /\ rn r = n /\ inv b s (r :: E) end.

Lemma map_aligned_ok b c s h n ans E : inv b s E -> cfg_ok c -> gok c s -> sys_ok ans -> 1 <= n <= 63 -> r_cnt (hres s h) < n ->
  exists q s', map_aligned c s h n ans = Ok (q, s') /\ gives b n E q s' /\ gok c s' /\ puts (tidy h) s s' /\ (q = None -> ans (maps s) (align_count c n) = None).
Proof.
  intros I K G A N L. unfold map_aligned. set (a := align_count c n).
  destruct (ans (maps s) a) as [i|] eqn:AN; [|exists None, s; split; [reflexivity|split; [exact I|split; [auto|split; [intros p _; auto|auto]]]]].
  assert (F := A _ _ _ AN). assert (GE : n <= a) by (apply align_count_ge; auto; lia).
  assert (I1 := inv_map_new b s i a n E I F ltac:(lia)).
  set (s1 := set_hdrs (set_maps s ((i, a) :: maps s)) (zput (hdrs s) i (mkhdr true false 0 n a a))) in *.
  change (hres s1 h) with (hres s h). change (gres s1) with (gres s).
  destruct (n <? a) eqn:Q.
  2:{ unfold rest in I1. rewrite Q in I1. exists (Some i), s1. split; auto. split; [|split; [exact G|split; [intros p _; auto|discriminate]]]. exists (mkrun i n i true). auto. }
  unfold rest in I1. rewrite Q in I1. apply Z.ltb_lt in Q. cbn [app] in I1.
  assert (H0 : 0 <= r_cnt (hres s h)) by (destruct I as (T & I); apply (i_hres _ _ _ _ I)).
  (* the old reserve of the heap *)
  assert (ST1 : exists s2, (if 0 <? r_cnt (hres s h) then do s0 <- mark (set_hres s1 h res0) (r_master (hres s h)) (r_start (hres s h)) (r_cnt (hres s h)); cache_insert c s0 h (r_start (hres s h)) else Ok s1) = Ok s2 /\
     inv b s2 (mkrun i n i true :: mkrun (i + n) (a - n) i false :: E) /\ r_cnt (hres s2 h) = 0 /\ gres s2 = gres s /\ puts (tidy h) s s2).
  { destruct (0 <? r_cnt (hres s h)) eqn:Q0; [apply Z.ltb_lt in Q0|apply Z.ltb_ge in Q0].
    - assert (I2 := inv_res_out b s1 h _ I1). change (hres s1 h) with (hres s h) in I2. specialize (I2 Q0).
      destruct (inv_mark _ _ _ _ _ _ (r_cnt (hres s h)) _ I2 ltac:(lia)) as (s2 & -> & I3 & P & M). cbn [bind]. rewrite rest_self in I3. cbn [app] in I3.
      destruct (cache_insert_ok b c s2 h _ _ I3 eq_refl) as (s3 & A3 & I4 & (O1 & O2)); [cbn [rn]; lia|]. cbn [rx] in A3.
      exists s3. split; auto. split; auto. destruct O1 as (O1 & O1'). destruct P as (P1 & P2 & P3). rewrite O1, P2, O1', P3. cbn [hres set_hres gres]. rewrite nput_same. split; auto. split; auto.
      intros p NP. rewrite O2; [rewrite P1; auto|]. intro X. apply NP, (tplace_tidy _ _ _ X).
    - exists s1. split; auto. split; auto. split; [|split; [auto|intros p _; auto]]. change (hres s1 h) with (hres s h). lia. }
  destruct ST1 as (s2 & -> & I2 & Z2 & G2 & F2). cbn [bind]. rewrite G2.
  destruct (hrc c <? a - n) eqn:QH; [apply Z.ltb_lt in QH|apply Z.ltb_ge in QH].
  - (* what is too much for a heap becomes the global reserve *)
    assert (M64 : 64 < mapc c) by (eapply align_count_rest; eauto; lia). assert (H64 := k_large _ K M64).
    assert (G0 : 0 <= r_cnt (gres s)) by (destruct I as (T & I); apply (i_gres _ _ _ _ I)).
    assert (ST2 : exists s3, (if 0 <? r_cnt (gres s) then do s0 <- mark (set_gres s2 res0) (r_master (gres s)) (r_start (gres s)) (r_cnt (gres s)); span_unmap c s0 (r_start (gres s)) else Ok s2) = Ok s3 /\
      inv b s3 (mkrun i n i true :: mkrun (i + n) (a - n) i false :: E) /\ r_cnt (gres s3) = 0 /\ hres s3 = hres s2 /\ cache s3 = cache s2).
    { destruct (0 <? r_cnt (gres s)) eqn:Q0; [apply Z.ltb_lt in Q0|apply Z.ltb_ge in Q0].
      - rewrite <- G2 in Q0. destruct (inv_gres_out b s2 res0 _ I2 Q0 eq_refl) as (I3 & NE). rewrite G2 in *.
        destruct (inv_mark _ _ _ _ _ _ (r_cnt (gres s)) _ I3 ltac:(lia)) as (s3 & -> & I4 & P & M). cbn [bind]. rewrite rest_self in I4. cbn [app] in I4.
        destruct (inv_unmap b c s3 _ _ I4 eq_refl) as (s4 & A4 & I5 & P4); [intros _; left; cbn [rx rm]; auto|]. cbn [rx] in A4. rewrite A4. exists s4. split; auto. split; auto.
        destruct P as (P1 & P2 & P3), P4 as (P4 & P5 & P6). rewrite P4, P5, P6, P1, P2, P3. auto.
      - exists s2. split; auto. split; auto. split; [rewrite G2; lia|auto]. }
    destruct ST2 as (s3 & -> & I3 & Z3 & H3 & F3). cbn [bind].
    assert (I4 : inv b s3 (mkrun (i + n) (hrc c) i false :: mkrun (i + n + hrc c) (a - n - hrc c) i false :: mkrun i n i true :: E)).
    { assert (X : inv b s3 (mkrun (i + n) (a - n) i false :: mkrun i n i true :: E)) by (eapply inv_perm; [|exact I3]; perm).
      apply (inv_split _ _ _ _ _ _ (hrc c)) in X; [|lia]. unfold rest in X. replace (hrc c <? a - n) with true in X by (symmetry; apply Z.ltb_lt; lia). exact X. }
    assert (I5 : inv b (set_gres s3 (mkres i (i + n + hrc c) (a - n - hrc c))) (mkrun (i + n) (hrc c) i false :: mkrun i n i true :: E)).
    { apply inv_gres_in with (bb := false); [eapply inv_perm; [|exact I4]; perm|auto|lia|lia]. }
    eexists _, _. split; [reflexivity|]. split; [|split; [intros _; auto|split; [|discriminate]]].
    2:{ intros p NP. cbn [cache set_hres set_gres]. rewrite F3. auto. }
    exists (mkrun i n i true). split; auto. split; auto. split; auto.
    apply inv_res_in with (bb := false); [exact I5|cbn [hres set_gres]; rewrite H3; auto|lia].
  - eexists _, _. split; [reflexivity|]. split; [|split; [unfold gok; cbn [gres set_hres]; rewrite G2; exact G|split; [exact F2|discriminate]]].
    exists (mkrun i n i true). split; auto. split; auto. split; auto.
    apply inv_res_in with (bb := false); [eapply inv_perm; [|exact I2]; perm|auto|lia].
Qed.

Lemma span_map_ok b c s h n ans E : inv b s E -> cfg_ok c -> gok c s -> sys_ok ans -> 1 <= n <= 63 \/ n <= r_cnt (hres s h) /\ 1 <= n ->
  exists q s', span_map c s h n ans = Ok (q, s') /\ gives b n E q s' /\ gok c s' /\ puts (tidy h) s s' /\ (q = None -> r_cnt (hres s h) < n /\ ans (maps s) (align_count c n) = None).
Proof.
  intros I K G A N. unfold span_map. destruct (n <=? r_cnt (hres s h)) eqn:Q; [apply Z.leb_le in Q|apply Z.leb_gt in Q].
  - destruct (from_reserve_ok b s h n E I ltac:(lia)) as (x & m & s' & -> & I' & P1 & P2 & P3 & P4). exists (Some x), s'. split; auto. split; [exists (mkrun x n m true); auto|].
    split; [unfold gok; rewrite P2; exact G|]. split; [intros p _; rewrite P1; auto|discriminate].
  - destruct N as [N|N]; [|lia].
    assert (H0 : 0 <= r_cnt (hres s h)) by (destruct I as (T & I); apply (i_hres _ _ _ _ I)).
    destruct ((big c || (hrc c <? mapc c)) && (n <=? r_cnt (gres s))) eqn:QG.
    + apply andb_true_iff in QG as [_ QG]. apply Z.leb_le in QG. assert (M64 : 64 < mapc c) by (apply G; lia). assert (H64 := k_large _ K M64).
      set (k1 := if r_cnt (hres s h) =? 0 then hrc c else n). set (k := if r_cnt (gres s) <? k1 then r_cnt (gres s) else k1).
      assert (B1 : n <= k1) by (unfold k1; destruct (r_cnt (hres s h) =? 0); lia).
      assert (B : n <= k <= r_cnt (gres s)) by (unfold k; destruct (r_cnt (gres s) <? k1) eqn:Q1; [apply Z.ltb_lt in Q1|apply Z.ltb_ge in Q1]; lia).
      destruct (global_get_ok b s k E I ltac:(lia)) as (x & m & s1 & -> & I1 & P1 & P2 & P3). cbn [bind].
      assert (G1 : gok c s1) by (intros _; auto).
      destruct (inv_setcnt b s1 x k m n E I1 ltac:(lia)) as (s2 & A2 & I2 & P4 & M4).
      destruct P4 as (P4 & P5 & P6).
      destruct (n <? k) eqn:QK; [apply Z.ltb_lt in QK|apply Z.ltb_ge in QK].
      * (* the heap had no reserve: it gets the rest *)
        assert (Z0 : r_cnt (hres s h) = 0).
        { clear - QK. revert QK. unfold k, k1. destruct (r_cnt (hres s h) =? 0) eqn:QZ; [apply Z.eqb_eq in QZ; auto|]. destruct (r_cnt (gres s) <? n) eqn:Y; [apply Z.ltb_lt in Y|]; lia. }
        rewrite P3. cbn [r_master]. unfold rdh, wrh in A2 |- *. cbn [maps hdrs set_hres].
        destruct (mapped (maps s1) x); [|discriminate]. cbn [bind] in A2 |- *. inversion A2; subst s2. cbn [maps hdrs set_hres].
        eexists _, _. split; [reflexivity|]. split; [|split; [intros _; auto|split; [intros p _; cbn [cache set_hdrs set_hres]; rewrite P1; auto|discriminate]]].
        exists (mkrun x n m true). split; auto. split; auto. split; auto. unfold rest in I2. replace (n <? k) with true in I2 by (symmetry; apply Z.ltb_lt; auto). cbn [app] in I2.
        assert (I3 : inv b (set_hres (set_hdrs s1 (zput (hdrs s1) x (mkhdr (h_master (hdrs s1 x)) (h_sub (hdrs s1 x)) (h_off (hdrs s1 x)) n (h_total (hdrs s1 x)) (h_remain (hdrs s1 x))))) h (mkres m (x + n) (k - n))) (mkrun x n m true :: E)).
        { apply inv_res_in with (bb := false); [eapply inv_perm; [|exact I2]; perm|cbn [hres set_hdrs]; rewrite P2; auto|lia]. }
        exact I3.
      * cbn zeta. cbv beta. assert (EK : k = n) by lia. rewrite EK in *. rewrite rest_self in I2. cbn [app] in I2.
        unfold rdh, wrh in A2 |- *. destruct (mapped (maps s1) x); [|discriminate]. cbn [bind] in A2 |- *. inversion A2; subst s2.
        eexists _, _. split; [reflexivity|]. split; [|split; [intros _; auto|split; [intros p _; cbn [cache set_hdrs set_hres]; rewrite P1; auto|discriminate]]]. exists (mkrun x n m true). auto.
    + destruct (map_aligned_ok b c s h n ans E I K G A N Q) as (q & s' & A1 & B1 & C1 & F1 & D1). exists q, s'. split; [auto|]. split; [auto|]. split; [auto|]. split; auto.
Qed.
