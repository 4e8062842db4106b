(* Proofs about runs of spans (SmModel.v), part 3: the functions *)
From Coq Require Import ZArith List Lia Bool Permutation Arith.
From Verif Require Import Base SmModel SmProofs SmProofs2.
Import ListNotations.
Local Open Scope Z_scope.

Lemma set_cache_places s s' p k : same_places s s' -> same_places (set_cache s p k) (set_cache s' p k).
Proof. intros (A & B & C). unfold same_places, set_cache. cbn [cache hres gres]. rewrite A, B, C. auto. Qed.
Lemma set_cache_id s p : same_st s (set_cache s p (cache s p)).
Proof.
  unfold same_st, set_cache. cbn [cache hres gres hdrs maps]. repeat split; auto. intro q. destruct (place_eq q p) as [->|N]; [rewrite pput_same|rewrite pput_other]; auto.
Qed.
Lemma same_st_sym a b : same_st a b -> same_st b a.
Proof. intros (A & B & C & D & F). split; [|split; [|split; [|split]]]; auto. Qed.

(* may this run be given back while all mappings have their first run *)
Definition removable (b : bool) (s : st) (r : run) : Prop := b = true -> rx r <> rm r \/ h_remain (hdrs s (rx r)) <= h_cnt (hdrs s (rx r)).

Lemma inv_unmap_at b c s p k r E : inv b (set_cache s p k) (r :: E) -> rk r = true -> removable b s r ->
  exists s', span_unmap c s (rx r) = Ok s' /\ inv b (set_cache s' p k) E /\ same_places s s'.
Proof.
  intros (T & I) K RM. assert (C := i_core _ _ _ _ I). cbn [hdrs maps set_cache app] in C.
  destruct (core_unmap c s r _ C K) as (s' & E1 & C' & P & D). exists s'. split; auto. split; auto. exists T.
  eapply inv_core; [apply set_cache_places; exact P|exact I|cbn [hdrs maps set_cache]; exact C'|]. cbn [maps set_cache].
  intro B. assert (MS := i_mast _ _ _ _ I B). cbn [maps set_cache app] in MS. eapply masters_unmap; [exact MS|apply (c_mdis _ _ _ C)| | |].
  - intros q J. destruct (c_run _ _ _ C q J) as (A1 & A2 & A3 & _). split; [auto|]. split; [auto|]. split; [auto|]. discriminate.
  - intros m t J. apply (c_map _ _ _ C _ _ J).
  - destruct D as [(D1 & D2)|D]; [|right; auto]. left. split; auto. split; auto. intro EQ. destruct (RM B) as [NE|LE]; [auto|].
    destruct (c_run _ _ _ C r (or_introl eq_refl)) as (A1 & (t & A2 & A2') & A3 & A4). destruct (A4 K) as (A5 & _).
    destruct (c_map _ _ _ C _ _ A2) as (_ & _ & _ & B4 & _). rewrite EQ in LE, A5. rewrite B4, A5 in LE. cbn [sumn] in LE. rewrite Z.eqb_refl in LE. lia.
Qed.
Lemma inv_unmap b c s r E : inv b s (r :: E) -> rk r = true -> removable b s r ->
  exists s', span_unmap c s (rx r) = Ok s' /\ inv b s' E /\ same_places s s'.
Proof.
  intros I K RM. destruct (inv_unmap_at b c s Held (cache s Held) r E) as (s' & A & B & P).
  - eapply inv_same; [apply set_cache_id|auto].
  - auto.
  - auto.
  - exists s'. split; auto. split; auto. destruct P as (P1 & P2 & P3). eapply inv_same; [|exact B]. rewrite <- P1. apply same_st_sym, set_cache_id.
Qed.

Lemma inv_header b s E r : inv b s E -> In r E -> rk r = true -> rdh s (rx r) = Ok (hdrs s (rx r)) /\ h_cnt (hdrs s (rx r)) = rn r /\ 1 <= rn r /\
  h_master (hdrs s (rx r)) = (rx r =? rm r) /\ (rx r <> rm r -> h_off (hdrs s (rx r)) = rx r - rm r).
Proof.
  intros (T & I) J K. assert (C := i_core _ _ _ _ I). assert (J' : In r (E ++ map snd T)) by (apply in_or_app; auto).
  destruct (run_mapped _ _ _ _ C J') as (M1 & M2). unfold rdh. rewrite M1. split; auto.
  destruct (c_run _ _ _ C r J') as (A1 & (t & A2 & A2') & A3 & A4). destruct (A4 K) as (A5 & A6). split; auto. split; auto.
  destruct (rx r =? rm r) eqn:Q.
  - apply Z.eqb_eq in Q. rewrite Q. split; [apply (c_map _ _ _ C _ _ A2)|congruence].
  - apply Z.eqb_neq in Q. split; apply A6; auto.
Qed.
Lemma inv_header_at b s p k E r : inv b (set_cache s p k) E -> In r E -> rk r = true -> rdh s (rx r) = Ok (hdrs s (rx r)) /\ h_cnt (hdrs s (rx r)) = rn r /\
  h_master (hdrs s (rx r)) = (rx r =? rm r).
Proof. intros I J K. destruct (inv_header _ _ _ _ I J K) as (A & B & _ & C & _). split; [exact A|split; [exact B|exact C]]. Qed.

Lemma removable_test b s r : h_master (hdrs s (rx r)) = (rx r =? rm r) -> h_master (hdrs s (rx r)) && (h_cnt (hdrs s (rx r)) <? h_remain (hdrs s (rx r))) = false -> removable b s r.
Proof.
  intros HM Q _. rewrite HM in Q. apply andb_false_iff in Q as [Q|Q]; [left; apply Z.eqb_neq; auto|right; apply Z.ltb_ge; auto].
Qed.
Lemma removable_test2 b s r : h_master (hdrs s (rx r)) = (rx r =? rm r) -> negb (h_master (hdrs s (rx r))) || (h_remain (hdrs s (rx r)) <=? h_cnt (hdrs s (rx r))) = true -> removable b s r.
Proof.
  intros HM Q _. rewrite HM in Q. apply orb_true_iff in Q as [Q|Q]; [left; apply Z.eqb_neq, negb_true_iff; auto|right; apply Z.leb_le; auto].
Qed.

(* giving back a list of runs, when it no longer matters which *)
Lemma unmap_all_ok c rs : forall s E, inv false s (rs ++ E) -> Forall (fun r => rk r = true) rs ->
  exists s', unmap_all c s (map rx rs) = Ok s' /\ inv false s' E /\ same_places s s'.
Proof.
  induction rs as [|r rs IH]; intros s E I F; cbn [map unmap_all].
  - exists s. split; auto. split; auto. apply same_refl.
  - inversion F as [|? ? F1 F2]; subst. destruct (inv_unmap false c s r (rs ++ E) I F1) as (s1 & -> & I1 & P1); [intro; discriminate|]. cbn [bind].
    destruct (IH s1 E I1 F2) as (s2 & -> & I2 & P2). exists s2. split; auto. split; auto. eapply same_trans; eauto.
Qed.

Lemma sort_out_ok b c (Q : run -> Prop) (QK : forall r, Q r -> rk r = true) rs : forall s ks E, inv b s (rs ++ ks ++ E) -> Forall Q rs -> Forall Q ks ->
  exists s' ks', sort_out c s (map rx rs) (map rx ks) = Ok (s', map rx ks') /\ inv b s' (ks' ++ E) /\ Forall Q ks' /\ same_places s s'.
Proof.
  induction rs as [|r rs IH]; intros s ks E I F G; cbn [map sort_out].
  - exists s, ks. split; auto. split; auto. split; auto. apply same_refl.
  - inversion F as [|? ? F1 F2]; subst. destruct (inv_header _ _ _ r I (or_introl eq_refl) (QK _ F1)) as (-> & _ & _ & HM & _). cbn [bind].
    destruct (h_master (hdrs s (rx r)) && (h_cnt (hdrs s (rx r)) <? h_remain (hdrs s (rx r)))) eqn:W.
    + destruct (IH s (r :: ks) E) as (s' & ks' & A & B & D & P).
      * eapply inv_perm; [|exact I]. perm.
      * auto.
      * constructor; auto.
      * exists s', ks'. auto.
    + destruct (inv_unmap b c s r (rs ++ ks ++ E) I (QK _ F1)) as (s1 & -> & I1 & P1); [apply removable_test; auto|]. cbn [bind].
      destruct (IH s1 ks E I1 F2 G) as (s' & ks' & A & B & D & P). exists s', ks'. split; auto. split; auto. split; auto. eapply same_trans; eauto.
Qed.

Lemma replace_ok b c p kk kx (Q : run -> Prop) (QK : forall r, Q r -> rk r = true) posts : forall s pres E, inv b (set_cache s p kk) (pres ++ posts ++ E) -> Forall Q pres -> Forall Q posts ->
  exists s' pres' posts' found, replace c s (map rx pres) (map rx posts) kx = Ok (s', map rx pres', (if found : bool then kx :: map rx posts' else map rx posts'), found) /\
    inv b (set_cache s' p kk) (pres' ++ posts' ++ E) /\ Forall Q pres' /\ Forall Q posts' /\ same_places s s' /\
    (length pres' + length posts' + (if found then 1 else 0) = length pres + length posts)%nat.
Proof.
  induction posts as [|r posts IH]; intros s pres E I F G; cbn [map replace].
  - exists s, pres, [], false. split; auto. split; auto. split; auto. split; auto. split; [apply same_refl|]. cbn [length]. lia.
  - inversion G as [|? ? G1 G2]; subst. assert (IR : In r (pres ++ (r :: posts) ++ E)) by (apply in_or_app; right; left; auto).
    destruct (inv_header_at _ _ _ _ _ r I IR (QK _ G1)) as (-> & _ & HM). cbn [bind].
    destruct (negb (h_master (hdrs s (rx r))) || (h_remain (hdrs s (rx r)) <=? h_cnt (hdrs s (rx r)))) eqn:W.
    + destruct (inv_unmap_at b c s p kk r (pres ++ posts ++ E)) as (s1 & -> & I1 & P1).
      * eapply inv_perm; [|exact I]. perm.
      * auto.
      * apply removable_test2; auto.
      * cbn [bind]. exists s1, pres, posts, true. split; auto. split; auto. split; auto. split; auto. split; auto. cbn [length]. lia.
    + destruct (IH s (pres ++ [r]) E) as (s' & pres' & posts' & found & A & B & D1 & D2 & P & LN).
      * eapply inv_perm; [|exact I]. perm.
      * apply Forall_app. split; auto.
      * auto.
      * exists s', pres', posts', found. rewrite map_app in A. cbn [map] in A. split; auto. split; auto. split; auto. split; auto. split; auto.
        rewrite app_length in LN. cbn [length] in *. lia.
Qed.

Lemma place_keep_ok b c p kk (Q : run -> Prop) (QK : forall r, Q r -> rk r = true) ks : forall s pres posts E, inv b (set_cache s p kk) (pres ++ posts ++ ks ++ E) ->
  Forall Q pres -> Forall Q posts -> Forall Q ks ->
  exists s' gs ks', place_keep c s (map rx pres) (map rx posts) (map rx ks) = Ok (s', map rx gs, map rx ks') /\
    inv b (set_cache s' p kk) (gs ++ ks' ++ E) /\ Forall Q gs /\ Forall Q ks' /\ same_places s s' /\ length gs = (length pres + length posts)%nat.
Proof.
  induction ks as [|k ks IH]; intros s pres posts E I F G K; cbn [map place_keep].
  - exists s, (pres ++ posts), []. rewrite map_app. split; auto. split.
    + eapply inv_perm; [|exact I]. perm.
    + split; [apply Forall_app; auto|]. split; auto. split; [apply same_refl|]. apply app_length.
  - inversion K as [|? ? K1 K2]; subst.
    destruct (replace_ok b c p kk (rx k) Q QK posts s pres ((k :: ks) ++ E) I F G) as (s1 & pres' & posts' & found & -> & I1 & F1 & G1 & P1 & LN). cbn [bind].
    destruct found.
    + destruct (IH s1 pres' (k :: posts') E) as (s' & gs & ks' & A & B & D1 & D2 & P & L2).
      * eapply inv_perm; [|exact I1]. perm.
      * auto.
      * constructor; auto.
      * auto.
      * cbn [map] in A. exists s', gs, ks'. split; auto. split; auto. split; auto. split; auto. split; [eapply same_trans; eauto|]. cbn [length] in L2. lia.
    + exists s1, (pres' ++ posts'), (k :: ks). rewrite map_app. split; auto. split.
      * eapply inv_perm; [|exact I1]. perm.
      * split; [apply Forall_app; auto|]. split; auto. split; auto. rewrite app_length. lia.
Qed.

Definition keeps (s s' : st) : Prop := hres s' = hres s /\ gres s' = gres s.
Lemma keeps_trans a b c : keeps a b -> keeps b c -> keeps a c.
Proof. intros (A & B) (C & D). unfold keeps. rewrite C, D. auto. Qed.
Definition only (P : place -> Prop) (s s' : st) : Prop := keeps s s' /\ forall p, ~ P p -> cache s' p = cache s p.

Definition gplace (n : nat) (p : place) : Prop := p = GC n \/ p = OV n.
Lemma global_insert_ok b c s rs n E : inv b s (rs ++ E) -> Forall (okp (GC n)) rs -> (1 <= n <= 63)%nat ->
  exists s', global_insert c s (map rx rs) n = Ok s' /\ inv b s' E /\ only (gplace n) s s'.
Proof.
  intros I F N. unfold global_insert. rewrite map_length.
  set (g := cache s (GC n)). set (room := if (g_limit n <? length g + length rs)%nat then (g_limit n - length g)%nat else length rs).
  rewrite firstn_map, skipn_map.
  assert (LG : (length g <= g_limit n)%nat). { destruct I as (T & I). apply (i_lim _ _ _ _ I (GC n)). auto. }
  assert (F1 : Forall (okp (GC n)) (firstn room rs) /\ Forall (okp (GC n)) (skipn room rs)).
  { rewrite <- (firstn_skipn room rs) in F. apply Forall_app in F. auto. }
  destruct F1 as (F1 & F2).
  assert (I1 : inv b (set_cache s (GC n) (g ++ map rx (firstn room rs))) (skipn room rs ++ E)).
  { apply inv_ins with (rs := firstn room rs).
    - eapply inv_perm; [|exact I]. rewrite app_assoc, firstn_skipn. auto.
    - exact Logic.I.
    - auto.
    - apply Permutation_app_comm.
    - cbn [lim]. intros _. rewrite app_length, map_length, firstn_length. unfold room. destruct (g_limit n <? length g + length rs)%nat eqn:Q; [|apply Nat.ltb_ge in Q]; lia. }
  set (s1 := set_cache s (GC n) (g ++ map rx (firstn room rs))) in *.
  assert (O1 : forall p, ~ gplace n p -> cache s1 p = cache s p).
  { intros p NP. unfold s1. cbn [cache set_cache]. apply pput_other. intro; subst; apply NP; left; auto. }
  destruct (big c).
  - eexists. split; [reflexivity|]. split.
    + apply inv_ins with (rs := skipn room rs); auto.
      * exact Logic.I.
      * apply Permutation_app_tail. apply Permutation_sym, Permutation_rev.
      * exact Logic.I.
    + split; [split; reflexivity|]. intros p NP. cbn [cache set_cache]. rewrite pput_other; [apply (O1 p NP)|]. intro; subst; apply NP; right; auto.
  - destruct (sort_out_ok b c (okp (GC n)) (fun r H => proj1 H) (skipn room rs) s1 [] E) as (s2 & ks & A & I2 & F3 & P2); auto.
    cbn [map] in A. rewrite A. cbn [bind]. destruct P2 as (P2a & P2b & P2c).
    destruct ks as [|k ks]; cbn [map].
    + exists s2. split; auto. split; auto. split; [split; [rewrite P2b|rewrite P2c]; reflexivity|]. intros p NP. rewrite P2a. auto.
    + set (kl := k :: ks) in *. change (rx k :: map rx ks) with (map rx kl).
      destruct (inv_outs b s2 (GC n) (cache s2 (GC n)) [] (kl ++ E) I2) as (gs & G1 & G2 & G3).
      * exact Logic.I.
      * rewrite app_nil_r. auto.
      * cbn. lia.
      * destruct (place_keep_ok b c (GC n) [] (okp (GC n)) (fun r H => proj1 H) kl s2 [] gs E) as (s3 & gs' & ks' & A3 & I3 & F4 & F5 & P3 & L3); auto.
        cbn [map] in A3. rewrite G1 in A3. rewrite A3. cbn [bind]. eexists. split; [reflexivity|].
        destruct P3 as (P3a & P3b & P3c). split.
        -- assert (X : inv b (set_cache (set_cache (set_cache s3 (GC n) []) (GC n) (map rx gs')) (OV n) (map rx ks' ++ cache s3 (OV n))) E).
           { apply inv_ins with (rs := ks').
             - apply inv_ins with (rs := gs').
               + auto.
               + exact Logic.I.
               + auto.
               + cbn [cache set_cache]. rewrite pput_same, app_nil_r. auto.
               + cbn [lim]. intros _. rewrite map_length, L3. cbn [length]. rewrite <- (map_length rx gs), G1, P2a. unfold s1. cbn [cache set_cache]. rewrite pput_same, app_length, map_length, firstn_length.
                 unfold room. destruct (g_limit n <? length g + length rs)%nat eqn:Q; [|apply Nat.ltb_ge in Q]; lia.
             - exact Logic.I.
             - auto.
             - cbn [cache set_cache]. rewrite !pput_other by discriminate. auto.
             - exact Logic.I. }
           eapply inv_same; [|exact X]. split; [|split; [|split; [|split]]]; auto. intro p. cbn [cache set_cache]. unfold pput. destruct (place_eq p (OV n)); auto. destruct (place_eq p (GC n)); auto.
        -- split; [split; cbn [hres gres set_cache]; [rewrite P3b, P2b|rewrite P3c, P2c]; reflexivity|]. intros p NP. cbn [cache set_cache].
           rewrite !pput_other by (intro; subst; apply NP; unfold gplace; auto).
           rewrite P3a, P2a. auto.
Qed.

(* what the configuration comes to *)
Record cfg_ok (c : cfg) : Prop := {
  k_pps : 1 <= pps c; k_map : 1 <= mapc c; k_div : mapc c mod pps c = 0; k_small : mapc c <= 64 -> hrc c = mapc c; k_large : 64 < mapc c -> hrc c = 64; k_ge : pps c <= mapc c }.
Lemma config_ok p u : 1 <= p -> 0 <= u -> cfg_ok (config p u).
Proof.
  intros P U. unfold config. set (m1 := if u =? 0 then 64 else u). set (m2 := if m1 <? p then p else m1). set (m3 := if m2 mod p =? 0 then m2 else p).
  assert (1 <= m1) by (unfold m1; destruct (u =? 0) eqn:Q; [lia|apply Z.eqb_neq in Q; lia]).
  assert (p <= m2) by (unfold m2; destruct (m1 <? p) eqn:Q; [lia|apply Z.ltb_ge in Q; lia]).
  assert (p <= m3 /\ m3 mod p = 0).
  { unfold m3. destruct (m2 mod p =? 0) eqn:Q; [apply Z.eqb_eq in Q; auto|]. split; [lia|]. apply Z_mod_same_full. }
  split; cbn [pps mapc hrc]; try lia; destruct (64 <? m3) eqn:Q; [apply Z.ltb_lt in Q|apply Z.ltb_ge in Q|apply Z.ltb_lt in Q|apply Z.ltb_ge in Q]; lia.
Qed.
Definition gok (c : cfg) (s : st) : Prop := 0 < r_cnt (gres s) -> 64 < mapc c.

Lemma t_limit_big n : (1 <= n <= 63)%nat -> (69 <= t_limit n)%nat /\ (2 <= t_move n <= 64)%nat /\ (t_move n < t_limit n)%nat.
Proof.
  intro N. assert (D : (Nat.div2 n <= 31)%nat). { rewrite Nat.div2_div. assert (n / 2 <= 63 / 2)%nat by (apply Nat.div_le_mono; lia). change (63 / 2)%nat with 31%nat in *. lia. }
  unfold t_move, t_limit. destruct (Nat.eqb n 1); [lia|]. set (l := (100 - Nat.div2 n)%nat). assert (69 <= l <= 100)%nat by (unfold l; lia).
  assert (Q : (0 <= l / 4)%nat) by lia. lia.
Qed.

Definition tplace (h n : nat) (p : place) : Prop := p = TC h n \/ gplace n p.
Lemma cache_insert_ok b c s h r E : inv b s (r :: E) -> rk r = true -> 1 <= rn r <= 63 ->
  exists s', cache_insert c s h (rx r) = Ok s' /\ inv b s' E /\ only (tplace h (Z.to_nat (rn r))) s s'.
Proof.
  intros I K N. unfold cache_insert. destruct (inv_header _ _ _ r I (or_introl eq_refl) K) as (-> & HC & _). cbn [bind]. rewrite HC.
  replace ((rn r <? 1) || (63 <? rn r)) with false by (symmetry; apply orb_false_iff; split; apply Z.ltb_ge; lia).
  set (n := Z.to_nat (rn r)). assert (NN : (1 <= n <= 63)%nat) by (unfold n; lia). assert (EN : rn r = Z.of_nat n) by (unfold n; lia).
  destruct (t_limit_big n NN) as (L1 & L2 & L3).
  assert (OK : Forall (okp (TC h n)) [r]) by (constructor; [split; [auto|split; auto]|constructor]).
  assert (LT : (length (cache s (TC h n)) < t_limit n)%nat) by (destruct I as (T & I); apply (i_lim _ _ _ _ I (TC h n)); auto).
  destruct (Nat.eqb (length (rx r :: cache s (TC h n))) (t_limit n)) eqn:Q.
  - apply Nat.eqb_eq in Q. set (k := t_move n) in *. set (l := rx r :: cache s (TC h n)) in *.
    (* l is split into what stays and what moves *)
    destruct (inv_outs b s (TC h n) (cache s (TC h n)) [] (r :: E) I) as (cs & G1 & G2 & G3).
    { exact Logic.I. } { rewrite app_nil_r; auto. } { cbn. lia. }
    set (all := r :: cs). assert (AL : map rx all = l) by (unfold all, l; cbn [map]; rewrite G1; auto).
    assert (FA : Forall (okp (TC h n)) all) by (inversion OK; constructor; auto).
    assert (I1 : inv b (set_cache (set_cache s (TC h n) []) (TC h n) (skipn k l)) (rev (firstn k all) ++ E)).
    { apply inv_ins with (rs := skipn k all).
      - eapply inv_perm; [|exact G3]. transitivity (all ++ E); [unfold all; perm|]. rewrite <- (firstn_skipn k all) at 1. rewrite <- Permutation_rev. perm.
      - exact Logic.I.
      - rewrite <- (firstn_skipn k all) in FA. apply Forall_app in FA. apply FA.
      - cbn [cache set_cache]. rewrite pput_same, app_nil_r, <- skipn_map, AL. auto.
      - cbn [lim]. intros _. rewrite skipn_length, Q. lia. }
    assert (I2 : inv b (set_cache s (TC h n) (skipn k l)) (rev (firstn k all) ++ E)).
    { eapply inv_same; [|exact I1]. split; [|split; [|split; [|split]]]; auto. intro p. cbn [cache set_cache]. unfold pput. destruct (place_eq p (TC h n)); auto. }
    assert (EQ : rev (firstn k l) = map rx (rev (firstn k all))) by (rewrite map_rev, <- firstn_map, AL; auto).
    rewrite EQ. destruct (global_insert_ok b c _ (rev (firstn k all)) n E I2) as (s' & A & B & (O1 & O2)).
    + apply Forall_rev. rewrite <- (firstn_skipn k all) in FA. apply Forall_app in FA as (FA & _). eapply Forall_impl; [|exact FA]. intros q Hq. exact Hq.
    + auto.
    + exists s'. split; auto. split; auto. split; [exact O1|]. intros p NP. rewrite O2 by (intro; apply NP; right; auto). cbn [cache set_cache]. apply pput_other. intro; subst; apply NP; left; auto.
  - apply Nat.eqb_neq in Q. eexists. split; [reflexivity|]. split.
    + apply inv_ins with (rs := [r]); auto.
      * exact Logic.I.
      * cbn [lim]. intros _. cbn [length] in *. lia.
    + split; [split; reflexivity|]. intros p NP. cbn [cache set_cache]. apply pput_other. intro; subst; apply NP; left; auto.
Qed.

Lemma inv_mark b s x n m bb k E : inv b s (mkrun x n m bb :: E) -> 1 <= k <= n ->
  exists s', mark s m x k = Ok s' /\ inv b s' (mkrun x k m true :: rest x n m k ++ E) /\ same_places s s' /\ maps s' = maps s.
Proof.
  intros (T & I) B. assert (C := i_core _ _ _ _ I). cbn [app] in C. destruct (core_mark s x n m bb k _ C B) as (s' & A & C' & P & M).
  exists s'. split; auto. split; auto. exists T. eapply inv_core; [exact P|exact I| |].
  - cbn [app]. rewrite <- app_assoc. auto.
  - intro BT. assert (K := i_mast _ _ _ _ I BT). cbn [app] in *. rewrite <- app_assoc, M. eapply masters_split; eauto.
Qed.
Lemma inv_setcnt b s x n m k E : inv b s (mkrun x n m true :: E) -> 1 <= k <= n ->
  exists s', (do d <- rdh s x; wrh s x (mkhdr (h_master d) (h_sub d) (h_off d) k (h_total d) (h_remain d))) = Ok s' /\
    inv b s' (mkrun x k m true :: rest x n m k ++ E) /\ same_places s s' /\ maps s' = maps s.
Proof.
  intros (T & I) B. assert (C := i_core _ _ _ _ I). cbn [app] in C. destruct (core_setcnt s x n m k _ C B) as (s' & A & C' & P & M).
  exists s'. split; auto. split; auto. exists T. eapply inv_core; [exact P|exact I| |].
  - cbn [app]. rewrite <- app_assoc. auto.
  - intro BT. assert (K := i_mast _ _ _ _ I BT). cbn [app] in *. rewrite <- app_assoc, M. eapply masters_split; eauto.
Qed.
Lemma mark_set_hres s m x k h r s' : mark s m x k = Ok s' -> mark (set_hres s h r) m x k = Ok (set_hres s' h r).
Proof.
  unfold mark, rdh, wrh. cbn [maps hdrs set_hres]. destruct (mapped (maps s) x); [|discriminate]. cbn [bind]. destruct (x =? m); intro E; inversion E; reflexivity.
Qed.
Lemma mark_set_gres s m x k r s' : mark s m x k = Ok s' -> mark (set_gres s r) m x k = Ok (set_gres s' r).
Proof.
  unfold mark, rdh, wrh. cbn [maps hdrs set_gres]. destruct (mapped (maps s) x); [|discriminate]. cbn [bind]. destruct (x =? m); intro E; inversion E; reflexivity.
Qed.
Lemma mark_unset s m x k : (exists s', mark s m x k = Ok s') <-> mapped (maps s) x = true.
Proof.
  unfold mark, rdh, wrh. destruct (mapped (maps s) x); cbn [bind]; split; intro A; auto; try discriminate.
  - destruct (x =? m); eauto.
  - destruct A as (? & A). discriminate.
Qed.

(* part of the reserve of a heap *)
Lemma from_reserve_ok b s h n E : inv b s E -> 1 <= n <= r_cnt (hres s h) ->
  exists x m s', from_reserve s h n = Ok (Some x, s') /\ inv b s' (mkrun x n m true :: E) /\ cache s' = cache s /\ gres s' = gres s /\
    hres s' h = mkres m (x + n) (r_cnt (hres s h) - n) /\ (forall k, k <> h -> hres s' k = hres s k).
Proof.
  intros I B. assert (I1 := inv_res_out _ _ h _ I ltac:(lia)). set (r := hres s h) in *.
  destruct (inv_mark _ _ _ _ _ _ n _ I1 ltac:(lia)) as (s1 & A & I2 & P & M).
  assert (MP : mapped (maps s) (r_start r) = true). { apply (mark_unset (set_hres s h res0) (r_master r) (r_start r) n). eauto. }
  destruct (proj2 (mark_unset s (r_master r) (r_start r) n) MP) as (s2 & A2).
  assert (A3 := mark_set_hres _ _ _ _ h res0 _ A2). rewrite A in A3. inversion A3; subst s1. clear A3.
  unfold from_reserve. fold r. rewrite (mark_set_hres _ _ _ _ h _ _ A2). cbn [bind]. exists (r_start r), (r_master r). eexists. split; [reflexivity|].
  destruct P as (P1 & P2 & P3). cbn [cache hres gres set_hres] in P1, P2, P3.
  assert (HE : forall k, k <> h -> hres s2 k = hres s k).
  { intros k N. assert (X := f_equal (fun f => f k) P2). cbn beta in X. rewrite !nput_other in X; auto. }
  cbn [cache gres hres set_hres]. rewrite P1, P3, nput_same. split; [|split; [auto|split; [auto|split; [auto|]]]].
  - unfold rest in I2. destruct (n <? r_cnt r) eqn:Q.
    + apply Z.ltb_lt in Q. assert (I3 : inv b (set_hres s2 h res0) (mkrun (r_start r + n) (r_cnt r - n) (r_master r) false :: mkrun (r_start r) n (r_master r) true :: E)) by (eapply inv_perm; [|exact I2]; perm).
      assert (I4 := inv_res_in _ _ h _ _ _ _ _ I3). cbn [hres set_hres] in I4. rewrite nput_same in I4. specialize (I4 eq_refl ltac:(lia)).
      eapply inv_same; [|exact I4]. split; [|split; [|split; [|split]]]; auto. intro k. cbn [hres set_hres]. unfold nput. destruct (Nat.eqb k h); auto.
    + apply Z.ltb_ge in Q. cbn [app] in I2. assert (I4 := inv_res_none _ _ h (mkres (r_master r) (r_start r + n) (r_cnt r - n)) _ I2). cbn [hres set_hres r_cnt] in I4. rewrite nput_same in I4.
      specialize (I4 eq_refl ltac:(lia)). eapply inv_same; [|exact I4]. split; [|split; [|split; [|split]]]; auto. intro k. cbn [hres set_hres]. unfold nput. destruct (Nat.eqb k h); auto.
  - intros k N. rewrite nput_other; auto.
Qed.

(* part of the global reserve *)
Lemma global_get_ok b s n E : inv b s E -> 1 <= n <= r_cnt (gres s) ->
  exists x m s', global_get s n = Ok (x, s') /\ inv b s' (mkrun x n m true :: E) /\ cache s' = cache s /\ hres s' = hres s /\
    gres s' = mkres m (x + n) (r_cnt (gres s) - n).
Proof.
  intros I B. destruct (inv_gres_out _ _ res0 _ I ltac:(lia) eq_refl) as (I1 & NE). set (r := gres s) in *.
  assert (GE : r_master r <= r_start r).
  { destruct I1 as (T & I1). apply (c_run _ _ _ (i_core _ _ _ _ I1) (mkrun (r_start r) (r_cnt r) (r_master r) false)). left; auto. }
  destruct (inv_mark _ _ _ _ _ _ n _ I1 ltac:(lia)) as (s1 & A & I2 & P & M).
  assert (MP : mapped (maps s) (r_start r) = true). { apply (mark_unset (set_gres s res0) (r_master r) (r_start r) n). eauto. }
  destruct (proj2 (mark_unset s (r_master r) (r_start r) n) MP) as (s2 & A2).
  assert (A3 := mark_set_gres _ _ _ _ res0 _ A2). rewrite A in A3. inversion A3; subst s1. clear A3.
  unfold global_get. fold r. rewrite A2. cbn [bind]. exists (r_start r), (r_master r). eexists. split; [reflexivity|].
  destruct P as (P1 & P2 & P3). cbn [cache hres gres set_gres] in P1, P2, P3. cbn [cache gres hres set_gres]. rewrite P1, P2.
  split; [|split; [auto|split; [auto|auto]]].
  unfold rest in I2. destruct (n <? r_cnt r) eqn:Q.
  - apply Z.ltb_lt in Q. assert (I3 : inv b (set_gres s2 res0) (mkrun (r_start r + n) (r_cnt r - n) (r_master r) false :: mkrun (r_start r) n (r_master r) true :: E)) by (eapply inv_perm; [|exact I2]; perm).
    assert (I4 := inv_gres_in _ _ _ _ _ _ _ I3). cbn [gres set_gres] in I4. specialize (I4 eq_refl ltac:(lia) ltac:(lia)). exact I4.
  - apply Z.ltb_ge in Q. cbn [app] in I2. assert (I4 := inv_gres_none _ _ (mkres (r_master r) (r_start r + n) (r_cnt r - n)) _ I2). cbn [gres set_gres r_cnt] in I4.
    specialize (I4 eq_refl ltac:(lia)). exact I4.
Qed.
