(* Proofs about runs of spans (SmModel.v), part 1: the headers and the mappings *)
From Coq Require Import ZArith List Lia Bool Permutation.
From Verif Require Import Base SmModel.
Import ListNotations.
Local Open Scope Z_scope.

(* a run of spans: its first span, how many, the first span of the mapping it is part of, and whether its
   header has been written (a reserve has none) *)
Record run := mkrun { rx : Z; rn : Z; rm : Z; rk : bool }.
Definition apart (a b : run) : Prop := rx a + rn a <= rx b \/ rx b + rn b <= rx a.
Definition mapart (a b : Z * Z) : Prop := fst a + snd a <= fst b \/ fst b + snd b <= fst a.
Fixpoint sumn (m : Z) (l : list run) : Z :=
  match l with [] => 0 | r :: k => (if rm r =? m then rn r else 0) + sumn m k end.

Definition run_ok (H : Z -> hdr) (M : list (Z * Z)) (r : run) : Prop :=
  1 <= rn r /\ (exists t, In (rm r, t) M /\ rx r + rn r <= rm r + t) /\ rm r <= rx r /\
  (rk r = true -> h_cnt (H (rx r)) = rn r /\ (rx r <> rm r -> h_master (H (rx r)) = false /\ h_off (H (rx r)) = rx r - rm r)).
Record core (H : Z -> hdr) (M : list (Z * Z)) (L : list run) : Prop := {
  c_run : forall r, In r L -> run_ok H M r;
  c_dis : ForallOrdPairs apart L;
  c_mdis : ForallOrdPairs mapart M;
  c_map : forall m t, In (m, t) M -> 1 <= t /\ h_master (H m) = true /\ h_total (H m) = t /\ h_remain (H m) = sumn m L /\ 0 < sumn m L }.
(* every mapping still has its first run *)
Definition masters (M : list (Z * Z)) (L : list run) : Prop := forall m t, In (m, t) M -> exists r, In r L /\ rx r = m.

(* lists *)
Lemma fop_perm {A} (R : A -> A -> Prop) (Rs : forall a b, R a b -> R b a) l l' : Permutation l l' -> ForallOrdPairs R l -> ForallOrdPairs R l'.
Proof.
  induction 1; intro F; auto.
  - inversion F; subst. constructor; auto. eapply Permutation_Forall; eauto.
  - inversion F as [|? ? F1 F2]; subst. inversion F2 as [|? ? F3 F4]; subst. inversion F1; subst.
    constructor; [constructor; auto | constructor; auto].
Qed.
Lemma apart_sym a b : apart a b -> apart b a. Proof. unfold apart; lia. Qed.
Lemma mapart_sym a b : mapart a b -> mapart b a. Proof. unfold mapart; lia. Qed.
Lemma sumn_perm m l l' : Permutation l l' -> sumn m l = sumn m l'.
Proof. induction 1; cbn [sumn]; lia. Qed.
Lemma sumn_app m l k : sumn m (l ++ k) = sumn m l + sumn m k.
Proof. induction l; cbn [sumn app]; lia. Qed.
Lemma sumn_nonneg m l : (forall r, In r l -> 1 <= rn r) -> 0 <= sumn m l.
Proof.
  induction l as [|r k IH]; intro A; cbn [sumn]; [lia|].
  assert (A1 := A r (or_introl eq_refl)). assert (0 <= sumn m k) by (apply IH; intros; apply A; right; auto).
  destruct (rm r =? m); lia.
Qed.
Lemma sumn_zero m l : (forall r, In r l -> 1 <= rn r) -> sumn m l = 0 -> forall r, In r l -> rm r <> m.
Proof.
  induction l as [|a k IH]; intros A E r I; [destruct I|]. cbn [sumn] in E.
  assert (A1 := A a (or_introl eq_refl)). assert (Ak : forall r, In r k -> 1 <= rn r) by (intros; apply A; right; auto).
  assert (P := sumn_nonneg m k Ak). destruct (rm a =? m) eqn:Q; [lia|].
  destruct I as [<-|I]; [apply Z.eqb_neq; auto|]. apply IH; auto; lia.
Qed.
Lemma sumn_pos m l r : (forall r, In r l -> 1 <= rn r) -> In r l -> rm r = m -> rn r <= sumn m l.
Proof.
  induction l as [|a k IH]; intros A I E; [destruct I|]. cbn [sumn].
  assert (A1 := A a (or_introl eq_refl)). assert (Ak : forall r, In r k -> 1 <= rn r) by (intros; apply A; right; auto).
  assert (P := sumn_nonneg m k Ak). destruct I as [<-|I].
  - rewrite E, Z.eqb_refl. lia.
  - specialize (IH Ak I E). destruct (rm a =? m); lia.
Qed.

Lemma core_perm H M L L' : Permutation L L' -> core H M L -> core H M L'.
Proof.
  intros P C. destruct C as [C1 C2 C3 C4]. split.
  - intros r I. apply C1. eapply Permutation_in; [apply Permutation_sym; eauto|auto].
  - eapply fop_perm; eauto using apart_sym.
  - auto.
  - intros m t I. rewrite <- (sumn_perm m L L' P). auto.
Qed.
Lemma masters_perm M L L' : Permutation L L' -> masters M L -> masters M L'.
Proof. intros P K m t I. destruct (K m t I) as (r & R & E). exists r. split; auto. eapply Permutation_in; eauto. Qed.

Lemma mapped_in M m t i : In (m, t) M -> m <= i < m + t -> mapped M i = true.
Proof.
  intros I B. unfold mapped. apply existsb_exists. exists (m, t). split; auto. cbn [fst snd].
  apply andb_true_iff. split; [apply Z.leb_le | apply Z.ltb_lt]; lia.
Qed.

Lemma map_unique M m t m' t' i : ForallOrdPairs mapart M -> In (m, t) M -> In (m', t') M -> m <= i < m + t -> m' <= i < m' + t' -> (m, t) = (m', t').
Proof.
  induction M as [|a k IH]; intros F I J B C; [destruct I|].
  inversion F as [|? ? F1 F2]; subst. rewrite Forall_forall in F1.
  destruct I as [->|I], J as [Q|J]; auto.
  - assert (X := F1 _ J). unfold mapart in X. cbn [fst snd] in X. lia.
  - subst a. assert (X := F1 _ I). unfold mapart in X. cbn [fst snd] in X. lia.
Qed.

Lemma take_map_in l m t : In (m, t) l -> exists k, take_map l m t = Some k.
Proof.
  induction l as [|[a b] l IH]; intro I; [destruct I|]. cbn [take_map fst snd].
  destruct ((a =? m) && (b =? t)) eqn:Q; [eauto|]. destruct I as [E|I].
  - inversion E; subst. rewrite !Z.eqb_refl in Q. discriminate.
  - destruct (IH I) as (k & ->). cbn [option_map]. eauto.
Qed.
Lemma take_map_perm l m t k : take_map l m t = Some k -> Permutation l ((m, t) :: k).
Proof.
  revert k; induction l as [|[a b] l IH]; intros k E; [discriminate|]. cbn [take_map fst snd] in E.
  destruct ((a =? m) && (b =? t)) eqn:Q.
  - inversion E; subst. apply andb_true_iff in Q as [Q1 Q2]. apply Z.eqb_eq in Q1, Q2. subst. auto.
  - destruct (take_map l m t) as [k'|] eqn:T; [|discriminate]. cbn [option_map] in E. inversion E; subst.
    rewrite (IH k' eq_refl). apply perm_swap.
Qed.

Lemma fop_in {A} (R : A -> A -> Prop) (a : A) (l : list A) (b : A) : ForallOrdPairs R (a :: l) -> In b l -> R a b.
Proof. intros F I. inversion F as [|? ? F1 F2]; subst. rewrite Forall_forall in F1. auto. Qed.

Lemma fop_tail {A} (R : A -> A -> Prop) (a : A) (l : list A) : ForallOrdPairs R (a :: l) -> ForallOrdPairs R l.
Proof. intro F. inversion F; auto. Qed.

(* the mapping of a run *)
Lemma run_mapped H M L r : core H M L -> In r L -> mapped M (rx r) = true /\ mapped M (rm r) = true.
Proof.
  intros C I. destruct (c_run _ _ _ C r I) as (N & (t & T & B) & G & _).
  destruct (c_map _ _ _ C _ _ T) as (T1 & _).
  split; eapply mapped_in; eauto; lia.
Qed.

Definition zero_range (H : Z -> hdr) (x n : Z) : Z -> hdr := fun i => if (x <=? i) && (i <? x + n) then hdr0 else H i.

(* header writes that leave runs alone *)
Lemma run_ok_hdr H H' M r : run_ok H M r -> (rk r = true -> h_cnt (H' (rx r)) = h_cnt (H (rx r)) /\
  (rx r <> rm r -> h_master (H' (rx r)) = h_master (H (rx r)) /\ h_off (H' (rx r)) = h_off (H (rx r)))) -> run_ok H' M r.
Proof.
  intros (A & B & C & D) E. split; [auto|]. split; [auto|]. split; [auto|]. intro K.
  destruct (D K) as (D1 & D2). destruct (E K) as (E1 & E2). rewrite E1. split; auto.
  intro N. destruct (D2 N). destruct (E2 N) as (-> & ->). auto.
Qed.

Definition same_places (s s' : st) : Prop := cache s' = cache s /\ hres s' = hres s /\ gres s' = gres s.
Lemma same_refl s : same_places s s. Proof. repeat split. Qed.
Lemma same_trans a b c : same_places a b -> same_places b c -> same_places a c.
Proof. intros (A & B & C) (D & E & F). unfold same_places. rewrite D, E, F. auto. Qed.

(* giving a run back *)
Lemma core_unmap c s r L : core (hdrs s) (maps s) (r :: L) -> rk r = true ->
  exists s', span_unmap c s (rx r) = Ok s' /\ core (hdrs s') (maps s') L /\ same_places s s' /\
    ((maps s' = maps s /\ 0 < sumn (rm r) L) \/ (sumn (rm r) L = 0 /\ exists t, Permutation (maps s) ((rm r, t) :: maps s'))).
Proof.
  intros C K. assert (C' := C). destruct C as [C1 C2 C3 C4].
  assert (R := C1 r (or_introl eq_refl)). destruct R as (N & (t & T & B) & G & D). destruct (D K) as (D1 & D2).
  destruct (run_mapped _ _ _ r C' (or_introl eq_refl)) as (M1 & M2).
  destruct (C4 _ _ T) as (T1 & T2 & T3 & T4 & T5).
  assert (SM : sumn (rm r) (r :: L) = rn r + sumn (rm r) L) by (cbn [sumn]; rewrite Z.eqb_refl; reflexivity).
  assert (HM : h_master (hdrs s (rx r)) = (rx r =? rm r)).
  { destruct (rx r =? rm r) eqn:Q; [apply Z.eqb_eq in Q; rewrite Q; auto|]. apply Z.eqb_neq in Q. apply D2; auto. }
  assert (MM : (if h_master (hdrs s (rx r)) then rx r else rx r - h_off (hdrs s (rx r))) = rm r).
  { rewrite HM. destruct (rx r =? rm r) eqn:Q; [apply Z.eqb_eq; auto|]. apply Z.eqb_neq in Q. destruct (D2 Q) as (_ & ->). lia. }
  unfold span_unmap. unfold rdh at 1. rewrite M1. cbn [bind]. rewrite MM, D1.
  set (H1 := if h_master (hdrs s (rx r)) then zput (hdrs s) (rx r) (mkhdr true true (h_off (hdrs s (rx r))) (rn r) (h_total (hdrs s (rx r))) (h_remain (hdrs s (rx r))))
             else if big c then hdrs s else zero_range (hdrs s) (rx r) (rn r)).
  assert (E1 : (if h_master (hdrs s (rx r))
      then wrh s (rx r) (mkhdr true true (h_off (hdrs s (rx r))) (rn r) (h_total (hdrs s (rx r))) (h_remain (hdrs s (rx r))))
      else if big c then Ok s else Ok (set_hdrs s (fun i : Z => if (rx r <=? i) && (i <? rx r + rn r) then hdr0 else hdrs s i))) = Ok (set_hdrs s H1)).
  { unfold wrh. rewrite M1. unfold H1. destruct (h_master (hdrs s (rx r))); auto. destruct (big c); auto. destruct s; reflexivity. }
  rewrite E1. cbn [bind]. clear E1.
  (* the headers of the other runs and of the masters *)
  assert (Q1 : h_master (H1 (rm r)) = true /\ h_total (H1 (rm r)) = t /\ h_remain (H1 (rm r)) = rn r + sumn (rm r) L /\ h_cnt (H1 (rm r)) = h_cnt (hdrs s (rm r))).
  { unfold H1. rewrite HM. destruct (rx r =? rm r) eqn:Q.
    - apply Z.eqb_eq in Q. unfold zput. rewrite <- Q, Z.eqb_refl. cbn [h_master h_total h_remain h_cnt]. rewrite Q. repeat split; try lia; auto. rewrite <- Q; lia.
    - apply Z.eqb_neq in Q. destruct (big c); [repeat split; auto; lia|]. unfold zero_range.
      replace ((rx r <=? rm r) && (rm r <? rx r + rn r)) with false by (symmetry; apply andb_false_iff; left; apply Z.leb_gt; lia).
      repeat split; auto; lia. }
  assert (Q2 : forall q, In q L -> rx q <> rm r -> H1 (rx q) = hdrs s (rx q)).
  { intros q I NE. assert (AP := fop_in _ _ _ _ C2 I). destruct (C1 q (or_intror I)) as (NQ & _).
    unfold H1. unfold apart in AP. destruct (h_master (hdrs s (rx r))).
    - unfold zput. destruct (rx q =? rx r) eqn:Q; auto. apply Z.eqb_eq in Q. lia.
    - destruct (big c); auto. unfold zero_range. destruct ((rx r <=? rx q) && (rx q <? rx r + rn r)) eqn:Q; auto.
      apply andb_true_iff in Q as [Qa Qb]. apply Z.leb_le in Qa. apply Z.ltb_lt in Qb. lia. }
  assert (Q3 : forall m' t', In (m', t') (maps s) -> m' <> rm r -> H1 m' = hdrs s m').
  { intros m' t' I NE. destruct (C4 _ _ I) as (I1 & _).
    assert (NI : ~ (rx r <= m' < rx r + rn r)).
    { intro Y. assert (Z := map_unique _ _ _ _ _ m' C3 T I). assert (E : (rm r, t) = (m', t')) by (apply Z; lia). inversion E; auto. }
    unfold H1. destruct (h_master (hdrs s (rx r))).
    - unfold zput. destruct (m' =? rx r) eqn:Q; auto. apply Z.eqb_eq in Q. lia.
    - destruct (big c); auto. unfold zero_range. destruct ((rx r <=? m') && (m' <? rx r + rn r)) eqn:Q; auto.
      apply andb_true_iff in Q as [Qa Qb]. apply Z.leb_le in Qa. apply Z.ltb_lt in Qb. lia. }
  assert (Q4 : forall q, In q L -> rx q = rm r -> h_cnt (H1 (rx q)) = h_cnt (hdrs s (rx q))).
  { intros q I ->. apply Q1. }
  destruct Q1 as (Q1a & Q1b & Q1c & Q1d).
  unfold rdh. cbn [maps set_hdrs]. rewrite M2. cbn [bind hdrs set_hdrs]. unfold wrh. cbn [maps set_hdrs]. rewrite M2. cbn [bind hdrs set_hdrs].
  rewrite Q1c. replace (rn r + sumn (rm r) L - rn r) with (sumn (rm r) L) by lia.
  set (H2 := zput H1 (rm r) (mkhdr (h_master (H1 (rm r))) (h_sub (H1 (rm r))) (h_off (H1 (rm r))) (h_cnt (H1 (rm r))) (h_total (H1 (rm r))) (sumn (rm r) L))).
  assert (NL : forall q, In q L -> 1 <= rn q) by (intros q I; apply (C1 q (or_intror I))).
  assert (PL : forall q, In q L -> run_ok H2 (maps s) q).
  { intros q I. assert (RQ := C1 q (or_intror I)). eapply run_ok_hdr; [exact RQ|]. intro KQ. unfold H2, zput.
    destruct (rx q =? rm r) eqn:Q.
    - apply Z.eqb_eq in Q. cbn [h_cnt h_master h_off]. rewrite Q1d, Q. split; auto. intro NE. exfalso.
      (* a run starting at the master of r is the master run *)
      destruct RQ as (_ & (tq & TQ & BQ) & GQ & _). assert (Z := map_unique _ _ _ _ _ (rx q) C3 T TQ).
      assert (NQ := NL q I); assert (E : (rm r, t) = (rm q, tq)) by (apply Z; lia). inversion E. congruence.
    - apply Z.eqb_neq in Q. rewrite (Q2 q I Q). auto. }
  assert (ML : forall m' t', In (m', t') (maps s) -> (m' = rm r -> 0 < sumn (rm r) L) ->
     1 <= t' /\ h_master (H2 m') = true /\ h_total (H2 m') = t' /\ h_remain (H2 m') = sumn m' L /\ 0 < sumn m' L).
  { intros m' t' I P. destruct (C4 _ _ I) as (I1 & I2 & I3 & I4 & I5). unfold H2, zput. destruct (m' =? rm r) eqn:Q.
    - apply Z.eqb_eq in Q. subst m'. cbn [h_master h_total h_remain].
      assert (E : (rm r, t') = (rm r, t)) by (eapply (map_unique _ _ _ _ _ (rm r) C3 I T); lia). inversion E; subst t'.
      split; [auto|]. split; [auto|]. split; [auto|]. split; [auto|auto].
    - apply Z.eqb_neq in Q. rewrite (Q3 m' t' I Q).
      cbn [sumn] in I4, I5. destruct (rm r =? m') eqn:Q'; [apply Z.eqb_eq in Q'; congruence|]. rewrite Z.add_0_l in I4, I5. auto. }
  assert (C2' := fop_tail _ _ _ C2).
  destruct (sumn (rm r) L <=? 0) eqn:Z0.
  - apply Z.leb_le in Z0. assert (P := sumn_nonneg (rm r) L NL). assert (ZE : sumn (rm r) L = 0) by lia.
    cbn [maps set_hdrs]. rewrite Q1b. destruct (take_map_in _ _ _ T) as (k & TK). rewrite TK. eexists. split; [reflexivity|].
    cbn [hdrs maps set_maps set_hdrs]. assert (PM := take_map_perm _ _ _ _ TK).
    assert (FK := fop_perm mapart mapart_sym _ _ PM C3). assert (FK2 := fop_tail _ _ _ FK).
    split; [|split; [repeat split|right; split; [auto|exists t; auto]]]. split.
    + intros q I. destruct (PL q I) as (A1 & (tq & A2 & A3) & A4 & A5). split; [auto|]. split; [|split; auto].
      exists tq. split; auto. assert (J := Permutation_in _ PM A2). destruct J as [E|J]; auto. inversion E. exfalso.
      eapply sumn_zero; eauto.
    + auto.
    + auto.
    + intros m' t' I. apply ML.
      * eapply Permutation_in; [apply Permutation_sym; exact PM|right; auto].
      * intro E. exfalso. subst m'. assert (X := fop_in _ _ _ _ FK I). unfold mapart in X. cbn [fst snd] in X.
        destruct (C4 (rm r) t') as (Y & _). { eapply Permutation_in; [apply Permutation_sym; exact PM|right; auto]. } lia.
  - apply Z.leb_gt in Z0. eexists. split; [reflexivity|]. cbn [hdrs maps set_maps set_hdrs].
    split; [|split; [repeat split|left; auto]]. split; auto.
Qed.

Lemma masters_unmap M M' r L : masters M (r :: L) -> ForallOrdPairs mapart M -> (forall q, In q (r :: L) -> run_ok (fun _ => hdr0) M (mkrun (rx q) (rn q) (rm q) false)) ->
  (forall m t, In (m, t) M -> 1 <= t) ->
  ((M' = M /\ 0 < sumn (rm r) L /\ rx r <> rm r) \/ (sumn (rm r) L = 0 /\ exists t, Permutation M ((rm r, t) :: M'))) -> masters M' L.
Proof.
  intros K F C TP [(-> & P & NE)|(Z0 & t & PM)] m t' I.
  - destruct (K m t' I) as (q & [<-|J] & E); [|eauto]. exfalso.
    destruct (C r (or_introl eq_refl)) as (N & (t & T & B) & G & _). cbn [rx rn rm] in *.
    assert (Y := map_unique _ _ _ _ _ (rx r) F T I). assert (T1 := TP _ _ I). assert (X : (rm r, t) = (m, t')) by (apply Y; lia). inversion X. congruence.
  - assert (I' : In (m, t') M) by (eapply Permutation_in; [apply Permutation_sym; exact PM|right; auto]).
    destruct (K m t' I') as (q & [<-|J] & E); [|eauto]. exfalso.
    destruct (C r (or_introl eq_refl)) as (N & (t2 & T & B) & G & _). cbn [rx rn rm] in *.
    assert (T1 := TP _ _ I'). assert (X : (rm r, t2) = (m, t')) by (eapply (map_unique _ _ _ _ _ (rx r) F T I'); lia).
    inversion X; subst m t'. assert (F2 := fop_perm mapart mapart_sym _ _ PM F). assert (Y := fop_in _ _ _ _ F2 I). unfold mapart in Y. cbn [fst snd] in Y.
    assert (T2 : 1 <= t) by (apply (TP (rm r)); eapply Permutation_in; [apply Permutation_sym; exact PM|left; auto]). lia.
Qed.

(* splitting a run that is being handed out in parts *)
Definition rest (x n m k : Z) : list run := if k <? n then [mkrun (x + k) (n - k) m false] else [].
Lemma rest_sum m' x n m k : k <= n -> sumn m' (rest x n m k) = if m =? m' then n - k else 0.
Proof.
  intro B. unfold rest. destruct (k <? n) eqn:Q; [apply Z.ltb_lt in Q|apply Z.ltb_ge in Q]; cbn [sumn rm rn]; destruct (m =? m'); lia.
Qed.

Lemma core_hdr H H' M L : core H M L ->
  (forall r, In r L -> rk r = true -> h_cnt (H' (rx r)) = h_cnt (H (rx r)) /\
     (rx r <> rm r -> h_master (H' (rx r)) = h_master (H (rx r)) /\ h_off (H' (rx r)) = h_off (H (rx r)))) ->
  (forall m t, In (m, t) M -> h_master (H' m) = h_master (H m) /\ h_total (H' m) = h_total (H m) /\ h_remain (H' m) = h_remain (H m)) ->
  core H' M L.
Proof.
  intros [C1 C2 C3 C4] A B. split; auto.
  - intros r I. eapply run_ok_hdr; eauto.
  - intros m t I. destruct (B m t I) as (-> & -> & ->). auto.
Qed.

Lemma core_split H M x n m b k L : core H M (mkrun x n m b :: L) -> 1 <= k <= n -> core H M (mkrun x k m (b && (k =? n)) :: rest x n m k ++ L).
Proof.
  intros C B. assert (C' := C). destruct C as [C1 C2 C3 C4].
  destruct (C1 _ (or_introl eq_refl)) as (N & (t & T & T2) & G & D). cbn [rx rn rm rk] in *.
  assert (AP : forall q, In q L -> x + n <= rx q \/ rx q + rn q <= x) by (intros q I; apply (fop_in _ _ _ _ C2 I)).
  split.
  - intros r [<-|I].
    + split; [cbn [rn]; lia|]. cbn [rx rn rm rk]. split; [exists t; split; auto; lia|]. split; [auto|].
      intro K. apply andb_true_iff in K as [K1 K2]. apply Z.eqb_eq in K2. subst k. auto.
    + apply in_app_or in I as [I|I]; [|apply C1; right; auto].
      unfold rest in I. destruct (k <? n) eqn:Q; [|destruct I]. apply Z.ltb_lt in Q. destruct I as [<-|[]].
      split; [cbn [rn]; lia|]. cbn [rx rn rm rk]. split; [exists t; split; auto; lia|]. split; [lia|]. discriminate.
  - assert (TL := fop_tail _ _ _ C2). constructor.
    + apply Forall_forall. intros q I. apply in_app_or in I as [I|I]; unfold apart; cbn [rx rn].
      * unfold rest in I. destruct (k <? n) eqn:Q; [|destruct I]. destruct I as [<-|[]]. cbn [rx rn]. lia.
      * destruct (AP q I); lia.
    + unfold rest. destruct (k <? n) eqn:Q; cbn [app]; auto. constructor; auto. apply Forall_forall. intros q I. unfold apart. cbn [rx rn]. destruct (AP q I); lia.
  - auto.
  - intros m' t' I. destruct (C4 m' t' I) as (A1 & A2 & A3 & A4 & A5). cbn [sumn rm rn] in A4, A5 |- *.
    rewrite sumn_app, rest_sum by lia. destruct (m =? m'); repeat split; auto; lia.
Qed.

Lemma masters_split M x n m b b' k L : masters M (mkrun x n m b :: L) -> masters M (mkrun x k m b' :: rest x n m k ++ L).
Proof.
  intros K m' t I. destruct (K m' t I) as (r & [<-|J] & E).
  - exists (mkrun x k m b'). split; [left; auto|]. exact E.
  - exists r. split; auto. right. apply in_or_app. auto.
Qed.

(* runs other than the first do not start where it does, nor inside it *)
Lemma others_not_at H M r L q : core H M (r :: L) -> In q L -> ~ (rx r <= rx q < rx r + rn r).
Proof.
  intros C I. assert (A := fop_in _ _ _ _ (c_dis _ _ _ C) I). destruct (c_run _ _ _ C q (or_intror I)) as (N & _). unfold apart in A. lia.
Qed.
Lemma starts_at_master H M L r m t : core H M L -> In r L -> In (m, t) M -> m <= rx r < m + t -> rm r = m.
Proof.
  intros C I T B. destruct (c_run _ _ _ C r I) as (N & (t' & T' & B') & G & _).
  assert (E : (rm r, t') = (m, t)) by (eapply (map_unique _ _ _ _ _ (rx r) (c_mdis _ _ _ C) T' T); lia). inversion E; auto.
Qed.

(* writing the header of a run handed out *)
Lemma core_mark s x n m b k L : core (hdrs s) (maps s) (mkrun x n m b :: L) -> 1 <= k <= n ->
  exists s', mark s m x k = Ok s' /\ core (hdrs s') (maps s') (mkrun x k m true :: rest x n m k ++ L) /\ same_places s s' /\ maps s' = maps s.
Proof.
  intros C B. assert (CS := core_split _ _ _ _ _ _ k _ C B).
  destruct (run_mapped _ _ _ _ C (or_introl eq_refl)) as (M1 & _). cbn [rx] in M1.
  destruct (c_run _ _ _ C _ (or_introl eq_refl)) as (N & (t & T & T2) & G & D). cbn [rx rn rm rk] in *.
  unfold mark, rdh, wrh. rewrite M1. cbn [bind].
  set (h' := if x =? m then mkhdr (h_master (hdrs s x)) (h_sub (hdrs s x)) (h_off (hdrs s x)) k (h_total (hdrs s x)) (h_remain (hdrs s x))
             else mkhdr false true (x - m) k (h_total (hdrs s x)) (h_remain (hdrs s x))).
  exists (set_hdrs s (zput (hdrs s) x h')).
  split; [unfold h'; destruct (x =? m); reflexivity|]. split; [|split; [repeat split|reflexivity]].
  cbn [hdrs maps set_hdrs].
  assert (C2 : core (hdrs s) (maps s) (mkrun x k m false :: rest x n m k ++ L)).
  { destruct CS as [S1 S2 S3 S4]. split; auto.
    - intros r [<-|I]; [|apply S1; right; auto]. destruct (S1 _ (or_introl eq_refl)) as (A & A2 & A3 & _). cbn [rx rn rm rk] in *.
      split; [auto|]. split; [auto|]. split; [auto|]. discriminate.
    - inversion S2; subst. constructor; auto. }
  assert (C3 : core (zput (hdrs s) x h') (maps s) (mkrun x k m false :: rest x n m k ++ L)).
  { eapply core_hdr; [exact C2| |].
    - intros r [<-|I] K; [discriminate|]. unfold zput. destruct (rx r =? x) eqn:Q; [|auto]. apply Z.eqb_eq in Q. exfalso.
      apply (others_not_at _ _ _ _ r C2 I). cbn [rx rn]. lia.
    - intros m' t' I. unfold zput. destruct (m' =? x) eqn:Q; [|auto]. apply Z.eqb_eq in Q. subst m'.
      assert (E : x = m). { destruct (c_map _ _ _ C _ _ I) as (T1 & _). symmetry. refine (starts_at_master _ _ _ (mkrun x n m b) x t' C (or_introl eq_refl) I _). cbn [rx]. lia. }
      subst m. unfold h'. rewrite Z.eqb_refl. auto. }
  destruct C3 as [S1 S2 S3 S4]. split; auto.
  - intros r [<-|I]; [|apply S1; right; auto]. destruct (S1 _ (or_introl eq_refl)) as (A & A2 & A3 & _). cbn [rx rn rm rk] in *.
    split; [auto|]. split; [auto|]. split; [auto|]. intros _. cbn [rx rn rm]. unfold zput. rewrite Z.eqb_refl. unfold h'.
    destruct (x =? m) eqn:Q; cbn [h_cnt h_master h_off]; split; auto. intro NE. apply Z.eqb_eq in Q. congruence.
  - inversion S2; subst. constructor; auto.
Qed.

(* rewriting the number of spans of a run whose header is there *)
Lemma core_setcnt s x n m k L : core (hdrs s) (maps s) (mkrun x n m true :: L) -> 1 <= k <= n ->
  exists s', (do d <- rdh s x; wrh s x (mkhdr (h_master d) (h_sub d) (h_off d) k (h_total d) (h_remain d))) = Ok s' /\
    core (hdrs s') (maps s') (mkrun x k m true :: rest x n m k ++ L) /\ same_places s s' /\ maps s' = maps s.
Proof.
  intros C B. destruct (core_mark s x n m true k L C B) as (s' & E & C' & P & M).
  destruct (run_mapped _ _ _ _ C (or_introl eq_refl)) as (M1 & _). cbn [rx] in M1.
  destruct (c_run _ _ _ C _ (or_introl eq_refl)) as (N & (t & T & T2) & G & D). cbn [rx rn rm rk] in *. destruct (D eq_refl) as (D1 & D2).
  unfold rdh, wrh. rewrite M1. cbn [bind]. eexists. split; [reflexivity|]. cbn [hdrs maps set_hdrs]. split; [|split; [repeat split|reflexivity]].
  unfold mark, rdh, wrh in E. rewrite M1 in E. cbn [bind] in E.
  assert (F : hdrs s' = zput (hdrs s) x (if x =? m then mkhdr (h_master (hdrs s x)) (h_sub (hdrs s x)) (h_off (hdrs s x)) k (h_total (hdrs s x)) (h_remain (hdrs s x)) else mkhdr false true (x - m) k (h_total (hdrs s x)) (h_remain (hdrs s x)))).
  { destruct (x =? m); inversion E; reflexivity. }
  rewrite M in C'. eapply core_hdr; [exact C'| |].
  - intros r I K. rewrite F. unfold zput. destruct (rx r =? x) eqn:Q; [|auto]. destruct (x =? m) eqn:Q2; cbn [h_cnt h_master h_off]; [auto|].
    apply Z.eqb_neq in Q2. destruct (D2 Q2) as (-> & ->). auto.
  - intros m' t' I. rewrite F. unfold zput. destruct (m' =? x) eqn:Q; [|auto]. destruct (x =? m) eqn:Q2; cbn [h_master h_total h_remain]; [auto|].
    apply Z.eqb_neq in Q2. destruct (D2 Q2) as (-> & _). auto.
Qed.

(* new memory from the system *)
Definition fresh (M : list (Z * Z)) (i a : Z) : Prop := forall m t, In (m, t) M -> i + a <= m \/ m + t <= i.
Lemma core_map_new H M L i a n : core H M L -> fresh M i a -> 1 <= n <= a ->
  core (zput H i (mkhdr true false 0 n a a)) ((i, a) :: M) (mkrun i n i true :: rest i a i n ++ L).
Proof.
  intros C F B. destruct C as [C1 C2 C3 C4].
  assert (OUT : forall q, In q L -> rx q + rn q <= i \/ i + a <= rx q).
  { intros q I. destruct (C1 q I) as (N & (t & T & T2) & G & _). destruct (F _ _ T); lia. }
  assert (C : core (zput H i (mkhdr true false 0 n a a)) ((i, a) :: M) (mkrun i a i false :: L)).
  { split.
    - intros r [<-|I].
      + split; [cbn [rn]; lia|]. cbn [rx rn rm rk]. split; [exists a; split; [left; auto|lia]|]. split; [lia|]. discriminate.
      + assert (N := C1 r I). assert (O := OUT r I). destruct N as (N1 & (t & T & T2) & G & D).
        eapply run_ok_hdr; [split; [exact N1|split; [exists t; split; [right; exact T|exact T2]|split; [exact G|exact D]]]|].
        intros _. unfold zput. destruct (rx r =? i) eqn:Q; auto. apply Z.eqb_eq in Q. lia.
    - constructor; auto. apply Forall_forall. intros q I. unfold apart. cbn [rx rn]. destruct (OUT q I); lia.
    - constructor; auto. apply Forall_forall. intros [m t] I. unfold mapart. cbn [fst snd]. destruct (F _ _ I); lia.
    - intros m t [E|I].
      + inversion E; subst m t. unfold zput. rewrite Z.eqb_refl. cbn [h_master h_total h_remain sumn rm rn]. rewrite Z.eqb_refl.
        assert (S0 : sumn i L = 0).
        { clear - C1 F B C4. assert (X : forall q, In q L -> rm q <> i).
          { intros q I E. destruct (C1 q I) as (N & (t & T & T2) & G & _). destruct (C4 _ _ T) as (T1 & _). destruct (F _ _ T); lia. }
          clear C1 C4. induction L as [|q L IH]; cbn [sumn]; auto. assert (Y := X q (or_introl eq_refl)). apply Z.eqb_neq in Y. rewrite Y, IH; auto.
          intros; apply X; right; auto. }
        repeat split; auto; lia.
      + destruct (C4 m t I) as (A1 & A2 & A3 & A4 & A5). assert (NE : m <> i) by (intro; subst m; destruct (F _ _ I); lia).
        unfold zput. cbn [sumn rm rn]. replace (m =? i) with false by (symmetry; apply Z.eqb_neq; auto). replace (i =? m) with false by (symmetry; apply Z.eqb_neq; auto).
        repeat split; auto; lia. }
  assert (CS := core_split _ _ _ _ _ _ n _ C B). destruct CS as [S1 S2 S3 S4]. split; auto.
  - intros r [<-|I]; [|apply S1; right; auto]. destruct (S1 _ (or_introl eq_refl)) as (A & A2 & A3 & _). cbn [rx rn rm rk] in *.
    split; [auto|]. split; [auto|]. split; [auto|]. intros _. cbn [rx rn rm]. unfold zput. rewrite Z.eqb_refl. cbn [h_cnt]. split; auto. congruence.
  - inversion S2; subst. constructor; auto.
Qed.
Lemma masters_map_new M L i a n : masters M L -> masters ((i, a) :: M) (mkrun i n i true :: rest i a i n ++ L).
Proof.
  intros K m t [E|I].
  - inversion E; subst. exists (mkrun m n m true). split; [left|]; auto.
  - destruct (K m t I) as (r & J & E). exists r. split; auto. right. apply in_or_app. auto.
Qed.

(* the program writing inside a run of its own *)
Lemma core_scribble H M L r i d : core H M L -> In r L -> rx r < i < rx r + rn r -> core (zput H i d) M L.
Proof.
  intros C I B. eapply core_hdr; [exact C| |].
  - intros q J K. unfold zput. destruct (rx q =? i) eqn:Q; [|auto]. exfalso. apply Z.eqb_eq in Q.
    destruct (in_split _ _ I) as (l1 & l2 & E). subst L.
    assert (C' := core_perm _ _ _ _ (Permutation_sym (Permutation_middle l1 l2 r)) C).
    assert (J' := Permutation_in _ (Permutation_sym (Permutation_middle l1 l2 r)) J). destruct J' as [->|J']; [lia|].
    apply (others_not_at _ _ _ _ q C' J'). lia.
  - intros m t J. unfold zput. destruct (m =? i) eqn:Q; [|auto]. exfalso. apply Z.eqb_eq in Q. subst m.
    destruct (c_run _ _ _ C r I) as (N & (t' & T & T2) & G & _). destruct (c_map _ _ _ C _ _ J) as (T1 & _).
    assert (E : (rm r, t') = (i, t)) by (eapply (map_unique _ _ _ _ _ i (c_mdis _ _ _ C) T J); lia). inversion E. lia.
Qed.
