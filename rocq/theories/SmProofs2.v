(* Proofs about runs of spans (SmModel.v), part 2: where the runs are *)
From Coq Require Import ZArith List Lia Bool Permutation Arith.
From Verif Require Import Base SmModel SmProofs.
Import ListNotations.
Local Open Scope Z_scope.

Lemma run_eq (a b : run) : {a = b} + {a <> b}.
Proof. decide equality; try apply Z.eq_dec; apply bool_dec. Qed.
Definition cnt (z : run) (l : list run) : nat := count_occ run_eq l z.
Definition one (z x : run) : nat := count_occ run_eq [x] z.
Lemma cnt_cons z x l : cnt z (x :: l) = (one z x + cnt z l)%nat.
Proof. unfold cnt, one. cbn [count_occ]. destruct (run_eq x z); lia. Qed.
Lemma cnt_app z l k : cnt z (l ++ k) = (cnt z l + cnt z k)%nat.
Proof. apply count_occ_app. Qed.
Lemma cnt_nil z : cnt z [] = 0%nat. Proof. reflexivity. Qed.
Lemma cnt_perm l k : (forall z, cnt z l = cnt z k) -> Permutation l k.
Proof. intro A. apply (Permutation_count_occ run_eq). exact A. Qed.
Lemma perm_cnt l k : Permutation l k -> forall z, cnt z l = cnt z k.
Proof. intros P z. apply (Permutation_count_occ run_eq). exact P. Qed.
Ltac perm := apply cnt_perm; let z := fresh "z" in intro z;
  repeat match goal with H : @Permutation run _ _ |- _ => generalize (perm_cnt _ _ H z); clear H end; intros;
  repeat rewrite ?cnt_app, ?cnt_cons, ?cnt_nil in *; lia.

(* which runs are in a place, given a list of runs with their places *)
Definition runs_at (p : place) (T : list (place * run)) : list run := map snd (filter (fun q => if place_eq (fst q) p then true else false) T).
Lemma runs_at_app p T U : runs_at p (T ++ U) = runs_at p T ++ runs_at p U.
Proof. unfold runs_at. rewrite filter_app, map_app. reflexivity. Qed.
Lemma runs_at_same p rs : runs_at p (map (pair p) rs) = rs.
Proof. unfold runs_at. induction rs as [|r rs IH]; cbn [map filter fst]; auto. destruct (place_eq p p); [|congruence]. cbn [map snd]. rewrite IH. auto. Qed.
Lemma runs_at_other p q rs : p <> q -> runs_at q (map (pair p) rs) = [].
Proof. intro N. unfold runs_at. induction rs as [|r rs IH]; cbn [map filter fst]; auto. destruct (place_eq p q); [congruence|]. auto. Qed.
Lemma runs_at_perm p T U : Permutation T U -> Permutation (runs_at p T) (runs_at p U).
Proof.
  intro P. unfold runs_at. induction P; cbn [filter map]; auto.
  - destruct (place_eq (fst x) p); cbn [map]; auto.
  - destruct (place_eq (fst x) p), (place_eq (fst y) p); cbn [map]; auto. apply perm_swap.
  - eapply Permutation_trans; eauto.
Qed.
Lemma runs_at_out p T r l : Permutation (runs_at p T) (r :: l) -> exists T', Permutation T ((p, r) :: T') /\ Permutation (runs_at p T') l.
Proof.
  intro P. assert (I : In r (runs_at p T)) by (eapply Permutation_in; [apply Permutation_sym; exact P|left; auto]).
  unfold runs_at in I. apply in_map_iff in I as ([p' r'] & E & I). cbn [snd] in E. subst r'. apply filter_In in I as [I F]. cbn [fst] in F.
  destruct (place_eq p' p); [subst p'|discriminate]. destruct (in_split _ _ I) as (l1 & l2 & ->).
  exists (l1 ++ l2). assert (Q : Permutation (l1 ++ (p, r) :: l2) ((p, r) :: l1 ++ l2)) by (apply Permutation_sym, Permutation_middle).
  split; auto. apply (Permutation_cons_inv (a := r)). rewrite <- P. rewrite (runs_at_perm p _ _ Q).
  unfold runs_at at 2. cbn [filter fst]. destruct (place_eq p p); [|congruence]. cbn [map snd]. auto.
Qed.
Lemma runs_at_outs p rs : forall T l, Permutation (runs_at p T) (rs ++ l) -> exists T', Permutation T (map (pair p) rs ++ T') /\ Permutation (runs_at p T') l.
Proof.
  induction rs as [|r rs IH]; intros T l P; [exists T; auto|].
  destruct (runs_at_out p T r (rs ++ l) P) as (T1 & P1 & P2). destruct (IH T1 l P2) as (T2 & P3 & P4).
  exists T2. split; auto. cbn [map app]. rewrite P1. constructor. auto.
Qed.

Definition is_cache (p : place) : Prop := match p with Held | Res _ | GRes => False | _ => True end.
Definition okp (p : place) (r : run) : Prop :=
  match p with
  | Held => False
  | DF _ => rk r = true /\ 1 <= rn r <= 63
  | Own => rk r = true
  | TC _ n | GC n | OV n => rk r = true /\ 1 <= rn r <= 63 /\ rn r = Z.of_nat n
  | CC _ _ => rk r = true /\ rn r = 1
  | Res _ | GRes => True
  end.
Definition lim (p : place) (k : nat) : Prop :=
  match p with
  | TC _ n => (1 <= n <= 63 -> k < t_limit n)%nat
  | GC n => (1 <= n <= 63 -> k <= g_limit n)%nat
  | CC _ _ => (k <= 1)%nat
  | _ => True
  end.
Definition resrun (r : res) : list run := if 0 <? r_cnt r then [mkrun (r_start r) (r_cnt r) (r_master r) false] else [].

Record tagged (s : st) (T : list (place * run)) : Prop := {
  t_cache : forall p, is_cache p -> Permutation (cache s p) (map rx (runs_at p T));
  t_hres : forall h, Permutation (resrun (hres s h)) (runs_at (Res h) T);
  t_gres : Permutation (resrun (gres s)) (runs_at GRes T);
  t_ok : forall p r, In (p, r) T -> okp p r }.

(* [E]: runs in the hands of the program or of the function being run *)
Record invT (b : bool) (s : st) (E : list run) (T : list (place * run)) : Prop := {
  i_tag : tagged s T;
  i_core : core (hdrs s) (maps s) (E ++ map snd T);
  i_mast : b = true -> masters (maps s) (E ++ map snd T);
  i_lim : forall p, lim p (length (cache s p));
  i_hres : forall h, 0 <= r_cnt (hres s h);
  i_gres : 0 <= r_cnt (gres s);
  i_gsub : 0 < r_cnt (gres s) -> r_start (gres s) <> r_master (gres s) }.
Definition inv (b : bool) (s : st) (E : list run) : Prop := exists T, invT b s E T.

Lemma inv_perm b s E E' : Permutation E E' -> inv b s E -> inv b s E'.
Proof.
  intros P (T & I). destruct I as [I1 I2 I3 I4 I5 I6 I7]. exists T. split; auto.
  - eapply core_perm; [apply Permutation_app_tail; exact P|auto].
  - intro B. eapply masters_perm; [apply Permutation_app_tail; exact P|auto].
Qed.

Lemma inv_weaken s E : inv true s E -> forall b, inv b s E.
Proof. intros (T & I) b. destruct I as [I1 I2 I3 I4 I5 I6 I7]. exists T. split; auto. Qed.

(* states that agree everywhere *)
Definition same_st (s s' : st) : Prop := (forall i, hdrs s' i = hdrs s i) /\ maps s' = maps s /\ (forall p, cache s' p = cache s p) /\ (forall h, hres s' h = hres s h) /\ gres s' = gres s.
Lemma inv_same b s s' E : same_st s s' -> inv b s E -> inv b s' E.
Proof.
  intros (A1 & A2 & A3 & A4 & A5) (T & I). destruct I as [I1 I2 I3 I4 I5 I6 I7]. exists T. split.
  - destruct I1 as [T1 T2 T3 T4]. split; auto.
    + intros p P. rewrite A3. auto.
    + intros h. rewrite A4. auto.
    + rewrite A5. auto.
  - rewrite A2. eapply core_hdr; [exact I2| |]; intros; rewrite ?A1; auto.
  - rewrite A2. auto.
  - intro p. rewrite A3. auto.
  - intro h. rewrite A4. auto.
  - rewrite A5. auto.
  - rewrite A5. auto.
Qed.

(* the same places, new headers and mappings *)
Lemma tagged_same s s' T : same_places s s' -> tagged s T -> tagged s' T.
Proof. intros (A & B & C) [T1 T2 T3 T4]. split; auto; rewrite ?A, ?B, ?C; auto. Qed.
Lemma inv_core b s s' E E' T : same_places s s' -> invT b s E T -> core (hdrs s') (maps s') (E' ++ map snd T) ->
  (b = true -> masters (maps s') (E' ++ map snd T)) -> invT b s' E' T.
Proof.
  intros P [I1 I2 I3 I4 I5 I6 I7] C M. assert (P' := P). destruct P' as (A & B & D). split; auto.
  - eapply tagged_same; eauto.
  - rewrite A. auto.
  - rewrite B. auto.
  - rewrite D. auto.
  - rewrite D. auto.
Qed.

Lemma pput_same f p l : pput f p l p = l.
Proof. unfold pput. destruct (place_eq p p); congruence. Qed.
Lemma pput_other f p q l : q <> p -> pput f p l q = f q.
Proof. unfold pput. destruct (place_eq q p); congruence. Qed.
Lemma nput_same {A} (f : nat -> A) h v : nput f h v h = v.
Proof. unfold nput. rewrite Nat.eqb_refl. auto. Qed.
Lemma nput_other {A} (f : nat -> A) h k v : k <> h -> nput f h v k = f k.
Proof. intro N. unfold nput. destruct (Nat.eqb k h) eqn:Q; auto. apply Nat.eqb_eq in Q. congruence. Qed.

(* taking runs out of a cache *)
Lemma inv_outs b s p l k E : inv b s E -> is_cache p -> Permutation (cache s p) (l ++ k) -> lim p (length k) ->
  exists rs, map rx rs = l /\ Forall (okp p) rs /\ inv b (set_cache s p k) (rs ++ E).
Proof.
  intros (T & I) CP P LK. destruct I as [[T1 T2 T3 T4] I2 I3 I4 I5 I6 I7].
  assert (Q := Permutation_trans (Permutation_sym P) (T1 p CP)).
  apply Permutation_map_inv in Q as (all & E1 & E2). symmetry in E1. apply map_eq_app in E1 as (rs & ks & -> & R1 & R2).
  destruct (runs_at_outs p rs T ks E2) as (T' & P1 & P2).
  assert (PS : Permutation (map snd T) (rs ++ map snd T')).
  { rewrite P1, map_app, map_map. cbn [snd]. rewrite map_id. auto. }
  exists rs. split; auto. split.
  - apply Forall_forall. intros r J. apply T4. eapply Permutation_in; [apply Permutation_sym; exact P1|]. apply in_or_app. left. apply in_map. auto.
  - exists T'. assert (PE : Permutation (E ++ map snd T) ((rs ++ E) ++ map snd T')) by perm. split.
    + split.
      * intros q CQ. cbn [cache set_cache]. destruct (place_eq q p) as [->|N].
        -- rewrite pput_same, <- R2. apply Permutation_map, Permutation_sym. auto.
        -- rewrite pput_other by auto. rewrite (T1 q CQ). apply Permutation_map. rewrite (runs_at_perm q _ _ P1), runs_at_app, runs_at_other by auto. auto.
      * intro h. cbn [hres set_cache]. rewrite (T2 h), (runs_at_perm _ _ _ P1), runs_at_app, runs_at_other; auto. intro; subst p; destruct CP.
      * cbn [gres set_cache]. rewrite T3, (runs_at_perm _ _ _ P1), runs_at_app, runs_at_other; auto. intro; subst p; destruct CP.
      * intros q r J. apply T4. eapply Permutation_in; [apply Permutation_sym; exact P1|]. apply in_or_app. auto.
    + cbn [hdrs maps set_cache]. eapply core_perm; eauto.
    + cbn [maps set_cache]. intro B. eapply masters_perm; eauto.
    + intro q. cbn [cache set_cache]. destruct (place_eq q p) as [->|N]; [rewrite pput_same|rewrite pput_other by auto]; auto.
    + auto.
    + auto.
    + auto.
Qed.

(* putting runs in a cache *)
Lemma inv_ins b s p rs k E : inv b s (rs ++ E) -> is_cache p -> Forall (okp p) rs -> Permutation k (map rx rs ++ cache s p) -> lim p (length k) ->
  inv b (set_cache s p k) E.
Proof.
  intros (T & I) CP OK P LK. destruct I as [[T1 T2 T3 T4] I2 I3 I4 I5 I6 I7].
  assert (PS : map snd (map (pair p) rs ++ T) = rs ++ map snd T).
  { rewrite map_app, map_map. cbn [snd]. rewrite map_id. auto. }
  exists (map (pair p) rs ++ T). split.
  - split.
    + intros q CQ. cbn [cache set_cache]. rewrite runs_at_app. destruct (place_eq q p) as [->|N].
      * rewrite pput_same, runs_at_same, map_app, <- (T1 p CP). auto.
      * rewrite pput_other, runs_at_other by auto. apply (T1 q CQ).
    + intro h. cbn [hres set_cache]. rewrite runs_at_app, runs_at_other; [apply T2|]. intro; subst p; destruct CP.
    + cbn [gres set_cache]. rewrite runs_at_app, runs_at_other; [apply T3|]. intro; subst p; destruct CP.
    + intros q r J. apply in_app_or in J as [J|J]; auto. apply in_map_iff in J as (r' & E' & J). inversion E'; subst. rewrite Forall_forall in OK. auto.
  - cbn [hdrs maps set_cache]. rewrite PS. eapply core_perm; [|exact I2]. perm.
  - cbn [maps set_cache]. rewrite PS. intro B. eapply masters_perm; [|apply I3; auto]. perm.
  - intro q. cbn [cache set_cache]. destruct (place_eq q p) as [->|N]; [rewrite pput_same|rewrite pput_other by auto]; auto.
  - auto.
  - auto.
  - auto.
Qed.

Lemma perm_nil_r {A} (l : list A) : Permutation l [] -> l = [].
Proof. intro P. apply Permutation_nil, Permutation_sym; auto. Qed.

(* the reserve of a heap taken out and put in *)
Lemma inv_res_out b s h E : inv b s E -> 0 < r_cnt (hres s h) ->
  inv b (set_hres s h res0) (mkrun (r_start (hres s h)) (r_cnt (hres s h)) (r_master (hres s h)) false :: E).
Proof.
  intros (T & I) P0. destruct I as [[T1 T2 T3 T4] I2 I3 I4 I5 I6 I7].
  assert (P := T2 h). unfold resrun in P. destruct (0 <? r_cnt (hres s h)) eqn:Q; [|apply Z.ltb_ge in Q; lia].
  destruct (runs_at_out _ _ _ _ (Permutation_sym P)) as (T' & P1 & P2).
  set (r := mkrun (r_start (hres s h)) (r_cnt (hres s h)) (r_master (hres s h)) false) in *.
  assert (PS : Permutation (map snd T) (r :: map snd T')) by (rewrite P1; cbn [map snd]; auto).
  exists T'. split.
  - split.
    + intros p CP. cbn [cache set_hres]. rewrite (T1 p CP). apply Permutation_map. rewrite (runs_at_perm p _ _ P1).
      unfold runs_at at 1. cbn [filter fst]. destruct (place_eq (Res h) p); [subst p; destruct CP|]. auto.
    + intro k. cbn [hres set_hres]. destruct (Nat.eq_dec k h) as [->|N].
      * rewrite nput_same. apply perm_nil_r in P2. rewrite P2. auto.
      * rewrite nput_other by auto. rewrite (T2 k), (runs_at_perm _ _ _ P1). unfold runs_at at 1. cbn [filter fst]. destruct (place_eq (Res h) (Res k)); [congruence|]. auto.
    + cbn [gres set_hres]. rewrite T3, (runs_at_perm _ _ _ P1). unfold runs_at at 1. cbn [filter fst]. destruct (place_eq (Res h) GRes); [congruence|]. auto.
    + intros p q J. apply T4. eapply Permutation_in; [apply Permutation_sym; exact P1|right; auto].
  - cbn [hdrs maps set_hres]. eapply core_perm; [|exact I2]. perm.
  - cbn [maps set_hres]. intro B. eapply masters_perm; [|apply I3; auto]. perm.
  - auto.
  - intro k. cbn [hres set_hres]. destruct (Nat.eq_dec k h) as [->|N]; [rewrite nput_same; cbn; lia|rewrite nput_other by auto; auto].
  - auto.
  - auto.
Qed.

Lemma core_forget H M x n m b L : core H M (mkrun x n m b :: L) -> core H M (mkrun x n m false :: L).
Proof.
  intros [C1 C2 C3 C4]. split; auto.
  - intros r [<-|I]; [|apply C1; right; auto]. destruct (C1 _ (or_introl eq_refl)) as (A1 & A2 & A3 & _). split; [auto|]. split; [auto|]. split; [auto|]. discriminate.
  - inversion C2; subst. constructor; auto.
Qed.
Lemma masters_forget M x n m b b' L : masters M (mkrun x n m b :: L) -> masters M (mkrun x n m b' :: L).
Proof.
  intros K m' t I. destruct (K m' t I) as (r & [<-|J] & E); [exists (mkrun x n m b')|exists r]; split; auto; [left|right]; auto.
Qed.

Lemma inv_res_in b s h x n m bb E : inv b s (mkrun x n m bb :: E) -> r_cnt (hres s h) = 0 -> 1 <= n -> inv b (set_hres s h (mkres m x n)) E.
Proof.
  intros (T & I) Z0 N. destruct I as [[T1 T2 T3 T4] I2 I3 I4 I5 I6 I7]. set (r := mkrun x n m false).
  exists ((Res h, r) :: T). split.
  - split.
    + intros p CP. cbn [cache set_hres]. unfold runs_at. cbn [filter fst]. destruct (place_eq (Res h) p); [subst p; destruct CP|]. apply T1; auto.
    + intro k. cbn [hres set_hres]. destruct (Nat.eq_dec k h) as [->|NE].
      * rewrite nput_same. assert (P := T2 h). unfold resrun in P. rewrite Z0 in P. cbn in P. apply Permutation_nil in P.
        unfold resrun. cbn [r_cnt r_start r_master]. replace (0 <? n) with true by (symmetry; apply Z.ltb_lt; lia).
        unfold runs_at in *. cbn [filter fst]. destruct (place_eq (Res h) (Res h)); [|congruence]. cbn [map snd]. rewrite P. auto.
      * rewrite nput_other by auto. rewrite (T2 k). unfold runs_at. cbn [filter fst]. destruct (place_eq (Res h) (Res k)); [congruence|]. auto.
    + cbn [gres set_hres]. rewrite T3. unfold runs_at. cbn [filter fst]. destruct (place_eq (Res h) GRes); [congruence|]. auto.
    + intros p q [J|J]; auto. inversion J; subst. exact Logic.I.
  - cbn [hdrs maps set_hres map snd]. apply core_forget in I2. eapply core_perm; [|exact I2]. fold r. perm.
  - cbn [maps set_hres map snd]. intro B. assert (K := I3 B). apply (masters_forget _ _ _ _ _ false) in K. eapply masters_perm; [|exact K]. fold r. perm.
  - auto.
  - intro k. cbn [hres set_hres]. destruct (Nat.eq_dec k h) as [->|NE]; [rewrite nput_same; cbn [r_cnt]; lia|rewrite nput_other by auto; auto].
  - auto.
  - auto.
Qed.
(* an empty reserve may be written over with another empty one *)
Lemma inv_res_none b s h r E : inv b s E -> r_cnt (hres s h) = 0 -> r_cnt r = 0 -> inv b (set_hres s h r) E.
Proof.
  intros (T & I) Z0 Z1. destruct I as [[T1 T2 T3 T4] I2 I3 I4 I5 I6 I7]. exists T. split; auto.
  - split; auto. intro k. cbn [hres set_hres]. destruct (Nat.eq_dec k h) as [->|NE]; [|rewrite nput_other; auto]. rewrite nput_same.
    rewrite <- (T2 h). unfold resrun. rewrite Z0, Z1. auto.
  - intro k. cbn [hres set_hres]. destruct (Nat.eq_dec k h) as [->|NE]; [rewrite nput_same; lia|rewrite nput_other by auto; auto].
Qed.

(* the global reserve *)
Lemma inv_gres_out b s r' E : inv b s E -> 0 < r_cnt (gres s) -> r_cnt r' = 0 ->
  inv b (set_gres s r') (mkrun (r_start (gres s)) (r_cnt (gres s)) (r_master (gres s)) false :: E) /\ r_start (gres s) <> r_master (gres s).
Proof.
  intros (T & I) P0 R0. destruct I as [[T1 T2 T3 T4] I2 I3 I4 I5 I6 I7]. split; [|auto].
  assert (P := T3). unfold resrun in P. destruct (0 <? r_cnt (gres s)) eqn:Q; [|apply Z.ltb_ge in Q; lia].
  destruct (runs_at_out _ _ _ _ (Permutation_sym P)) as (T' & P1 & P2).
  set (r := mkrun (r_start (gres s)) (r_cnt (gres s)) (r_master (gres s)) false) in *.
  assert (PS : Permutation (map snd T) (r :: map snd T')) by (rewrite P1; cbn [map snd]; auto).
  exists T'. split.
  - split.
    + intros p CP. cbn [cache set_gres]. rewrite (T1 p CP). apply Permutation_map. rewrite (runs_at_perm p _ _ P1).
      unfold runs_at at 1. cbn [filter fst]. destruct (place_eq GRes p); [subst p; destruct CP|]. auto.
    + intro k. cbn [hres set_gres]. rewrite (T2 k), (runs_at_perm _ _ _ P1). unfold runs_at at 1. cbn [filter fst]. destruct (place_eq GRes (Res k)); [congruence|]. auto.
    + cbn [gres set_gres]. apply perm_nil_r in P2. rewrite P2. unfold resrun. rewrite R0. auto.
    + intros p q J. apply T4. eapply Permutation_in; [apply Permutation_sym; exact P1|right; auto].
  - cbn [hdrs maps set_gres]. eapply core_perm; [|exact I2]. perm.
  - cbn [maps set_gres]. intro B. eapply masters_perm; [|apply I3; auto]. perm.
  - auto.
  - auto.
  - cbn [gres set_gres]. lia.
  - cbn [gres set_gres]. lia.
Qed.
Lemma inv_gres_in b s x n m bb E : inv b s (mkrun x n m bb :: E) -> r_cnt (gres s) = 0 -> 1 <= n -> x <> m -> inv b (set_gres s (mkres m x n)) E.
Proof.
  intros (T & I) Z0 N NE. destruct I as [[T1 T2 T3 T4] I2 I3 I4 I5 I6 I7]. set (r := mkrun x n m false).
  exists ((GRes, r) :: T). split.
  - split.
    + intros p CP. cbn [cache set_gres]. unfold runs_at. cbn [filter fst]. destruct (place_eq GRes p); [subst p; destruct CP|]. apply T1; auto.
    + intro k. cbn [hres set_gres]. rewrite (T2 k). unfold runs_at. cbn [filter fst]. destruct (place_eq GRes (Res k)); [congruence|]. auto.
    + cbn [gres set_gres]. assert (P := T3). unfold resrun in P. rewrite Z0 in P. cbn in P. apply Permutation_nil in P.
      unfold resrun. cbn [r_cnt r_start r_master]. replace (0 <? n) with true by (symmetry; apply Z.ltb_lt; lia).
      unfold runs_at in *. cbn [filter fst]. destruct (place_eq GRes GRes); [|congruence]. cbn [map snd]. rewrite P. auto.
    + intros p q [J|J]; auto. inversion J; subst. exact Logic.I.
  - cbn [hdrs maps set_gres map snd]. apply core_forget in I2. eapply core_perm; [|exact I2]. fold r. perm.
  - cbn [maps set_gres map snd]. intro B. assert (K := I3 B). apply (masters_forget _ _ _ _ _ false) in K. eapply masters_perm; [|exact K]. fold r. perm.
  - auto.
  - auto.
  - cbn [gres set_gres r_cnt]. lia.
  - cbn [gres set_gres r_cnt r_start r_master]. auto.
Qed.
Lemma inv_gres_none b s r E : inv b s E -> r_cnt (gres s) = 0 -> r_cnt r = 0 -> inv b (set_gres s r) E.
Proof.
  intros (T & I) Z0 Z1. destruct I as [[T1 T2 T3 T4] I2 I3 I4 I5 I6 I7]. exists T. split; auto.
  - split; auto. cbn [gres set_gres]. rewrite <- T3. unfold resrun. rewrite Z0, Z1. auto.
  - cbn [gres set_gres]. lia.
  - cbn [gres set_gres]. lia.
Qed.
