(* Proofs about runs of spans (SmModel.v), part 7: what the invariant says, and the end of the program *)
From Coq Require Import ZArith List Lia Bool Permutation Arith.
From Verif Require Import Base SmModel SmProofs SmProofs2 SmProofs3 SmProofs4 SmProofs5 SmProofs6.
Import ListNotations.
Local Open Scope Z_scope.

(* a run of [n] spans from [x] on is at a place *)
Definition at_place (s : st) (p : place) (x n : Z) : Prop :=
  match p with
  | Res h => r_start (hres s h) = x /\ r_cnt (hres s h) = n /\ 0 < n
  | GRes => r_start (gres s) = x /\ r_cnt (gres s) = n /\ 0 < n
  | _ => In x (cache s p) /\ h_cnt (hdrs s x) = n
  end.

Definition every (hs : list run) (T : list (place * run)) : list (place * run) := map (pair Held) hs ++ T.
Lemma every_snd hs T : map snd (every hs T) = hs ++ map snd T.
Proof. unfold every. rewrite map_app, map_map. cbn [snd]. rewrite map_id. auto. Qed.

Lemma runs_at_in p r T : In r (runs_at p T) <-> In (p, r) T.
Proof.
  unfold runs_at. rewrite in_map_iff. split.
  - intros ([p' r'] & E & I). cbn [snd] in E. subst r'. apply filter_In in I as [I F]. cbn [fst] in F. destruct (place_eq p' p); [subst; auto|discriminate].
  - intro I. exists (p, r). split; auto. apply filter_In. split; auto. cbn [fst]. destruct (place_eq p p); congruence.
Qed.

Lemma core_count H M L r : core H M L -> In r L -> rk r = true -> h_cnt (H (rx r)) = rn r.
Proof. intros C I K. destruct (c_run _ _ _ C r I) as (_ & _ & _ & A). apply A; auto. Qed.

Lemma res_in r l : Permutation (resrun r) l -> forall q, In q l -> rx q = r_start r /\ rn q = r_cnt r /\ 0 < r_cnt r.
Proof.
  intros P q I. apply (Permutation_in _ (Permutation_sym P)) in I. unfold resrun in I. destruct (0 <? r_cnt r) eqn:Q; [|destruct I]. apply Z.ltb_lt in Q.
  destruct I as [<-|[]]. cbn. auto.
Qed.

Lemma place_run s hs lost T : Permutation (cache s Held) (map rx hs) -> Forall hok hs -> invT true s (hs ++ lost) T ->
  forall p x n, at_place s p x n <-> exists r, In (p, r) (every hs T) /\ rx r = x /\ rn r = n.
Proof.
  intros PH FH I p x n. assert (C := i_core _ _ _ _ I). assert (TG := i_tag _ _ _ _ I).
  assert (CASE : forall r, In (p, r) (every hs T) <-> (p = Held /\ In r hs) \/ In (p, r) T).
  { intro r. unfold every. rewrite in_app_iff, in_map_iff. split; intros [A|A]; auto.
    - destruct A as (q & A & B). inversion A; subst. auto.
    - destruct A as (-> & A). left. eauto. }
  assert (KH : forall r, In r hs -> h_cnt (hdrs s (rx r)) = rn r).
  { intros r J. eapply core_count; [exact C|apply in_or_app; left; apply in_or_app; auto|]. rewrite Forall_forall in FH. apply FH; auto. }
  assert (KT : forall r, In (p, r) T -> is_cache p -> h_cnt (hdrs s (rx r)) = rn r).
  { intros r J CP. eapply core_count; [exact C|apply in_or_app; right; apply in_map_iff; exists (p, r); auto|]. eapply okp_k; [exact CP|]. apply (t_ok _ _ TG _ _ J). }
  destruct (place_eq p Held) as [->|NH].
  { cbn [at_place]. split.
    - intros (J & HC). apply (Permutation_in _ PH) in J. apply in_map_iff in J as (r & <- & J). exists r. split; [apply CASE; auto|]. split; auto. rewrite <- (KH r J). auto.
    - intros (r & J & <- & <-). apply CASE in J. destruct J as [(_ & J)|J]; [|exfalso; apply (t_ok _ _ TG _ _ J)].
      split; [|apply KH; auto]. eapply Permutation_in; [apply Permutation_sym; exact PH|apply in_map; auto]. }
  assert (CD : is_cache p \/ (exists h, p = Res h) \/ p = GRes) by (destruct p; cbn; eauto).
  destruct CD as [CP|[(h & ->)| ->]].
  - assert (AP : at_place s p x n <-> In x (cache s p) /\ h_cnt (hdrs s x) = n) by (destruct p; cbn in *; tauto). rewrite AP. assert (P := t_cache _ _ TG p CP). split.
    + intros (J & HC). apply (Permutation_in _ P) in J. apply in_map_iff in J as (r & <- & J). apply runs_at_in in J. exists r. split; [apply CASE; auto|]. split; auto. rewrite <- (KT r J CP). auto.
    + intros (r & J & <- & <-). apply CASE in J. destruct J as [(X & _)|J]; [congruence|]. split; [|apply KT; auto].
      eapply Permutation_in; [apply Permutation_sym; exact P|]. apply in_map, runs_at_in. auto.
  - assert (P := t_hres _ _ TG h). cbn [at_place]. split.
    + intros (<- & <- & N). unfold resrun in P. replace (0 <? r_cnt (hres s h)) with true in P by (symmetry; apply Z.ltb_lt; auto).
      exists (mkrun (r_start (hres s h)) (r_cnt (hres s h)) (r_master (hres s h)) false). split; [|auto]. apply CASE. right. apply runs_at_in. eapply Permutation_in; [exact P|left; auto].
    + intros (r & J & <- & <-). apply CASE in J. destruct J as [(X & _)|J]; [congruence|]. apply runs_at_in in J. destruct (res_in _ _ P r J) as (-> & -> & ?). auto.
  - assert (P := t_gres _ _ TG). cbn [at_place]. split.
    + intros (<- & <- & N). unfold resrun in P. replace (0 <? r_cnt (gres s)) with true in P by (symmetry; apply Z.ltb_lt; auto).
      exists (mkrun (r_start (gres s)) (r_cnt (gres s)) (r_master (gres s)) false). split; [|auto]. apply CASE. right. apply runs_at_in. eapply Permutation_in; [exact P|left; auto].
    + intros (r & J & <- & <-). apply CASE in J. destruct J as [(X & _)|J]; [congruence|]. apply runs_at_in in J. destruct (res_in _ _ P r J) as (-> & -> & ?). auto.
Qed.

Lemma fop_two W : ForallOrdPairs apart (map snd W) -> forall (a b : place * run), In a W -> In b W -> a = b \/ apart (snd a) (snd b).
Proof.
  induction W as [|w W IH]; intros F a b A B; [destruct A|]. cbn [map] in F.
  destruct A as [<-|A], B as [<-|B]; auto.
  - right. eapply fop_in; [exact F|apply in_map; auto].
  - right. apply apart_sym. eapply fop_in; [exact F|apply in_map; auto].
  - apply IH; auto. eapply fop_tail; eauto.
Qed.
Lemma fop_prefix {A} (R : A -> A -> Prop) l k : ForallOrdPairs R (l ++ k) -> ForallOrdPairs R l.
Proof.
  induction l as [|a l IH]; cbn [app]; intro F; [constructor|]. inversion F as [|? ? F1 F2]; subst. constructor; auto. apply Forall_app in F1. tauto.
Qed.
Lemma fop_filter {A} (R : A -> A -> Prop) f l : ForallOrdPairs R l -> ForallOrdPairs R (filter f l).
Proof.
  induction 1 as [|a l F1 F2 IH]; cbn [filter]; [constructor|]. destruct (f a); auto. constructor; auto. rewrite Forall_forall in *. intros x J. apply filter_In in J as [J _]. auto.
Qed.
Lemma fop_map {A B} (g : A -> B) (R : B -> B -> Prop) l : ForallOrdPairs R (map g l) <-> ForallOrdPairs (fun a b => R (g a) (g b)) l.
Proof.
  induction l as [|a l IH]; cbn [map]; split; intro F; try constructor; inversion F as [|? ? F1 F2]; subst; try (apply IH; auto).
  - rewrite Forall_map in F1. auto.
  - rewrite Forall_map. auto.
Qed.
Lemma apart_nodup l : ForallOrdPairs apart l -> (forall r, In r l -> 1 <= rn r) -> NoDup (map rx l).
Proof.
  induction 1 as [|a l F1 F2 IH]; cbn [map]; intro W; [constructor|]. constructor; [|apply IH; intros; apply W; right; auto].
  intro J. apply in_map_iff in J as (q & E & J). rewrite Forall_forall in F1. assert (A := F1 q J). assert (W1 := W a (or_introl eq_refl)). assert (W2 := W q (or_intror J)). unfold apart in A. lia.
Qed.

(* what holds of every state *)
Record sound (s : st) : Prop := {
  o_mapped : forall p x n, at_place s p x n -> 1 <= n /\ exists m t, In (m, t) (maps s) /\ m <= x /\ x + n <= m + t;
  o_apart : forall p x n q y k, at_place s p x n -> at_place s q y k -> (p, x) = (q, y) \/ x + n <= y \/ y + k <= x;
  o_once : forall p, (match p with Res _ | GRes => False | _ => True end) -> NoDup (cache s p);
  o_maps : forall m t m' t', In (m, t) (maps s) -> In (m', t') (maps s) -> (m, t) = (m', t') \/ m + t <= m' \/ m' + t' <= m;
  o_size : forall p x n, at_place s p x n -> match p with
    | TC _ k | GC k | OV k => n = Z.of_nat k /\ (1 <= k <= 63)%nat | CC _ _ => n = 1 | Held | DF _ => 1 <= n <= 63 | _ => True end }.

Lemma core_all s hs lost T : invT true s (hs ++ lost) T -> core (hdrs s) (maps s) (map snd (every hs T) ++ lost).
Proof. intro I. eapply core_perm; [|apply (i_core _ _ _ _ I)]. rewrite every_snd. perm. Qed.

Lemma fop_one {A} (R : A -> A -> Prop) (Rs : forall a b, R a b -> R b a) l a b : ForallOrdPairs R l -> In a l -> In b l -> a = b \/ R a b.
Proof.
  induction 1 as [|x l F1 F2 IH]; intros A1 B1; [destruct A1|]. rewrite Forall_forall in F1. destruct A1 as [<-|A1], B1 as [<-|B1]; auto.
Qed.

Lemma sinv_sound s hs lost : sinv s hs lost -> sound s.
Proof.
  intros [PH FH (T & I)]. assert (PR := place_run s hs lost T PH FH I). assert (C := core_all _ _ _ _ I). assert (TG := i_tag _ _ _ _ I).
  assert (F : ForallOrdPairs apart (map snd (every hs T))) by (eapply fop_prefix; apply (c_dis _ _ _ C)).
  assert (IN : forall p r, In (p, r) (every hs T) -> In r (map snd (every hs T) ++ lost)) by (intros p r J; apply in_or_app; left; apply in_map_iff; exists (p, r); auto).
  split.
  - intros p x n A. apply PR in A as (r & J & <- & <-). destruct (c_run _ _ _ C r (IN _ _ J)) as (A1 & (t & A2 & A3) & A4 & _). split; auto. exists (rm r), t. auto.
  - intros p x n q y k A B. apply PR in A as (r & J & <- & <-). apply PR in B as (r' & J' & <- & <-). destruct (fop_two _ F _ _ J J') as [E|E]; [inversion E; auto|right; exact E].
  - intros p NP. destruct (place_eq p Held) as [->|NH].
    + eapply Permutation_NoDup; [apply Permutation_sym; exact PH|]. apply apart_nodup.
      * rewrite every_snd in F. eapply fop_prefix; eauto.
      * intros r J. rewrite Forall_forall in FH. apply FH in J. destruct J. lia.
    + assert (CP : is_cache p) by (destruct p; cbn in *; auto; congruence). eapply Permutation_NoDup; [apply Permutation_sym; apply (t_cache _ _ TG p CP)|]. apply apart_nodup.
      * unfold runs_at. apply fop_map, fop_filter, fop_map. rewrite every_snd in F. eapply fop_prefix. eapply fop_perm; [apply apart_sym|apply Permutation_app_comm|exact F].
      * intros r J. apply runs_at_in in J. apply (c_run _ _ _ C r). apply (IN p). unfold every. apply in_or_app. auto.
  - intros m t m' t' A B. apply (fop_one _ mapart_sym _ _ _ (c_mdis _ _ _ C) A B).
  - intros p x n A. apply PR in A as (r & J & <- & <-). unfold every in J. apply in_app_iff in J as [J|J].
    + apply in_map_iff in J as (q & E & J). inversion E; subst. rewrite Forall_forall in FH. apply FH; auto.
    + assert (O := t_ok _ _ TG _ _ J). destruct p; cbn in O |- *; try tauto; try lia.
Qed.

(* how long the caches get: the arrays of rpmalloc.c 635-660 have room for 400, 100 and 3200 runs *)
Lemma sinv_limits s hs lost : sinv s hs lost ->
  (forall h n, (length (cache s (TC h n)) < (if Nat.eqb n 1 then 400 else 100))%nat) /\
  (forall n, (length (cache s (GC n)) <= (if Nat.eqb n 1 then 3200 else 800))%nat) /\
  (forall h k, (length (cache s (CC h k)) <= 1)%nat).
Proof.
  intros [_ _ (T & I)]. assert (TG := i_tag _ _ _ _ I).
  assert (EM : forall p n, p = GC n \/ (exists h, p = TC h n) -> ~ (1 <= n <= 63)%nat -> cache s p = []).
  { intros p n Q N. assert (CP : is_cache p) by (destruct Q as [->|(h & ->)]; cbn; auto). assert (P := t_cache _ _ TG p CP).
    destruct (runs_at p T) as [|r l] eqn:R; [apply perm_nil_r; exact P|]. exfalso. assert (J : In r (runs_at p T)) by (rewrite R; left; auto). apply runs_at_in in J.
    assert (O := t_ok _ _ TG _ _ J). destruct Q as [->|(h & ->)]; cbn in O; lia. }
  assert (LB : forall n, (t_limit n <= if Nat.eqb n 1 then 400 else 100)%nat). { intro n. unfold t_limit. destruct (Nat.eqb n 1); lia. }
  assert (D : forall n, (1 <= n <= 63)%nat \/ ~ (1 <= n <= 63)%nat) by (intro; lia).
  split; [|split].
  - intros h n. destruct (D n) as [Y|Y].
    + assert (A := i_lim _ _ _ _ I (TC h n) Y). specialize (LB n). lia.
    + rewrite (EM (TC h n) n); eauto. cbn [length]. destruct (Nat.eqb n 1); lia.
  - intros n. destruct (D n) as [Y|Y].
    + assert (A := i_lim _ _ _ _ I (GC n) Y). specialize (LB n). unfold g_limit in A. destruct (Nat.eqb n 1); lia.
    + rewrite (EM (GC n) n); auto. cbn [length]. lia.
  - intros h k. apply (i_lim _ _ _ _ I (CC h k)).
Qed.

(* when nothing is lost, the first span of what is mapped is in a run that is somewhere *)
Lemma sinv_first s hs : sinv s hs [] -> forall m t, In (m, t) (maps s) -> exists p n, at_place s p m n.
Proof.
  intros [PH FH (T & I)] m t J. assert (M := i_mast _ _ _ _ I eq_refl m t J). rewrite app_nil_r, <- every_snd in M. destruct M as (r & K & E).
  apply in_map_iff in K as ([p r'] & E2 & K). cbn [snd] in E2. subst r'. exists p, (rn r). apply (place_run s hs [] T PH FH I). exists r. auto.
Qed.

(* a run in use keeps its size *)
Lemma sinv_size s hs lost r : sinv s hs lost -> In r hs -> h_cnt (hdrs s (rx r)) = rn r.
Proof.
  intros [PH FH (T & I)] J. eapply core_count; [apply (i_core _ _ _ _ I)|apply in_or_app; left; apply in_or_app; auto|]. rewrite Forall_forall in FH. apply FH; auto.
Qed.
Lemma sinv_same_run s hs lost a b : sinv s hs lost -> In a hs -> In b hs -> rx a = rx b -> a = b.
Proof.
  intros [PH FH (T & I)] A B E. assert (F := fop_prefix _ _ _ (c_dis _ _ _ (i_core _ _ _ _ I))). apply fop_prefix in F.
  destruct (fop_one _ apart_sym _ _ _ F A B) as [|AP]; auto. rewrite Forall_forall in FH. apply FH in A, B. destruct A, B. unfold apart in AP. lia.
Qed.
Lemma step_size c hsc many s o hs lost s' : sinv s hs lost -> cfg_ok c -> gok c s -> heap_sizes c hsc many -> legal s o -> step c hsc many s o = Ok s' ->
  forall x, In x (cache s Held) -> In x (cache s' Held) -> h_cnt (hdrs s' x) = h_cnt (hdrs s x).
Proof.
  intros SI K G HS L E x J J'. destruct (step_ok c hsc many s o hs lost SI K G HS L) as (hs' & more & s2 & E2 & SI' & _ & _ & EF). rewrite E in E2. inversion E2; subst s2. clear E2.
  apply (Permutation_in _ (s_held _ _ _ SI)) in J. apply in_map_iff in J as (r & <- & J). apply (Permutation_in _ (s_held _ _ _ SI')) in J'. apply in_map_iff in J' as (r' & E' & J').
  rewrite (sinv_size _ _ _ _ SI J). rewrite <- E', (sinv_size _ _ _ _ SI' J'). f_equal.
  assert (Y : In r hs' \/ In r' hs).
  { destruct o; cbn [effect] in EF.
    - destruct EF as [(_ & -> & _)|(q & _ & -> & _)]; [auto|]. left. right. auto.
    - destruct EF as (_ & q & _ & P). right. eapply Permutation_in; [apply Permutation_sym; exact P|right; auto].
    - destruct EF as (_ & q & _ & P). right. eapply Permutation_in; [apply Permutation_sym; exact P|right; auto].
    - destruct EF as (_ & q & _ & P). right. eapply Permutation_in; [apply Permutation_sym; exact P|right; auto].
    - destruct EF as (_ & ->). auto.
    - destruct EF as (_ & ->). auto.
    - destruct EF as (_ & ->). auto. }
  destruct Y as [Y|Y]; [eapply sinv_same_run; [exact SI'| | |]; auto|eapply sinv_same_run; [exact SI| | |]; auto].
Qed.

(* the end of the program *)
Definition fewer (s s' : st) : Prop := (forall p, cache s p = [] -> cache s' p = []) /\ (forall h, r_cnt (hres s h) = 0 -> r_cnt (hres s' h) = 0) /\ gres s' = gres s /\ cache s' Held = cache s Held.
Lemma fewer_refl s : fewer s s. Proof. repeat split; auto. Qed.
Lemma fewer_trans a b c : fewer a b -> fewer b c -> fewer a c.
Proof. intros (A1 & A2 & A3 & A4) (B1 & B2 & B3 & B4). split; [auto|]. split; [auto|]. split; congruence. Qed.

Lemma unmap_place c s p l E : inv false s E -> is_cache p -> lim p 0 -> Permutation l (cache s p) ->
  exists s', unmap_all c (set_cache s p []) l = Ok s' /\ inv false s' E /\ fewer s s' /\ cache s' p = [].
Proof.
  intros I CP LP P. destruct (inv_outs false s p l [] E I CP) as (rs & R1 & R2 & I1).
  - rewrite app_nil_r. apply Permutation_sym. auto.
  - exact LP.
  - destruct (unmap_all_ok c rs _ E I1) as (s' & A & I2 & (P1 & P2 & P3)).
    + eapply Forall_impl; [|exact R2]. intro a. apply okp_k; auto.
    + rewrite R1 in A. exists s'. split; auto. split; auto. cbn [cache hres gres set_cache] in *. unfold fewer. rewrite P1, P2, P3. split; [|apply pput_same].
      split; [|split; [auto|split; [auto|apply pput_other; intros <-; destruct CP]]]. intros q Q. destruct (place_eq q p) as [->|NE]; [apply pput_same|rewrite pput_other by auto; auto].
Qed.

Lemma unmap_fold c (P : nat -> place) (g : list Z -> list Z) (ks : list nat) E : (forall l, Permutation (g l) l) -> (forall k, In k ks -> is_cache (P k) /\ lim (P k) 0) -> forall s, inv false s E ->
  exists s', fold_left (fun o k => do s <- o; let l := g (cache s (P k)) in unmap_all c (set_cache s (P k) []) l) ks (Ok s) = Ok s' /\ inv false s' E /\ fewer s s' /\ (forall k, In k ks -> cache s' (P k) = []).
Proof.
  intros PG. induction ks as [|k ks IH]; intros OK s I; cbn [fold_left].
  - exists s. split; auto. split; auto. split; [apply fewer_refl|intros k []].
  - cbn [bind]. destruct (OK k (or_introl eq_refl)) as (C1 & L1). destruct (unmap_place c s (P k) (g (cache s (P k))) E I C1 L1 (PG _)) as (s1 & -> & I1 & F1 & E1).
    destruct (IH ltac:(intros; apply OK; right; auto) s1 I1) as (s2 & A2 & I2 & F2 & E2). exists s2. split; [exact A2|]. split; auto. split; [eapply fewer_trans; eauto|].
    intros k' [<-|J]; auto. apply F2. auto.
Qed.

Lemma fin_heap_ok c classes s h E : inv false s E -> cfg_ok c -> gok c s ->
  exists s', fin_heap c classes s h = Ok s' /\ inv false s' E /\ fewer s s' /\ r_cnt (hres s' h) = 0 /\ cache s' (DF h) = [] /\
    (forall k, (k < classes)%nat -> cache s' (CC h k) = []) /\ (forall n, (1 <= n <= 63)%nat -> cache s' (TC h n) = []).
Proof.
  intros I K G. unfold fin_heap.
  assert (ST : exists s1, (if 0 <? r_cnt (hres s h) then do q <- span_map c s h (r_cnt (hres s h)) (fun _ _ => None); match q with (Some x, s) => span_unmap c s x | (None, s) => UB end else Ok s) = Ok s1 /\
    inv false s1 E /\ fewer s s1 /\ r_cnt (hres s1 h) = 0).
  { destruct (0 <? r_cnt (hres s h)) eqn:Q; [apply Z.ltb_lt in Q|apply Z.ltb_ge in Q].
    - unfold span_map. rewrite Z.leb_refl. destruct (from_reserve_ok false s h (r_cnt (hres s h)) E I ltac:(lia)) as (x & m & s1 & -> & I1 & P1 & P2 & P3 & P4). cbn [bind].
      destruct (inv_unmap false c s1 _ E I1 eq_refl) as (s2 & A2 & I2 & (Q1 & Q2 & Q3)); [intro; discriminate|]. cbn [rx] in A2. rewrite A2. exists s2. split; auto. split; auto.
      unfold fewer. rewrite Q1, Q2, Q3, P1, P2. assert (Z1 : r_cnt (hres s1 h) = 0) by (rewrite P3; cbn; lia). split; auto. split; auto. split; auto.
      intros k Z0. destruct (Nat.eq_dec k h) as [->|NE]; auto. rewrite P4; auto.
    - exists s. split; auto. split; auto. split; [apply fewer_refl|]. assert (0 <= r_cnt (hres s h)) by (destruct I as (T & I); apply (i_hres _ _ _ _ I)). lia. }
  destruct ST as (s1 & -> & I1 & F1 & Z1). cbn [bind]. cbv zeta.
  destruct (unmap_place c s1 (DF h) (cache s1 (DF h)) E I1 Logic.I Logic.I (Permutation_refl _)) as (s2 & -> & I2 & F2 & E2). cbn [bind].
  destruct (unmap_fold c (CC h) (fun l => l) (seq 0 classes) E (fun l => Permutation_refl l)) with (s := s2) as (s3 & A3 & I3 & F3 & E3); [intros; cbn; split; [auto|lia]|auto|].
  cbv zeta in A3. rewrite A3. cbn [bind].
  destruct (unmap_fold c (TC h) (@rev Z) sizes E (fun l => Permutation_sym (Permutation_rev l))) with (s := s3) as (s4 & A4 & I4 & F4 & E4).
  { intros k J. apply in_seq in J. split; [cbn; auto|]. intro. destruct (t_limit_big k); lia. }
  { auto. }
  cbv zeta in A4. rewrite A4. exists s4. split; auto. split; auto.
  split; [eapply fewer_trans; [exact F1|eapply fewer_trans; [exact F2|eapply fewer_trans; eauto]]|].
  split; [apply F4, F3, F2; auto|]. split; [apply F4, F3; auto|]. split.
  - intros k KL. apply F4, E3, in_seq. lia.
  - intros n N. apply E4, in_seq. lia.
Qed.

(* the part of the global reserve: its master still has its first run *)
Lemma core_drop H M r L : core H M (r :: L) -> 0 < sumn (rm r) L ->
  core (zput H (rm r) (mkhdr (h_master (H (rm r))) (h_sub (H (rm r))) (h_off (H (rm r))) (h_cnt (H (rm r))) (h_total (H (rm r))) (h_remain (H (rm r)) - rn r))) M L.
Proof.
  intros [C1 C2 C3 C4] P. split.
  - intros q J. eapply run_ok_hdr; [apply C1; right; exact J|]. intros _. unfold zput. destruct (rx q =? rm r) eqn:Q; [apply Z.eqb_eq in Q; rewrite Q; cbn; split; [reflexivity|intros _; split; reflexivity]|split; [reflexivity|intros _; split; reflexivity]].
  - eapply fop_tail; eauto.
  - auto.
  - intros m t J. destruct (C4 m t J) as (A1 & A2 & A3 & A4 & A5). cbn [sumn] in A4, A5. unfold zput. destruct (m =? rm r) eqn:Q.
    + apply Z.eqb_eq in Q. subst m. rewrite Z.eqb_refl in A4. cbn. split; auto. split; auto. split; auto. split; [lia|auto].
    + rewrite Z.eqb_sym, Q in A4, A5. split; [exact A1|]. split; [exact A2|]. split; [exact A3|]. split; lia.
Qed.

Lemma drop_gres s E : inv true s E -> 0 < r_cnt (gres s) ->
  exists s', (do d <- rdh s (r_master (gres s)); do s1 <- wrh s (r_master (gres s)) (mkhdr (h_master d) (h_sub d) (h_off d) (h_cnt d) (h_total d) (h_remain d - r_cnt (gres s))); Ok (set_gres s1 res0)) = Ok s' /\
    inv false s' E /\ cache s' = cache s /\ hres s' = hres s /\ gres s' = res0.
Proof.
  intros I P0. destruct (inv_gres_out true s res0 E I P0 eq_refl) as ((T & I1) & NE). set (r := mkrun (r_start (gres s)) (r_cnt (gres s)) (r_master (gres s)) false) in *.
  assert (C := i_core _ _ _ _ I1). assert (MS := i_mast _ _ _ _ I1 eq_refl). cbn [hdrs maps set_gres app] in C, MS.
  assert (M1 : mapped (maps s) (r_master (gres s)) = true) by (apply (run_mapped _ _ _ r C); left; auto).
  unfold rdh, wrh. rewrite M1. cbn [bind]. eexists. split; [reflexivity|].
  assert (POS : 0 < sumn (rm r) (E ++ map snd T)).
  { destruct (c_run _ _ _ C r (or_introl eq_refl)) as (A1 & (t & A2 & A3) & A4 & _). destruct (MS _ _ A2) as (q & Q1 & Q2).
    destruct Q1 as [<-|Q1]; [cbn in Q2; congruence|]. destruct (c_map _ _ _ C _ _ A2) as (TP & _).
    assert (RQ : rm q = rm r) by (eapply starts_at_master; [exact C|right; exact Q1|exact A2|]; lia).
    assert (W : forall z, In z (E ++ map snd T) -> 1 <= rn z) by (intros z J; apply (c_run _ _ _ C z); right; auto).
    assert (X := sumn_pos (rm r) _ q W Q1 RQ). specialize (W q Q1). lia. }
  split; [|auto]. exists T. apply inv_core with (s := set_gres s res0) (E := r :: E).
  - split; [|split]; reflexivity.
  - destruct I1 as [J1 J2 J3 J4 J5 J6 J7]. split; auto.
  - cbn [hdrs maps set_gres set_hdrs]. exact (core_drop _ _ r _ C POS).
  - discriminate.
Qed.

(* every heap that has anything is in the list, and the classes are below [classes] *)
Definition covers (s : st) (hs : list nat) (classes : nat) : Prop :=
  (forall h, ~ In h hs -> r_cnt (hres s h) = 0 /\ cache s (DF h) = [] /\ (forall n, cache s (TC h n) = []) /\ forall k, cache s (CC h k) = []) /\
  (forall h k, (classes <= k)%nat -> cache s (CC h k) = []).

Lemma inv_empty b s : inv b s [] -> (forall p, is_cache p -> cache s p = []) -> (forall h, r_cnt (hres s h) = 0) -> r_cnt (gres s) = 0 -> maps s = [].
Proof.
  intros (T & I) A B D. assert (TG := i_tag _ _ _ _ I). assert (T = []).
  { destruct T as [|[p r] T']; auto. exfalso. assert (J : In (p, r) ((p, r) :: T')) by (left; auto).
    assert (CD : is_cache p \/ p = Held \/ (exists h, p = Res h) \/ p = GRes) by (destruct p; cbn; eauto). destruct CD as [CP|[->|[(h & ->)| ->]]].
    - assert (P := t_cache _ _ TG p CP). rewrite (A p CP) in P. apply Permutation_nil in P. apply runs_at_in in J. destruct (runs_at p ((p, r) :: T')); [destruct J|discriminate].
    - apply (t_ok _ _ TG _ _ J).
    - apply runs_at_in in J. destruct (res_in _ _ (t_hres _ _ TG h) r J) as (_ & _ & X). rewrite B in X. lia.
    - apply runs_at_in in J. destruct (res_in _ _ (t_gres _ _ TG) r J) as (_ & _ & X). lia. }
  subst T. destruct (maps s) as [|[m t] M] eqn:Q; auto. exfalso. assert (C := i_core _ _ _ _ I). destruct (c_map _ _ _ C m t) as (_ & _ & _ & _ & X); [rewrite Q; left; auto|]. cbn in X. lia.
Qed.

Lemma finalize_ok c classes s hs h0 held : sinv s held [] -> cfg_ok c -> gok c s -> In h0 hs -> covers s hs classes ->
  exists s', finalize c classes s hs h0 = Ok s' /\ maps s' = [].
Proof.
  intros SI K G J0 (CV1 & CV2). unfold finalize. assert (I := s_inv _ _ _ SI). rewrite app_nil_r in I.
  destruct (adopt_ok true c s h0 false held I) as (q & s1 & -> & G1 & (O1 & O1') & _ & _ & W). cbn [bind snd]. rewrite (W eq_refl) in G1. cbn [gives] in G1.
  destruct (give_caches_ok true c h0 63 s1 1 held G1 ltac:(lia) ltac:(lia)) as (s2 & -> & I2 & (O2 & O2') & _). cbn [bind].
  assert (FR : forall p, ~ tidy2 h0 p -> cache s2 p = cache s p). { intros p N. rewrite O2', O1'; auto. intro X. apply N. left. auto. }
  assert (KP : keeps s s2) by (eapply keeps_trans; eauto). destruct KP as (KP1 & KP2).
  assert (CW : (forall h, ~ In h hs -> r_cnt (hres s2 h) = 0 /\ cache s2 (DF h) = [] /\ (forall n, cache s2 (TC h n) = []) /\ forall k, cache s2 (CC h k) = []) /\ forall h k, (classes <= k)%nat -> cache s2 (CC h k) = []).
  { split.
    - intros h N. assert (h <> h0) by congruence. destruct (CV1 h N) as (A1 & A2 & A3 & A4). rewrite KP1. split; auto.
      split; [rewrite FR; auto; intros [X|X]; [exact X|congruence]|]. split; [intro n; rewrite FR; auto; intros [X|X]; [exact (H X)|discriminate]|].
      intro k. rewrite FR; auto. intros [X|X]; [exact X|discriminate].
    - intros h k L. rewrite FR; auto. intros [X|X]; [exact X|discriminate]. }
  assert (ST : exists s3, (if 0 <? r_cnt (gres s2) then do d <- rdh s2 (r_master (gres s2)); do s1 <- wrh s2 (r_master (gres s2)) (mkhdr (h_master d) (h_sub d) (h_off d) (h_cnt d) (h_total d) (h_remain d - r_cnt (gres s2))); Ok (set_gres s1 res0) else Ok s2) = Ok s3 /\
    inv false s3 held /\ cache s3 = cache s2 /\ hres s3 = hres s2 /\ r_cnt (gres s3) = 0).
  { destruct (0 <? r_cnt (gres s2)) eqn:Q; [apply Z.ltb_lt in Q|apply Z.ltb_ge in Q].
    - destruct (drop_gres s2 held I2 Q) as (s3 & A & B & C1 & C2 & C3). exists s3. rewrite C3. auto.
    - exists s2. split; auto. split; [apply inv_weaken; auto|]. assert (0 <= r_cnt (gres s2)) by (destruct I2 as (T & I2); apply (i_gres _ _ _ _ I2)). split; auto. split; auto. lia. }
  destruct ST as (s3 & -> & I3 & C3 & H3 & Z3). cbn [bind].
  assert (FH : forall hl s0, inv false s0 held -> r_cnt (gres s0) = 0 -> exists s4, fold_left (fun o h => do s <- o; fin_heap c classes s h) hl (Ok s0) = Ok s4 /\ inv false s4 held /\ fewer s0 s4 /\
     forall h, In h hl -> r_cnt (hres s4 h) = 0 /\ cache s4 (DF h) = [] /\ (forall k, (k < classes)%nat -> cache s4 (CC h k) = []) /\ (forall n, (1 <= n <= 63)%nat -> cache s4 (TC h n) = [])).
  { induction hl as [|h hl IH]; intros s0 I0 Z0; cbn [fold_left].
    - exists s0. split; auto. split; auto. split; [apply fewer_refl|intros h []].
    - cbn [bind]. destruct (fin_heap_ok c classes s0 h held I0 K) as (s4 & -> & I4 & F4 & A1 & A2 & A3 & A4); [unfold gok; lia|].
      assert (Z4 : r_cnt (gres s4) = 0) by (destruct F4 as (_ & _ & -> & _); auto).
      destruct (IH s4 I4 Z4) as (s5 & A5 & I5 & F5 & B5). exists s5. split; [exact A5|]. split; auto. split; [eapply fewer_trans; eauto|].
      intros h' [<-|J]; auto. destruct F5 as (F5 & F5' & _). split; [auto|]. split; [auto|]. split; auto. }
  destruct (FH hs s3 I3 Z3) as (s4 & -> & I4 & F4 & B4). cbn [bind].
  assert (E4 : forall h, r_cnt (hres s4 h) = 0 /\ cache s4 (DF h) = [] /\ (forall k, cache s4 (CC h k) = []) /\ (forall n, (1 <= n <= 63)%nat -> cache s4 (TC h n) = [])).
  { intro h. destruct F4 as (F4 & F4' & _). destruct CW as (CW1 & CW2). destruct (in_dec Nat.eq_dec h hs) as [J|N].
    - destruct (B4 h J) as (A1 & A2 & A3 & A4). split; auto. split; auto. split; auto. intro k. destruct (Nat.lt_ge_cases k classes) as [L|L]; auto. apply F4. rewrite C3. auto.
    - destruct (CW1 h N) as (A1 & A2 & A3 & A4). split; [apply F4'; rewrite H3; auto|]. split; [apply F4; rewrite C3; auto|]. split; intros; apply F4; rewrite C3; auto. }
  assert (HD : Permutation (cache s4 Held) (map rx held)).
  { destruct F4 as (_ & _ & _ & ->). rewrite C3, FR; [apply (s_held _ _ _ SI)|]. intros [X|X]; [exact X|discriminate]. }
  apply Permutation_map_inv in HD as (held' & EH & PH). assert (I4' : inv false (set_cache s4 Held []) (held' ++ [])) by (rewrite app_nil_r; apply inv_held; eapply inv_perm; [exact PH|exact I4]).
  destruct (unmap_all_ok c held' _ [] I4') as (s5 & A5 & I5 & (P5 & P5' & P5'')).
  { assert (X := Permutation_Forall PH (s_hok _ _ _ SI)). eapply Forall_impl; [|exact X]. intros a Y. apply Y. }
  rewrite EH. rewrite A5. cbn [bind]. cbn [cache hres gres set_cache] in P5, P5', P5''.
  destruct (unmap_place c s5 Own (cache s5 Own) [] I5 Logic.I Logic.I (Permutation_refl _)) as (s6 & -> & I6 & F6 & E6). cbn [bind].
  assert (FG : forall ks s0, (forall k, In k ks -> (1 <= k <= 63)%nat) -> inv false s0 [] -> exists s7, fold_left (fun o n => do s <- o; let l := cache s (GC n) ++ cache s (OV n) in unmap_all c (set_cache (set_cache s (GC n) []) (OV n) []) l) ks (Ok s0) = Ok s7 /\ inv false s7 [] /\ fewer s0 s7 /\
     forall n, In n ks -> cache s7 (GC n) = [] /\ cache s7 (OV n) = []).
  { induction ks as [|n ks IH]; intros s0 KB I0; cbn [fold_left].
    - exists s0. split; auto. split; auto. split; [apply fewer_refl|intros h []].
    - cbn [bind]. cbv zeta. destruct (inv_outs false s0 (GC n) (cache s0 (GC n)) [] [] I0 Logic.I) as (rs & R1 & R2 & J1); [rewrite app_nil_r; auto|cbn [lim length]; lia|].
      destruct (inv_outs false _ (OV n) (cache s0 (OV n)) [] _ J1 Logic.I) as (rs2 & S1 & S2 & J2); [cbn [cache set_cache]; rewrite pput_other by discriminate; rewrite app_nil_r; auto|cbn; auto|].
      destruct (unmap_all_ok c (rs ++ rs2) (set_cache (set_cache s0 (GC n) []) (OV n) []) []) as (s7 & A7 & I7 & (P7 & P7' & P7'')).
      + eapply inv_perm; [|exact J2]. perm.
      + apply Forall_app. split; eapply Forall_impl; [|exact R2| |exact S2]; intros a Y; apply Y.
      + rewrite map_app, R1, S1 in A7. rewrite A7. cbn [cache hres gres set_cache] in P7, P7', P7''.
        destruct (IH s7) as (s8 & A8 & I8 & F8 & E8); [intros; apply KB; right; auto|auto|]. exists s8. split; [exact A8|]. split; auto.
        assert (FW : fewer s0 s7).
        { unfold fewer. rewrite P7, P7', P7''. split; [|split; [auto|split; [auto|rewrite !pput_other by discriminate; auto]]]. intros p Z0.
          destruct (place_eq p (OV n)) as [->|N1]; [apply pput_same|rewrite pput_other by auto]. destruct (place_eq p (GC n)) as [->|N2]; [apply pput_same|rewrite pput_other by auto; auto]. }
        split; [eapply fewer_trans; eauto|]. intros m [<-|J]; auto. destruct F8 as (F8 & _). split; apply F8; rewrite P7; [rewrite pput_other by discriminate|]; apply pput_same. }
  destruct (FG sizes s6 ltac:(intros k J; apply in_seq in J; lia) I6) as (s7 & A7 & I7 & F7 & E7). cbv zeta in A7. rewrite A7. exists s7. split; auto.
  assert (F57 : fewer s5 s7) by (eapply fewer_trans; eauto). destruct F57 as (F57 & F57' & F57g & _).
  assert (NB : forall p n, p = GC n \/ p = OV n \/ (exists h, p = TC h n) -> ~ (1 <= n <= 63)%nat -> cache s7 p = []).
  { intros p n Q N. assert (CP : is_cache p) by (destruct Q as [->|[->|(h & ->)]]; cbn; auto). destruct I7 as (T & I7). assert (P := t_cache _ _ (i_tag _ _ _ _ I7) p CP).
    destruct (runs_at p T) as [|r l] eqn:R; [apply perm_nil_r; exact P|]. exfalso. assert (J : In r (runs_at p T)) by (rewrite R; left; auto). apply runs_at_in in J.
    assert (O := t_ok _ _ (i_tag _ _ _ _ I7) _ _ J). destruct Q as [->|[->|(h & ->)]]; cbn in O; lia. }
  assert (D : forall n, (1 <= n <= 63)%nat \/ ~ (1 <= n <= 63)%nat) by (intro; lia).
  eapply inv_empty; [exact I7| | |].
  - intros p CP. destruct p as [| |h n|h k|h|n|n|h|]; try (destruct CP; fail).
    + destruct F7 as (F7 & _). apply F7. exact E6.
    + destruct (D n) as [Y|Y]; [|eapply NB; eauto]. apply F57. rewrite P5, pput_other by discriminate. apply E4; auto.
    + apply F57. rewrite P5, pput_other by discriminate. apply E4; auto.
    + apply F57. rewrite P5, pput_other by discriminate. apply E4; auto.
    + destruct (D n) as [Y|Y]; [|eapply NB; eauto]. apply E7, in_seq. lia.
    + destruct (D n) as [Y|Y]; [|eapply NB; eauto]. apply E7, in_seq. lia.
  - intro h. apply F57'. rewrite P5'. apply E4.
  - rewrite F57g, P5''. destruct F4 as (_ & _ & -> & _). exact Z3.
Qed.

(* what is given back to the system is what was asked for: [raw] is the address the system answers, a multiple of
   the page size, which is a multiple of 8 *)
Lemma mmap_unmap gran size raw addr off reg : 0 < gran -> 0 < size -> 0 < raw -> raw mod 8 = 0 -> mmap_os gran size raw = (addr, off, reg) ->
  reg = (raw, snd reg) /\ unmap_os gran addr off size = reg /\ raw <= addr /\ addr + size <= raw + snd reg /\ (65536 <= size -> gran < 65536 -> addr mod 65536 = 0) /\
  0 <= off < 65536.
Proof.
  intros GP SP RP R8. unfold mmap_os, unmap_os, SPAN. assert (M := Z.mod_pos_bound raw 65536 ltac:(lia)).
  destruct ((65536 <=? size) && (gran <? 65536)) eqn:Q.
  - apply andb_true_iff in Q as [Q1 Q2]. apply Z.leb_le in Q1. apply Z.ltb_lt in Q2. cbn [Z.ltb]. change (0 <? 65536) with true. cbv iota.
    set (f := 65536 - raw mod 65536). intro E. inversion E; subst. clear E. cbn [snd].
    assert (D : raw = 65536 * (raw / 65536) + raw mod 65536) by (apply Z.div_mod; lia).
    assert (F8 : f mod 8 = 0). { unfold f. assert (X : (raw mod 65536) mod 8 = 0). { rewrite <- Znumtheory.Zmod_div_mod; [auto|lia|lia|]. exists 8192. lia. }
      replace (65536 - raw mod 65536) with (8 * (8192 - raw mod 65536 / 8)). { rewrite Z.mul_comm. apply Z_mod_mult. } assert (Y := Z.div_mod (raw mod 65536) 8 ltac:(lia)). lia. }
    assert (SH : Z.shiftr f 3 = f / 8) by (rewrite Z.shiftr_div_pow2 by lia; auto).
    assert (FD : f = 8 * (f / 8)) by (assert (Y := Z.div_mod f 8 ltac:(lia)); lia).
    assert (FP : 0 < f <= 65536) by (unfold f; lia).
    split; auto. split.
    + rewrite SH. replace (0 <? size) with true by (symmetry; apply Z.ltb_lt; lia). replace (f / 8 =? 0) with false by (symmetry; apply Z.eqb_neq; lia). cbn [andb negb].
      rewrite Z.shiftl_mul_pow2 by lia. change (2 ^ 3) with 8. f_equal. lia.
    + split; [lia|]. split; [lia|]. split; [|rewrite SH; lia]. intros _ _. replace (raw + f) with ((raw / 65536 + 1) * 65536) by (unfold f; lia). apply Z_mod_mult.
  - cbn [Z.ltb]. change (0 <? 0) with false. cbv iota. intro E. inversion E; subst. clear E. cbn [snd Z.eqb negb]. rewrite andb_false_r, Z.add_0_r. split; auto. split; auto. split; [lia|]. split; [lia|].
    split; [|lia]. intros A B. apply andb_false_iff in Q as [Q|Q]; [apply Z.leb_gt in Q|apply Z.ltb_ge in Q]; lia.
Qed.
