(* Runs of spans: the end, when everything goes back to the kernel. *)
From Verif Require Import Base RunModel RunProofs RunProofs2 RunProofs3 RunProofs4 RunProofs5.
Local Open Scope Z_scope.

(* headers are never given to another heap or class *)
Definition tagged (st : state) (x : Z) : option tag := match mem st x with Some hd => Some (h_heap hd, h_cls hd) | None => None end.
Definition MT (st st' : state) : Prop := forall x, mem st' x = None \/ tagged st' x = tagged st x.
Lemma MT_refl st : MT st st.
Proof. intros x. auto. Qed.
Lemma MT_trans a b c : MT a b -> MT b c -> MT a c.
Proof. intros H K x. destruct (K x) as [E|E]; [auto|]. destruct (H x) as [F|F]; [|right; congruence]. left. unfold tagged in E. rewrite F in E. destruct (mem c x); [discriminate|reflexivity]. Qed.
Lemma MT_mem st st' : mem st' = mem st -> MT st st'.
Proof. intros E x. right. unfold tagged. now rewrite E. Qed.
Lemma MT_put st s hd hd' : mem st s = Some hd -> h_heap hd' = h_heap hd -> h_cls hd' = h_cls hd -> MT st (put st s hd').
Proof. intros M A B x. right. unfold tagged. cbn. unfold put_at. destruct (Z.eqb_spec s x) as [<-|]; [|reflexivity]. rewrite M, A, B. reflexivity. Qed.
Lemma MT_fill st s n : MT st (fill st s n None).
Proof. intros x. unfold tagged. cbn. destruct ((s <=? x) && (x <? s + n)); auto. Qed.
Lemma unmap_MT st s st' : unmap st s = Ok st' -> MT st st'.
Proof.
  unfold unmap, get. destruct (mem st s) as [h|] eqn:E; [|discriminate]. cbn [bind].
  set (m := if is_master h then s else s - h_off h). set (st1 := if is_master h then put st s (with_kind h KDead) else note (fill st s (h_n h) None) (EDrop (s * SPAN) (h_n h * SPAN))).
  assert (M1 : MT st st1) by (unfold st1; destruct (is_master h); [apply (MT_put _ _ h); [exact E|reflexivity|reflexivity]|apply (MT_trans _ (fill st s (h_n h) None)); [apply MT_fill|apply MT_mem; reflexivity]]).
  clearbody st1 m. destruct (mem st1 m) as [k|] eqn:E1; [|discriminate]. cbn [bind].
  assert (M2 : MT st1 (put st1 m (with_rem k (h_rem k - h_n h)))) by (apply (MT_put _ _ k); [exact E1|reflexivity|reflexivity]). pose proof (MT_trans _ _ _ M1 M2) as M3.
  destruct (h_rem k - h_n h <=? 0).
  - destruct (h_al k =? 0); cbn [bind]; intros Q; injection Q as <-; apply (MT_trans _ _ _ M3); eapply MT_trans; [apply (MT_fill _ m (h_total k))|apply MT_mem; reflexivity|apply (MT_fill _ m (h_total k))|apply MT_mem; reflexivity].
  - intros Q. injection Q as <-. exact M3.
Qed.
Lemma unmap_all_ok fl : forall l st rg g, BI st (l ++ fl) rg g -> exists st' rg' g', unmap_all st l = Ok st' /\ BI st' fl rg' g' /\ fr st rg g st' rg' g' l /\ at_ st' = at_ st /\ MT st st'.
Proof.
  induction l as [|s l IH]; intros st rg g V; [exists st, rg, g; split; [reflexivity|]; split; [exact V|]; split; [apply fr_refl|]; split; [reflexivity|apply MT_refl]|]. cbn [unmap_all].
  destruct (unmap_ok st rg g s (l ++ fl) V) as (st1 & rg1 & E1 & B1 & F1 & A1). rewrite E1. cbn [bind]. destruct (IH st1 rg1 _ B1) as (st2 & rg2 & g2 & E2 & B2 & F2 & A2 & M2). exists st2, rg2, g2. split; [exact E2|]. split; [exact B2|]. split; [|split; [congruence|apply (MT_trans _ _ _ (unmap_MT _ _ _ E1) M2)]].
  apply (fr_trans _ _ _ _ _ _ _ _ _ _ _ _ F1 F2); [intros x [<-|[]]; left; reflexivity|apply incl_tl, incl_refl].
Qed.
(* a list is emptied *)
Lemma empty_ok st rg g p fl : BI st fl rg g -> exists st' rg' g', unmap_all (w_at st p []) (at_ st p) = Ok st' /\ BI st' fl rg' g' /\ kp st st' /\ res st' = res st /\ at_ st' p = [] /\ (forall q, q <> p -> at_ st' q = at_ st q) /\ MT st st'.
Proof.
  intros [VC CP RE]. destruct (outof st rg g p (at_ st p) fl [] VC) as (g1 & V1 & F1 & M1); [rewrite app_nil_r; apply Permutation_refl|].
  assert (B1 : BI (w_at st p []) (at_ st p ++ fl) rg g1).
  { constructor; [exact V1| |].
    - constructor.
      + intros h n N. destruct (place_dec (TC h n) p) as [<-|NE]; [rewrite at_same; pose proof (tlimit_ge n N); unfold zlen; cbn [length]; lia|rewrite at_other by exact NE; apply CP, N].
      + intros n N. destruct (place_dec (GA n) p) as [<-|NE]; [rewrite at_same; pose proof (glimit_le n N); unfold zlen; cbn [length]; lia|rewrite at_other by exact NE; apply CP, N].
      + intros h c. destruct (place_dec (CC h c) p) as [<-|NE]; [rewrite at_same; cbn; lia|rewrite at_other by exact NE; apply CP].
    - apply (RES_same st _ rg g g1 RE eq_refl). intros x n h tg Q. rewrite F1; [exact Q|]. intros I. destruct (M1 x I) as (? & ? & Q' & _). congruence. }
  destruct (unmap_all_ok fl _ _ _ _ B1) as (st2 & rg2 & g2 & E2 & B2 & F2 & A2 & T2). exists st2, rg2, g2. split; [exact E2|]. split; [exact B2|]. split; [apply (kp_trans st (w_at st p [])); [constructor; reflexivity|apply (fr_kp _ _ _ _ _ _ _ F2)]|]. split; [rewrite (r_res _ _ _ _ _ _ _ F2); reflexivity|]. rewrite A2. split; [apply at_same|]. split; [intros q Q; apply at_other, Q|]. apply (MT_trans _ (w_at st p [])); [apply MT_mem; reflexivity|exact T2].
Qed.
Lemma adopt_fin st h : fin st h <> 0 -> adopt st h false = do st' <- unmap_all (w_at st (DF h) []) (at_ st (DF h)); Ok (None, st').
Proof.
  intros F. unfold adopt. assert (F1 : fin (w_at st (DF h) []) h <> 0) by exact F. revert F1. generalize (w_at st (DF h) []). generalize (at_ st (DF h)). clear F st. induction l as [|s l IH]; intros st F; [reflexivity|]. cbn [adopt_list unmap_all andb].
  unfold cinsert. destruct (Z.eqb_spec (fin st h) 0); [contradiction|]. cbn [negb]. unfold get at 1. destruct (mem st s) as [hd|] eqn:M; [|unfold unmap, get; rewrite M; reflexivity]. cbn [bind]. destruct (unmap st s) as [st1| | |] eqn:E; cbn [bind]; try reflexivity. apply IH.
  assert (FE : fin st1 = fin st); [|rewrite FE; exact F]. clear - E. unfold unmap in E. destruct (get st s) as [h0| | |]; try discriminate. cbn [bind] in E. match type of E with context [get ?a ?b] => set (st2 := a) in *; destruct (get st2 b) as [k| | |]; try discriminate; assert (Q : fin st2 = fin st) by (unfold st2; destruct (is_master h0); reflexivity) end. clearbody st2. cbn [bind] in E. destruct (h_rem k - h_n h0 <=? 0); [destruct (h_al k =? 0)|]; injection E as <-; exact Q.
Qed.

Section Fin.
Variable st0 : state.
Variable idle : list Z.
Definition isT (h : nat) (c : Z) (s : Z) : bool := match tagged st0 s with Some t => Nat.eqb (fst t) h && (snd t =? c) | None => false end.
Lemma class_ok st rg g h c rest : BI st rest rg g -> NoDup idle -> incl rest idle -> (forall s, In s idle -> isT h c s = true -> In s rest) -> MT st0 st ->
  exists st' rg' g', unmap_all st (of_class st h c idle) = Ok st' /\ BI st' (filter (fun s => negb (isT h c s)) rest) rg' g' /\ kp st st' /\ res st' = res st /\ at_ st' = at_ st /\ MT st st'.
Proof.
  intros V ND IN AL M. assert (NR : NoDup rest) by apply (p_nd _ _ _ _ _ (c_pi _ _ _ _ _ _ (b_ci _ _ _ _ V)) FL).
  assert (EQ : Permutation (of_class st h c idle) (filter (isT h c) rest)).
  { apply NoDup_Permutation; [apply NoDup_filter, ND|apply NoDup_filter, NR|]. intros s. unfold of_class. rewrite !filter_In. split.
    - intros (I & Q). assert (T : isT h c s = true). { unfold isT. destruct (mem st s) as [hd|] eqn:E; [|discriminate]. destruct (M s) as [X|X]; [congruence|]. rewrite <- X. unfold tagged. rewrite E. exact Q. } split; [apply AL; assumption|exact T].
    - intros (I & T). split; [apply IN, I|]. destruct (fl_in _ _ _ _ s V I) as (hd & n & tg & E & _). unfold get in E. destruct (mem st s) as [hd0|] eqn:EM; [|discriminate]. destruct (M s) as [X|X]; [congruence|]. unfold isT in T. rewrite <- X in T. unfold tagged in T. rewrite EM in T. exact T. }
  assert (SP : Permutation rest (filter (isT h c) rest ++ filter (fun s => negb (isT h c s)) rest)).
  { clear. induction rest as [|x l IH]; [constructor|]. cbn. destruct (isT h c x); cbn [negb app]; [apply perm_skip, IH|]. apply Permutation_cons_app, IH. }
  assert (B : BI st (of_class st h c idle ++ filter (fun s => negb (isT h c s)) rest) rg g) by (apply (BI_fl _ _ _ _ _ V); rewrite SP at 1; apply Permutation_app_tail; symmetry; exact EQ).
  destruct (unmap_all_ok _ _ _ _ _ B) as (st1 & rg1 & g1 & E1 & B1 & F1 & A1 & M1). exists st1, rg1, g1. split; [exact E1|]. split; [exact B1|]. split; [apply (fr_kp _ _ _ _ _ _ _ F1)|]. split; [apply (r_res _ _ _ _ _ _ _ F1)|]. auto.
Qed.
Lemma fin_classes_ok h (ND : NoDup idle) : forall fuel c st rg g rest, BI st rest rg g -> incl rest idle -> (forall s k, In s idle -> c <= k < c + Z.of_nat fuel -> isT h k s = true -> In s rest) -> MT st0 st ->
  exists st' rg' g' rest', fin_classes st h c idle fuel = Ok st' /\ BI st' rest' rg' g' /\ (forall s, In s rest' <-> In s rest /\ forall k, c <= k < c + Z.of_nat fuel -> isT h k s = false) /\ kp st st' /\ res st' = res st /\ MT st st' /\
    (forall k, c <= k < c + Z.of_nat fuel -> at_ st' (CC h k) = []) /\ forall p, at_ st' p = at_ st p \/ exists k, p = CC h k /\ c <= k < c + Z.of_nat fuel.
Proof.
  induction fuel as [|fuel IH]; intros c st rg g rest V IN AL M.
  - exists st, rg, g, rest. split; [reflexivity|]. split; [exact V|]. split; [intros s; split; [intros I; split; [exact I|intros k K; lia]|intros (I & _); exact I]|]. split; [apply kp_refl|]. split; [reflexivity|]. split; [apply MT_refl|]. split; [intros k K; lia|auto].
  - cbn [fin_classes]. destruct (empty_ok st rg g (CC h c) rest V) as (st1 & rg1 & g1 & E1 & B1 & K1 & R1 & A1 & O1 & M1). rewrite E1. cbn [bind].
    destruct (class_ok st1 rg1 g1 h c rest B1 ND IN) as (st2 & rg2 & g2 & E2 & B2 & K2 & R2 & A2 & M2); [intros s I T; apply (AL s c I); [lia|exact T]|apply (MT_trans _ _ _ M M1)|]. rewrite E2. cbn [bind].
    destruct (IH (c + 1) st2 rg2 g2 (filter (fun s => negb (isT h c s)) rest) B2) as (st3 & rg3 & g3 & rest3 & E3 & B3 & C3 & K3 & R3 & M3 & D3 & O3).
    + intros s I. apply filter_In in I as (I & _). apply IN, I.
    + intros s k I K T. apply filter_In. split; [apply (AL s k I); [lia|exact T]|]. destruct (isT h c s) eqn:Q; [|reflexivity]. exfalso. clear - T Q K. unfold isT in *. destruct (tagged st0 s) as [t|]; [|discriminate]. apply andb_true_iff in T as (_ & T). apply andb_true_iff in Q as (_ & Q). apply Z.eqb_eq in T, Q. lia.
    + apply (MT_trans _ _ _ M), (MT_trans _ _ _ M1 M2).
    + exists st3, rg3, g3, rest3. split; [exact E3|]. split; [exact B3|]. split; [|split; [apply (kp_trans _ _ _ K1), (kp_trans _ _ _ K2 K3)|split; [congruence|split; [apply (MT_trans _ _ _ M1), (MT_trans _ _ _ M2 M3)|split]]]].
      * intros s. rewrite C3, filter_In. split.
        -- intros ((I & Q) & H). split; [exact I|]. intros k K. destruct (Z.eq_dec k c) as [->|NE]; [destruct (isT h c s); [discriminate|reflexivity]|apply H; lia].
        -- intros (I & H). split; [split; [exact I|rewrite H by lia; reflexivity]|]. intros k K. apply H. lia.
      * intros k K. destruct (Z.eq_dec k c) as [->|NE]; [|apply D3; lia]. destruct (O3 (CC h c)) as [Q|(k' & Q & K')]; [rewrite Q, A2; exact A1|injection Q as ->; lia].
      * intros p. destruct (O3 p) as [Q|(k' & Q & K')]; [|right; exists k'; split; [exact Q|lia]]. rewrite Q, A2. destruct (place_dec p (CC h c)) as [->|NE]; [right; exists c; split; [reflexivity|lia]|left; apply O1, NE].
Qed.
Lemma fin_caches_ok h rest : forall fuel n st rg g, BI st rest rg g ->
  exists st' rg' g', fin_caches st h n fuel = Ok st' /\ BI st' rest rg' g' /\ kp st st' /\ res st' = res st /\ MT st st' /\ (forall k, n <= k < n + Z.of_nat fuel -> at_ st' (TC h k) = []) /\ forall p, at_ st' p = at_ st p \/ exists k, p = TC h k /\ n <= k < n + Z.of_nat fuel.
Proof.
  induction fuel as [|fuel IH]; intros n st rg g V.
  - exists st, rg, g. split; [reflexivity|]. split; [exact V|]. split; [apply kp_refl|]. split; [reflexivity|]. split; [apply MT_refl|]. split; [intros k K; lia|auto].
  - cbn [fin_caches]. destruct (empty_ok st rg g (TC h n) rest V) as (st1 & rg1 & g1 & E1 & B1 & K1 & R1 & A1 & O1 & M1). rewrite E1. cbn [bind]. destruct (IH (n + 1) st1 rg1 g1 B1) as (st3 & rg3 & g3 & E3 & B3 & K3 & R3 & M3 & D3 & O3).
    exists st3, rg3, g3. split; [exact E3|]. split; [exact B3|]. split; [apply (kp_trans _ _ _ K1 K3)|]. split; [congruence|]. split; [apply (MT_trans _ _ _ M1 M3)|]. split.
    + intros k K. destruct (Z.eq_dec k n) as [->|NE]; [|apply D3; lia]. destruct (O3 (TC h n)) as [Q|(k' & Q & K')]; [rewrite Q; exact A1|injection Q as ->; lia].
    + intros p. destruct (O3 p) as [Q|(k' & Q & K')]; [|right; exists k'; split; [exact Q|lia]]. rewrite Q. destruct (place_dec p (TC h n)) as [->|NE]; [right; exists n; split; [reflexivity|lia]|left; apply O1, NE].
Qed.
Lemma fin_global_ok rest : forall fuel n st rg g, BI st rest rg g ->
  exists st' rg' g', fin_global st n fuel = Ok st' /\ BI st' rest rg' g' /\ kp st st' /\ res st' = res st /\ (forall k, n <= k < n + Z.of_nat fuel -> at_ st' (GA k) = [] /\ at_ st' (GO k) = []) /\ forall p, at_ st' p = at_ st p \/ exists k, (p = GA k \/ p = GO k) /\ n <= k < n + Z.of_nat fuel.
Proof.
  induction fuel as [|fuel IH]; intros n st rg g V.
  - exists st, rg, g. split; [reflexivity|]. split; [exact V|]. split; [apply kp_refl|]. split; [reflexivity|]. split; [intros k K; lia|auto].
  - cbn [fin_global]. destruct (empty_ok st rg g (GA n) rest V) as (st1 & rg1 & g1 & E1 & B1 & K1 & R1 & A1 & O1 & _). rewrite E1. cbn [bind]. destruct (empty_ok st1 rg1 g1 (GO n) rest B1) as (st2 & rg2 & g2 & E2 & B2 & K2 & R2 & A2 & O2 & _). rewrite E2. cbn [bind]. destruct (IH (n + 1) st2 rg2 g2 B2) as (st3 & rg3 & g3 & E3 & B3 & K3 & R3 & D3 & O3).
    exists st3, rg3, g3. split; [exact E3|]. split; [exact B3|]. split; [apply (kp_trans _ _ _ K1), (kp_trans _ _ _ K2 K3)|]. split; [congruence|]. split.
    + intros k K. destruct (Z.eq_dec k n) as [->|NE]; [|apply D3; lia]. split.
      * destruct (O3 (GA n)) as [Q|(k' & [Q|Q] & K')]; [rewrite Q, O2 by discriminate; exact A1|injection Q as ->; lia|discriminate].
      * destruct (O3 (GO n)) as [Q|(k' & [Q|Q] & K')]; [rewrite Q; exact A2|discriminate|injection Q as ->; lia].
    + intros p. destruct (O3 p) as [Q|(k' & Q & K')]; [|right; exists k'; split; [exact Q|lia]]. rewrite Q. destruct (place_dec p (GO n)) as [->|NE]; [right; exists n; split; [auto|lia]|]. rewrite O2 by exact NE. destruct (place_dec p (GA n)) as [->|NE2]; [right; exists n; split; [auto|lia]|left; apply O1, NE2].
Qed.
End Fin.

(* ---- the memory of the heaps ---- *)
Definition inb (h : nat) (dn : list nat) : bool := existsb (Nat.eqb h) dn.
Lemma inb_in h dn : inb h dn = true <-> In h dn.
Proof. unfold inb. rewrite existsb_exists. split; [intros (x & I & E); apply Nat.eqb_eq in E; now subst|intros I; exists h; split; [exact I|apply Nat.eqb_refl]]. Qed.
Lemma inb_out h dn : inb h dn = false <-> ~ In h dn.
Proof. rewrite <- inb_in. destruct (inb h dn); split; intros; congruence. Qed.
Definition left_of (i : nat) (dn : list nat) : list nat := filter (fun j => negb (inb (HEAPS * i + j)%nat dn)) (seq 1 15).
Record GR (K : nat) (st : state) (dn : list nat) : Prop := {
  g_nh : nh st = (HEAPS * K)%nat;
  g_grp : forall k m, In (k, m) (groups st) -> exists i, k = (HEAPS * i)%nat /\ (i < K)%nat;
  g_nd : NoDup (map fst (groups st));
  g_have : forall i j, (i < K)%nat -> (j < HEAPS)%nat -> ~ In (HEAPS * i + j)%nat dn -> exists m, In ((HEAPS * i)%nat, m) (groups st);
  g_none : forall i m, (forall j, (j < HEAPS)%nat -> In (HEAPS * i + j)%nat dn) -> ~ In ((HEAPS * i)%nat, m) (groups st);
  g_kids : forall i, (i < K)%nat -> kids st (HEAPS * i) = Z.of_nat (length (left_of i dn)) }.
Definition FIN (st : state) (dn : list nat) : Prop := forall k, fin st k = if inb k dn then 2 else 0.
Lemma flt1 {A} (dec : forall x y : A, {x = y} + {x <> y}) (P Q : A -> bool) (j0 : A) l : NoDup l -> In j0 l -> P j0 = true -> Q j0 = false -> (forall j, In j l -> j <> j0 -> Q j = P j) -> length (filter P l) = S (length (filter Q l)).
Proof.
  induction l as [|x l IH]; intros ND I P0 Q0 E; [destruct I|]. inversion ND; subst. cbn. destruct (dec x j0) as [->|NE].
  - rewrite P0, Q0. cbn [length]. f_equal. f_equal. apply filter_ext_in. intros j J. symmetry. apply E; [right; exact J|]. intros ->. contradiction.
  - destruct I as [->|I]; [congruence|]. rewrite (E x (or_introl eq_refl) NE). destruct (P x); cbn [length]; rewrite IH; auto; intros j J N; apply E; [right; exact J|exact N|right; exact J|exact N].
Qed.
Lemma left_add i j0 dn : (1 <= j0 < 16)%nat -> ~ In (HEAPS * i + j0)%nat dn -> length (left_of i dn) = S (length (left_of i ((HEAPS * i + j0)%nat :: dn))).
Proof.
  intros J N. unfold left_of. apply (flt1 Nat.eq_dec _ _ j0); [apply seq_NoDup|apply in_seq; lia| | |].
  - apply inb_out in N. rewrite N. reflexivity.
  - unfold inb. cbn [existsb]. rewrite Nat.eqb_refl. reflexivity.
  - intros j _ NE. unfold inb. cbn [existsb]. destruct (Nat.eqb_spec (HEAPS * i + j) (HEAPS * i + j0)); [lia|reflexivity].
Qed.
Lemma left_same i h dn : (forall j, (1 <= j < 16)%nat -> h <> (HEAPS * i + j)%nat) -> left_of i (h :: dn) = left_of i dn.
Proof. intros H. unfold left_of. apply filter_ext_in. intros j J. apply in_seq in J. unfold inb. cbn [existsb]. destruct (Nat.eqb_spec (HEAPS * i + j) h) as [E|]; [elim (H j); [lia|auto]|reflexivity]. Qed.
Lemma left_none i dn : length (left_of i dn) = 0%nat <-> forall j, (1 <= j < 16)%nat -> In (HEAPS * i + j)%nat dn.
Proof.
  unfold left_of. split.
  - intros H j J. destruct (inb (HEAPS * i + j) dn) eqn:E; [apply inb_in, E|]. exfalso. assert (I : In j (filter (fun j => negb (inb (HEAPS * i + j) dn)) (seq 1 15))) by (apply filter_In; split; [apply in_seq; lia|now rewrite E]). destruct (filter _ _); [destruct I|discriminate].
  - intros H. destruct (filter _ _) as [|j l] eqn:E; [reflexivity|]. exfalso. assert (I : In j (j :: l)) by (left; reflexivity). rewrite <- E in I. apply filter_In in I as (J & I). apply in_seq in J. rewrite (proj2 (inb_in _ _) (H j ltac:(lia))) in I. discriminate.
Qed.
Lemma grp_gone (l : list (nat * Z)) k m : NoDup (map fst l) -> In (k, m) l -> Permutation (map snd l) (m :: map snd (filter (fun x => negb (Nat.eqb (fst x) k)) l)).
Proof.
  induction l as [|[y j] l IH]; intros ND I; [destruct I|]. cbn in ND. inversion ND; subst. cbn [map snd filter fst]. destruct I as [E|I].
  - injection E as -> ->. rewrite Nat.eqb_refl. cbn [negb]. assert (Q : filter (fun x => negb (Nat.eqb (fst x) k)) l = l). { clear - H1. induction l as [|[y j] l IH]; [reflexivity|]. cbn in *. destruct (Nat.eqb_spec y k) as [->|]; [elim H1; auto|]. cbn. f_equal. apply IH. intros I. auto. } rewrite Q. apply Permutation_refl.
  - destruct (Nat.eqb_spec y k) as [->|NE]; [elim H1; apply (in_map fst) in I; exact I|]. cbn [negb map snd]. rewrite perm_swap. apply perm_skip. apply IH; assumption.
Qed.
Lemma first_in st k m : NoDup (map fst (groups st)) -> In (k, m) (groups st) -> first_of st k = Some m.
Proof.
  unfold first_of. generalize (groups st). clear. intros l ND I. induction l as [|[y j] l IH]; [destruct I|]. cbn in ND. inversion ND; subst. cbn [find fst]. destruct I as [E|I].
  - injection E as -> ->. now rewrite Nat.eqb_refl.
  - destruct (Nat.eqb_spec y k) as [->|NE]; [elim H1; apply (in_map fst) in I; exact I|]. apply IH; assumption.
Qed.
(* what a step of the end leaves *)
Record ke (st st' : state) : Prop := { e_nh : nh st' = nh st; e_fin : fin st' = fin st; e_held : held (after (log st')) = held (after (log st)); e_at : at_ st' = at_ st; e_res : res st' = res st; e_mt : MT st st' }.
Lemma unmap_hp st rg g fl k m : BI st fl rg g -> NoDup (map fst (groups st)) -> In (k, m) (groups st) ->
  exists st' rg' g', (do st <- unmap st m; Ok (w_groups st (nh st) (filter (fun x => negb (Nat.eqb (fst x) k)) (groups st)))) = Ok st' /\ BI st' fl rg' g' /\ ke st st' /\ kids st' = kids st /\ groups st' = filter (fun x => negb (Nat.eqb (fst x) k)) (groups st).
Proof.
  intros [V CP RE] ND I. assert (IM : In m (list_of st fl HP)) by (apply (in_map snd) in I; exact I). apply (p_in _ _ _ _ _ (c_pi _ _ _ _ _ _ V)) in IM as (n & tg & G).
  set (L' := fun r => match r with HP => map snd (filter (fun x => negb (Nat.eqb (fst x) k)) (groups st)) | _ => list_of st fl r end).
  destruct (CI_unmap st rg g (list_of st fl) L' m HP n tg V G eq_refl ltac:(discriminate)) as (m' & l' & rg' & E & V' & SH & H & U); [apply grp_gone; assumption|intros [] N; try reflexivity; congruence|].
  pose proof (unmap_MT _ _ _ E) as T. rewrite E. cbn [bind]. eexists _, rg', (upd g m None). split; [reflexivity|]. split; [|split; [constructor; try reflexivity; [exact H|exact T]|split; reflexivity]].
  constructor.
  - apply (CI_perm _ _ _ _ _ _ _ V'). intros r. destruct r; cbn; try apply Permutation_refl. rewrite H. apply Permutation_refl.
  - destruct CP. constructor; assumption.
  - intros h rm rs rk Q. destruct (RE h rm rs rk Q) as (A & B). split; [exact A|]. intros NZ. destruct (B NZ) as ((t' & G') & C). split; [exists t'; rewrite upd_other; [exact G'|congruence]|]. intros m0 T0 al R. apply (C m0 T0 al). apply SH, R.
Qed.
Lemma ke_refl st : ke st st.
Proof. constructor; try reflexivity. apply MT_refl. Qed.
Lemma BI_kids st fl rg g k v : BI st fl rg g -> BI (w_kids st k v) fl rg g.
Proof. intros [V [] RE]. constructor; [exact V|constructor; assumption|exact RE]. Qed.
Lemma heap_unmap_ok K st rg g fl h dn : BI st fl rg g -> GR K st dn -> FIN st (h :: dn) -> (h < nh st)%nat -> ~ In h dn ->
  exists st' rg' g', heap_unmap st h = Ok st' /\ BI st' fl rg' g' /\ GR K st' (h :: dn) /\ ke st st'.
Proof.
  intros V [NH GG ND HV NO KI] F HH N.
  assert (HD : exists i j, h = (HEAPS * i + j)%nat /\ (i < K)%nat /\ (j < HEAPS)%nat /\ master_of h = (HEAPS * i)%nat).
  { exists (h / HEAPS)%nat, (h mod HEAPS)%nat. split; [apply Nat.div_mod; discriminate|]. split; [apply Nat.div_lt_upper_bound; [discriminate|lia]|]. split; [apply Nat.mod_upper_bound; discriminate|unfold master_of; apply Nat.mul_comm]. }
  destruct HD as (i & j & EH & IK & JH & EM). destruct (HV i j IK JH) as (m & IM); [rewrite <- EH; exact N|].
  (* the mapping goes when all its heaps are done *)
  assert (MAS : forall st1, BI st1 fl rg g -> nh st1 = nh st -> groups st1 = groups st -> fin st1 = fin st -> (forall i', (i' < K)%nat -> kids st1 (HEAPS * i') = Z.of_nat (length (left_of i' (h :: dn)))) ->
    exists st' rg' g', heap_unmap_master st1 (HEAPS * i) = Ok st' /\ BI st' fl rg' g' /\ GR K st' (h :: dn) /\ ke st1 st').
  { intros st1 V1 Q1 Q2 Q3 Q4. unfold heap_unmap_master.
    assert (ALL : (1 <? fin st1 (HEAPS * i)) && (kids st1 (HEAPS * i) =? 0) = true <-> forall j', (j' < HEAPS)%nat -> In (HEAPS * i + j')%nat (h :: dn)).
    { rewrite andb_true_iff, Z.ltb_lt, Z.eqb_eq, Q3, (F (HEAPS * i)%nat), (Q4 i IK). split.
      - intros (A & B) j' J. destruct (Nat.eq_dec j' 0) as [->|NZ]; [rewrite Nat.add_0_r; apply inb_in; destruct (inb (HEAPS * i) (h :: dn)); [reflexivity|lia]|]. apply (proj1 (left_none i (h :: dn))); [lia|unfold HEAPS in *; lia].
      - intros A. split.
        + specialize (A 0%nat ltac:(unfold HEAPS; lia)). rewrite Nat.add_0_r in A. apply inb_in in A. rewrite A. lia.
        + apply Nat2Z.inj_iff with (m := 0%nat), left_none. intros j' J. apply A. unfold HEAPS. lia. }
    destruct ((1 <? fin st1 (HEAPS * i)) && (kids st1 (HEAPS * i) =? 0)) eqn:C.
    - pose proof (proj1 ALL eq_refl) as ALL1. clear ALL. rewrite (first_in st1 (HEAPS * i) m) by (rewrite Q2; assumption).
      destruct (unmap_hp st1 rg g fl (HEAPS * i)%nat m V1) as (st2 & rg2 & g2 & E2 & B2 & K2 & KK & GP); try (rewrite Q2; assumption). exists st2, rg2, g2. split; [exact E2|]. split; [exact B2|]. split; [|exact K2]. rewrite Q2 in GP. constructor.
      + rewrite (e_nh _ _ K2). congruence.
      + intros k m0 I. rewrite GP in I. apply filter_In in I as (I & _). apply (GG _ _ I).
      + rewrite GP. clear - ND. induction (groups st) as [|x l IH]; [constructor|]. cbn [map filter] in *. inversion ND; subst. destruct (negb (fst x =? HEAPS * i)%nat); cbn [map]; [|apply IH; assumption]. constructor; [|apply IH; assumption]. intros I. apply H1. apply in_map_iff in I as (y & Ey & I). apply filter_In in I as (I & _). rewrite <- Ey. apply in_map, I.
      + intros i' j' I' J' N'. destruct (HV i' j' I' J') as (m0 & I0); [intros X; apply N'; right; exact X|]. exists m0. rewrite GP. apply filter_In. split; [exact I0|]. cbn [fst]. destruct (Nat.eqb_spec (HEAPS * i') (HEAPS * i)) as [X|]; [|reflexivity]. exfalso. apply N'. rewrite X. apply ALL1, J'.
      + intros i' m0 H I. rewrite GP in I. apply filter_In in I as (I & X). cbn [fst] in X. destruct (Nat.eq_dec i' i) as [->|NE]; [rewrite Nat.eqb_refl in X; discriminate|]. apply (NO i' m0); [|exact I]. intros j' J'. destruct (H j' J') as [Y|Y]; [|exact Y]. exfalso. unfold HEAPS in *. lia.
      + rewrite KK. exact Q4.
    - exists st1, rg, g. split; [reflexivity|]. split; [exact V1|]. split; [|apply ke_refl]. constructor; rewrite ?Q1, ?Q2; try assumption.
      + intros i' j' I' J' N'. apply (HV i' j' I' J'). intros X. apply N'. right. exact X.
      + intros i' m0 H. destruct (Nat.eq_dec i' i) as [->|NE]; [exfalso; pose proof (proj2 ALL H); discriminate|]. apply NO. intros j' J'. destruct (H j' J') as [Y|Y]; [|exact Y]. exfalso. unfold HEAPS in *. lia. }
  unfold heap_unmap. rewrite EM, (first_in st (HEAPS * i) m) by assumption. destruct (Nat.eqb_spec (HEAPS * i) h) as [X|NX].
  - apply MAS; try reflexivity; [exact V|]. intros i' I'. rewrite (KI i' I'). rewrite left_same; [reflexivity|]. intros j' J'. unfold HEAPS in *. lia.
  - assert (J1 : (1 <= j < 16)%nat) by (unfold HEAPS in *; lia). set (st1 := w_kids st (HEAPS * i) (kids st (HEAPS * i) - 1)).
    assert (KK : forall i', (i' < K)%nat -> kids st1 (HEAPS * i') = Z.of_nat (length (left_of i' (h :: dn)))).
    { intros i' I'. cbn [st1 w_kids kids]. destruct (Nat.eq_dec i' i) as [->|NE].
      - unfold st1. cbn [w_kids kids]. rewrite put_same, (KI i IK), EH. rewrite (left_add i j dn J1) by (rewrite <- EH; exact N). lia.
      - unfold st1. cbn [w_kids kids]. rewrite put_other by (unfold HEAPS; lia). rewrite (KI i' I'), left_same; [reflexivity|]. intros j' J'. unfold HEAPS in *. lia. }
    assert (V1 : BI st1 fl rg g) by (apply BI_kids, V). assert (KE : ke st st1) by (constructor; try reflexivity; apply MT_mem; reflexivity).
    destruct (kids st1 (HEAPS * i) =? 0) eqn:C.
    + destruct (MAS st1 V1 eq_refl eq_refl eq_refl KK) as (st' & rg' & g' & E & B & G' & [A1 A2 A3 A4 A5 A6]). exists st', rg', g'. split; [exact E|]. split; [exact B|]. split; [exact G'|]. destruct KE as [C1 C2 C3 C4 C5 C6]. constructor; try congruence. apply (MT_trans _ _ _ C6 A6).
    + exists st1, rg, g. split; [reflexivity|]. split; [exact V1|]. split; [|exact KE]. apply Z.eqb_neq in C. constructor; try assumption.
      * intros i' j' I' J' N'. apply (HV i' j' I' J'). intros X. apply N'. right. exact X.
      * intros i' m0 H. destruct (Nat.eq_dec i' i) as [->|NE]; [exfalso; apply C; rewrite (KK i IK); apply Nat2Z.inj_iff with (m := 0%nat), left_none; intros j' J'; apply H; unfold HEAPS; lia|]. apply NO. intros j' J'. destruct (H j' J') as [Y|Y]; [|exact Y]. exfalso. unfold HEAPS in *. lia.
Qed.
