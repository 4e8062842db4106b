(* Runs of spans: unmapping, the global cache, the caches of heaps. *)
From Verif Require Import Base RunModel RunProofs.
Local Open Scope Z_scope.

(* bytes of a mapping, with the padding before and after *)
Definition base (m al : Z) : Z := m * SPAN - al * 8.
Definition leng (T : Z) : Z := (T + 1) * SPAN.
Record CI (N : nat) (me : memory) (lg : list ev) (rg : regions) (g : ghost) (L : gp -> list Z) : Prop := {
  c_pi : PI N me rg g L;
  c_fair : fair lg;
  c_krn : forall a len, In (a, len) (mapped (after lg)) <-> exists m T al, rg m = Some (T, al) /\ a = base m al /\ len = leng T;
  c_pad : forall m T al m' T' al', rg m = Some (T, al) -> rg m' = Some (T', al') -> m < m' -> base m al + leng T <= base m' al';
  c_held : forall s n, In (s, n) (held (after lg)) <-> exists tg, g s = Some (HELD, n, tg) }.
Definition ml (st : state) (m : Z -> option hdr) (l : list ev) : state := mkst m (at_ st) (res st) (nh st) (own st) (fin st) (kids st) (groups st) (orph st) (th st) l.
Definition with_fl (L : gp -> list Z) (l : list Z) : gp -> list Z := fun r => match r with FL => l | _ => L r end.

Lemma PI_perm N me rg g L L' : PI N me rg g L -> (forall r, Permutation (L r) (L' r)) -> PI N me rg g L'.
Proof.
  intros V P. constructor; try apply V.
  - intros p. apply (Permutation_NoDup (P p)). apply (p_nd _ _ _ _ _ V).
  - intros p s. rewrite <- (p_in _ _ _ _ _ V). split; intros I; [apply (Permutation_in s (Permutation_sym (P p)) I)|apply (Permutation_in s (P p) I)].
Qed.
Lemma CI_perm N me lg rg g L L' : CI N me lg rg g L -> (forall r, Permutation (L r) (L' r)) -> CI N me lg rg g L'.
Proof. intros [A B C D E] P. constructor; auto. eapply PI_perm; eauto. Qed.

Lemma pad_in N me lg rg g L s p n tg : CI N me lg rg g L -> g s = Some (p, n, tg) -> exists m T al, rg m = Some (T, al) /\ m <= s /\ s + n <= m + T /\ base m al <= s * SPAN /\ (s + n) * SPAN <= base m al + leng T.
Proof.
  intros V G. destruct (p_at _ _ _ _ _ (c_pi _ _ _ _ _ _ V) _ _ _ _ G) as (m & T & al & R & A & B & _). exists m, T, al. split; [exact R|]. split; [exact A|]. split; [exact B|]. destruct (p_rg _ _ _ _ _ (c_pi _ _ _ _ _ _ V) _ _ _ R) as (_ & H & _). unfold base, leng, SPAN. lia.
Qed.
(* a piece that is not in use may be dropped *)
Lemma drop_fair N me lg rg g L s p n tg : CI N me lg rg g L -> g s = Some (p, n, tg) -> p <> HELD -> inside (after lg) (s * SPAN) (n * SPAN) /\ unused (after lg) (s * SPAN) (n * SPAN).
Proof.
  intros V G NH. destruct (pad_in _ _ _ _ _ _ _ _ _ _ V G) as (m & T & al & R & A & B & C & D). split.
  - exists (base m al), (leng T). split; [apply (c_krn _ _ _ _ _ _ V); eauto 6|]. lia.
  - intros s' n' I. apply (c_held _ _ _ _ _ _ V) in I as (tg' & G'). unfold SPAN. destruct (Z.lt_trichotomy s s') as [H|[H|H]].
    + pose proof (p_dis _ _ _ _ _ (c_pi _ _ _ _ _ _ V) _ _ _ _ _ _ _ _ G G' H). lia.
    + congruence.
    + pose proof (p_dis _ _ _ _ _ (c_pi _ _ _ _ _ _ V) _ _ _ _ _ _ _ _ G' G H). lia.
Qed.
Lemma taken_fair N me lg rg g L s n tg : CI N me lg rg g L -> g s = Some (FL, n, tg) -> inside (after lg) (s * SPAN) (n * SPAN) /\ unused (after lg) (s * SPAN) (n * SPAN).
Proof. intros V G. apply (drop_fair _ _ _ _ _ _ _ _ _ _ V G). discriminate. Qed.

Definition shrinks (rg rg' : regions) : Prop := forall m v, rg' m = Some v -> rg m = Some v.
Lemma CI_unmap st rg g L L' s p n tg : CI (nh st) (mem st) (log st) rg g L -> g s = Some (p, n, tg) -> is_rs p = false -> p <> HELD ->
  Permutation (L p) (s :: L' p) -> (forall r, r <> p -> L' r = L r) ->
  exists m' l' rg', unmap st s = Ok (ml st m' l') /\ CI (nh st) m' l' rg' (upd g s None) L' /\ shrinks rg rg' /\ held (after l') = held (after (log st)) /\ user (after l') = user (after (log st)).
Proof.
  intros V G Q NHE P FR. pose proof (c_pi _ _ _ _ _ _ V) as VP. destruct (p_ok _ _ _ _ _ VP _ _ _ _ G) as (N1 & OK).
  destruct (p_at _ _ _ _ _ VP _ _ _ _ G) as (m & T & al & R & A & B & HD). destruct (HD Q) as (hd & M1 & M2 & M3 & M4 & M5). clear HD.
  destruct (p_rg _ _ _ _ _ VP _ _ _ R) as (T1 & AL & SUM & h0 & D1 & D2 & D3 & D4 & D5).
  assert (S2 : gsum (upd g s None) m T = gsum g m T - n) by (rewrite gsum_upd by lia; rewrite G; cbn; lia).
  destruct (drop_fair _ _ _ _ _ _ _ _ _ _ V G NHE) as (F1 & F2).
  assert (HELD' : forall s' n', (exists tg', g s' = Some (HELD, n', tg')) <-> exists tg', upd g s None s' = Some (HELD, n', tg')).
  { intros s' n'. split; intros (tg' & E); exists tg'; [rewrite upd_other; [exact E|congruence]|apply upd_none in E as (_ & E); exact E]. }
  assert (BASE : m * SPAN - Z.shiftl al 3 = base m al) by (unfold base; rewrite Z.shiftl_mul_pow2 by lia; change (2 ^ 3) with 8; lia).
  assert (LEN : T * SPAN + (if SPAN <=? T * SPAN then SPAN else 0) = leng T) by (unfold leng; destruct (Z.leb_spec SPAN (T * SPAN)); unfold SPAN in *; lia).
  assert (AL0 : (al =? 0) = false) by (apply Z.eqb_neq; lia).
  (* the whole mapping goes back *)
  assert (REL : forall lg, fair lg -> after lg = after (log st) -> (forall x, m <= x < m + T -> upd g s None x = None) ->
     fair (ERelease (base m al) (leng T) :: lg) /\
     (forall a len, In (a, len) (mapped (after (ERelease (base m al) (leng T) :: lg))) <-> exists m1 T1 al1, rdel rg m m1 = Some (T1, al1) /\ a = base m1 al1 /\ len = leng T1)).
  { intros lg FA AF EM. cbn [fair fair1 after after1 mapped]. rewrite AF. split.
    - split; [|exact FA]. split; [apply (c_krn _ _ _ _ _ _ V); eauto 6|]. intros s' n' I. apply (c_held _ _ _ _ _ _ V) in I as (tg' & G').
      destruct (pad_in _ _ _ _ _ _ _ _ _ _ V G') as (m1 & T1' & al1 & R1 & A1 & B1 & C1 & E1). assert (NM : m1 <> m).
      { intros ->. rewrite R in R1. injection R1 as <- <-. assert (X : upd g s None s' = None) by (apply EM; pose proof (p_ok _ _ _ _ _ VP _ _ _ _ G'); lia). rewrite upd_other in X by congruence. congruence. }
      destruct (Z.lt_ge_cases m m1) as [H|H]; [pose proof (c_pad _ _ _ _ _ _ V _ _ _ _ _ _ R R1 H); lia|pose proof (c_pad _ _ _ _ _ _ V _ _ _ _ _ _ R1 R ltac:(lia)); lia].
    - intros a len. rewrite filter_In. rewrite (c_krn _ _ _ _ _ _ V). split.
      + intros ((m1 & T1' & al1 & R1 & -> & ->) & NE). exists m1, T1', al1. split; [|auto]. unfold rdel. destruct (Z.eqb_spec m m1) as [<-|]; [|exact R1]. rewrite R in R1. injection R1 as <- <-. unfold pair_eqb in NE. cbn in NE. rewrite !Z.eqb_refl in NE. discriminate.
      + intros (m1 & T1' & al1 & R1 & -> & ->). unfold rdel in R1. destruct (Z.eqb_spec m m1) as [|NM]; [discriminate|]. split; [eauto 6|].
        assert (NB : base m1 al1 <> base m al). { destruct (Z.lt_ge_cases m m1) as [H|H]; [pose proof (c_pad _ _ _ _ _ _ V _ _ _ _ _ _ R R1 H)|pose proof (c_pad _ _ _ _ _ _ V _ _ _ _ _ _ R1 R ltac:(lia))]; pose proof (proj1 (p_rg _ _ _ _ _ VP _ _ _ R1)); unfold leng, SPAN in *; lia. }
        unfold pair_eqb. cbn. apply Z.eqb_neq in NB. rewrite NB. reflexivity. }
  assert (SHR : shrinks rg (rdel rg m)) by (intros m1 v; unfold rdel; destruct (m =? m1); [discriminate|auto]).
  assert (PADS : forall m1 T1 al1 m2 T2 al2, rdel rg m m1 = Some (T1, al1) -> rdel rg m m2 = Some (T2, al2) -> m1 < m2 -> base m1 al1 + leng T1 <= base m2 al2) by (intros m1 T1' al1 m2 T2 al2 R1 R2; apply (c_pad _ _ _ _ _ _ V _ _ _ _ _ _ (SHR _ _ R1) (SHR _ _ R2))).
  assert (HEL : forall lg, after lg = after (log st) -> forall s' n', In (s', n') (held (after (ERelease (base m al) (leng T) :: lg))) <-> exists tg', upd g s None s' = Some (HELD, n', tg')) by (intros lg AF s' n'; cbn [after after1 held]; rewrite AF, <- HELD'; apply (c_held _ _ _ _ _ _ V)).
  unfold unmap, get. rewrite M1. cbn [bind].
  destruct (Z.eq_dec s m) as [->|NM].
  - (* first span *)
    rewrite M1 in D1. injection D1 as <-. rewrite G in D2. unfold is_master. rewrite D2. unfold put. cbn [mem w_mem put_at]. unfold put_at. rewrite Z.eqb_refl. cbn [bind with_kind h_rem h_n h_al h_total h_kind].
    rewrite D5, M2, D4, D3, AL0, BASE, LEN. destruct (Z.leb_spec (gsum g m T - n) 0) as [R0|R0].
    + eexists _, _, (rdel rg m). split; [reflexivity|]. cbn [fill note w_mem mem log nh].
      assert (X : PI (nh st) (fun x => if (m <=? x) && (x <? m + T) then None else if m =? x then Some (with_rem (with_kind hd KDead) (gsum g m T - n)) else if m =? x then Some (with_kind hd KDead) else mem st x) (rdel rg m) (upd g m None) L' /\ forall x, m <= x < m + T -> upd g m None x = None).
      { apply (PI_last _ _ _ _ _ _ _ _ _ _ _ _ _ _ VP G R); auto; try lia. intros x X. destruct (Z.leb_spec m x), (Z.ltb_spec x (m + T)); cbn; try lia; destruct (Z.eqb_spec m x); try lia; reflexivity. }
      destruct X as (X & EM). destruct (REL (log st) (c_fair _ _ _ _ _ _ V) eq_refl EM) as (Y1 & Y2).
      split; [constructor; [exact X|exact Y1|exact Y2|exact PADS|apply (HEL (log st) eq_refl)]|]. split; [exact SHR|]. split; reflexivity.
    + eexists _, _, rg. split; [reflexivity|]. cbn [w_mem mem log nh]. split.
      * constructor; [|apply (c_fair _ _ _ _ _ _ V)|apply (c_krn _ _ _ _ _ _ V)|apply (c_pad _ _ _ _ _ _ V)|intros s' n'; rewrite <- HELD'; apply (c_held _ _ _ _ _ _ V)].
        apply (PI_drop _ _ _ _ _ _ _ _ _ _ _ m T al hd (with_rem (with_kind hd KDead) (gsum g m T - n)) VP G R); auto; try lia.
        -- intros x NX _. destruct (Z.eqb_spec m x); [congruence|reflexivity].
        -- now rewrite Z.eqb_refl.
        -- now rewrite upd_same.
      * split; [intros ? ? H; exact H|]. split; reflexivity.
  - (* a later one *)
    destruct (M5 NM) as (K1 & K2). unfold is_master. rewrite K1, K2, M2. replace (s - (s - m)) with m by lia. unfold put, fill, note. cbn [mem w_mem log nh]. unfold put_at.
    replace ((s <=? m) && (m <? s + n)) with false by (symmetry; destruct (Z.leb_spec s m); cbn; [lia|reflexivity]). rewrite D1. cbn [bind]. rewrite D5, D4, D3, AL0, BASE, LEN.
    assert (FD : fair (EDrop (s * SPAN) (n * SPAN) :: log st)) by (cbn [fair fair1]; split; [auto|apply (c_fair _ _ _ _ _ _ V)]).
    destruct (Z.leb_spec (gsum g m T - n) 0) as [R0|R0].
    + eexists _, _, (rdel rg m). split; [reflexivity|]. cbn [fill note w_mem mem log nh].
      match goal with |- CI _ ?me _ _ _ _ /\ _ => assert (X : PI (nh st) me (rdel rg m) (upd g s None) L' /\ forall x, m <= x < m + T -> upd g s None x = None) end.
      { apply (PI_last _ _ _ _ _ _ _ _ _ _ _ _ _ _ VP G R); auto; try lia. intros x X. destruct (Z.leb_spec m x), (Z.ltb_spec x (m + T)); cbn; try lia; destruct (Z.eqb_spec m x); try lia; destruct (Z.leb_spec s x), (Z.ltb_spec x (s + n)); cbn; try lia; reflexivity. }
      destruct X as (X & EM). destruct (REL (EDrop (s * SPAN) (n * SPAN) :: log st) FD eq_refl EM) as (Y1 & Y2).
      split; [constructor; [exact X|exact Y1|exact Y2|exact PADS|apply (HEL (EDrop (s * SPAN) (n * SPAN) :: log st) eq_refl)]|]. split; [exact SHR|]. split; reflexivity.
    + eexists _, _, rg. split; [reflexivity|]. cbn [w_mem mem log nh]. split.
      * constructor; [|exact FD|apply (c_krn _ _ _ _ _ _ V)|apply (c_pad _ _ _ _ _ _ V)|intros s' n'; rewrite <- HELD'; apply (c_held _ _ _ _ _ _ V)].
        apply (PI_drop _ _ _ _ _ _ _ _ _ _ _ m T al h0 (with_rem h0 (gsum g m T - n)) VP G R); auto; try lia.
        -- intros x NX X. destruct (Z.eqb_spec m x); [congruence|]. destruct (Z.leb_spec s x), (Z.ltb_spec x (s + n)); cbn; try lia; reflexivity.
        -- now rewrite Z.eqb_refl.
        -- cbn. rewrite upd_other by congruence. exact D2.
      * split; [intros ? ? H; exact H|]. split; reflexivity.
Qed.

(* ---- several pieces move ---- *)
Lemma CI_move N me lg rg g L L' s p q n tg : CI N me lg rg g L -> g s = Some (p, n, tg) -> p <> q -> p <> HELD -> q <> HELD -> is_rs p = is_rs q \/ is_rs q = true -> okp N q n tg ->
  Permutation (L p) (s :: L' p) -> Permutation (L' q) (s :: L q) -> (forall r, r <> p -> r <> q -> L' r = L r) -> CI N me lg rg (upd g s (Some (q, n, tg))) L'.
Proof.
  intros V G NE P1 Q1 HQ OK A B C. constructor; try apply V.
  - apply (PI_move _ _ _ _ _ _ _ p q n tg (c_pi _ _ _ _ _ _ V)); auto.
  - intros s' n'. rewrite (c_held _ _ _ _ _ _ V). unfold upd. destruct (Z.eqb_spec s s') as [<-|]; [|reflexivity]. split; intros (t & E); congruence.
Qed.
Definition set_l (L : gp -> list Z) (q : gp) (l : list Z) : gp -> list Z := fun r => if gp_dec r q then l else L r.
Lemma set_same L q l : set_l L q l q = l.
Proof. unfold set_l. now destruct (gp_dec q q). Qed.
Lemma set_other L q l r : r <> q -> set_l L q l r = L r.
Proof. unfold set_l. intros H. now destruct (gp_dec r q). Qed.
Lemma CI_moves N me lg rg p q : p <> q -> p <> HELD -> q <> HELD -> is_rs p = is_rs q \/ is_rs q = true -> forall l g L X, CI N me lg rg g L ->
  (forall s, In s l -> exists n tg, g s = Some (p, n, tg) /\ okp N q n tg) -> Permutation (L p) (l ++ X) ->
  exists g', CI N me lg rg g' (set_l (set_l L p X) q (l ++ L q)) /\ (forall x, ~ In x l -> g' x = g x) /\ forall x, In x l -> exists n tg, g x = Some (p, n, tg) /\ g' x = Some (q, n, tg).
Proof.
  intros NE P1 Q1 HQ. induction l as [|s l IH]; intros g L X V H P.
  - exists g. split; [|split; [auto|intros x []]]. apply (CI_perm _ _ _ _ _ _ _ V). intros r. destruct (gp_dec r q) as [->|N1]; [rewrite set_same; apply Permutation_refl|]. rewrite set_other by exact N1. destruct (gp_dec r p) as [->|N2]; [rewrite set_same; exact P|]. rewrite set_other by exact N2. apply Permutation_refl.
  - destruct (H s (or_introl eq_refl)) as (n & tg & G & OK). cbn [app] in P.
    assert (NI : ~ In s l). { intros I. pose proof (p_nd _ _ _ _ _ (c_pi _ _ _ _ _ _ V) p) as ND. apply (Permutation_NoDup P) in ND. inversion ND; subst. apply H2. apply in_or_app. auto. }
    assert (V1 : CI N me lg rg (upd g s (Some (q, n, tg))) (set_l (set_l L p (l ++ X)) q (s :: L q))).
    { apply (CI_move _ _ _ _ _ _ _ _ p q n tg V); auto.
      - rewrite set_other by exact NE. rewrite set_same. exact P.
      - rewrite set_same. apply Permutation_refl.
      - intros r R1 R2. now rewrite !set_other. }
    destruct (IH _ _ X V1) as (g' & V2 & F1 & F2).
    + intros x I. destruct (H x (or_intror I)) as (n' & tg' & G' & OK'). exists n', tg'. split; [|exact OK']. rewrite upd_other; [exact G'|]. intros ->. contradiction.
    + rewrite set_other by exact NE. rewrite set_same. apply Permutation_refl.
    + exists g'. split; [|split].
      * apply (CI_perm _ _ _ _ _ _ _ V2). intros r. destruct (gp_dec r q) as [->|N1]; [rewrite !set_same; cbn [app]; symmetry; apply Permutation_middle|]. rewrite !(set_other _ q) by exact N1. destruct (gp_dec r p) as [->|N2]; [rewrite !set_same; apply Permutation_refl|]. rewrite !set_other by assumption. apply Permutation_refl.
      * intros x NX. rewrite F1 by (intros I; apply NX; right; exact I). rewrite upd_other; [reflexivity|]. intros ->. apply NX. left. reflexivity.
      * intros x [<-|I].
        -- exists n, tg. split; [exact G|]. rewrite F1 by exact NI. apply upd_same.
        -- destruct (F2 x I) as (n' & tg' & A & B). exists n', tg'. split; [|exact B]. rewrite upd_other in A; [exact A|]. intros ->. contradiction.
Qed.

(* ---- several pieces go ---- *)
Record gone (st : state) (rg : regions) (g : ghost) (st' : state) (rg' : regions) (g' : ghost) (ex : list Z) : Prop := {
  n_ml : exists m l, st' = ml st m l;
  n_rg : shrinks rg rg';
  n_held : held (after (log st')) = held (after (log st));
  n_user : user (after (log st')) = user (after (log st));
  n_same : forall x, ~ In x ex -> g' x = g x;
  n_sub : forall x v, g' x = Some v -> g x = Some v }.
Lemma gone_refl st rg g ex : gone st rg g st rg g ex.
Proof. constructor; auto; [exists (mem st), (log st); now destruct st|intros ? ? H; exact H]. Qed.
Lemma gone_trans a ra ga b rb gb c rc gc ex ey ez : gone a ra ga b rb gb ex -> gone b rb gb c rc gc ey -> incl ex ez -> incl ey ez -> gone a ra ga c rc gc ez.
Proof.
  intros [(m1 & l1 & ->) R1 H1 U1 S1 T1] [(m2 & l2 & ->) R2 H2 U2 S2 T2] I1 I2. constructor; try congruence.
  - exists m2, l2. reflexivity.
  - intros m v E. auto.
  - intros x X. rewrite S2, S1 by auto. reflexivity.
  - intros x v E. auto.
Qed.
Lemma unmap_fl st rg g L s X : CI (nh st) (mem st) (log st) rg g L -> Permutation (L FL) (s :: X) ->
  exists st' rg', unmap st s = Ok st' /\ CI (nh st') (mem st') (log st') rg' (upd g s None) (with_fl L X) /\ gone st rg g st' rg' (upd g s None) [s].
Proof.
  intros V P. assert (I : In s (L FL)) by (apply (Permutation_in s (Permutation_sym P)); left; reflexivity). apply (p_in _ _ _ _ _ (c_pi _ _ _ _ _ _ V)) in I as (n & tg & G).
  destruct (CI_unmap _ _ _ _ (with_fl L X) _ _ _ _ V G eq_refl ltac:(discriminate) P) as (m' & l' & rg' & E & V' & SH & H & U); [intros [] R; first [reflexivity|now elim R]|].
  exists (ml st m' l'), rg'. split; [exact E|]. split; [exact V'|]. constructor; auto.
  - exists m', l'. reflexivity.
  - intros x NX. apply upd_other. intros ->. apply NX. left. reflexivity.
  - intros x v E'. apply upd_none in E' as (_ & E'). exact E'.
Qed.
Lemma fl_hdr st rg g L s : CI (nh st) (mem st) (log st) rg g L -> In s (L FL) -> exists hd n tg, get st s = Ok hd /\ g s = Some (FL, n, tg) /\ h_n hd = n /\ h_heap hd = fst tg /\ h_cls hd = snd tg /\ 1 <= n <= RUNS.
Proof.
  intros V I. apply (p_in _ _ _ _ _ (c_pi _ _ _ _ _ _ V)) in I as (n & tg & G). destruct (p_ok _ _ _ _ _ (c_pi _ _ _ _ _ _ V) _ _ _ _ G) as (A & B). cbn in B.
  destruct (p_at _ _ _ _ _ (c_pi _ _ _ _ _ _ V) _ _ _ _ G) as (m & T & al & _ & _ & _ & H). destruct (H eq_refl) as (hd & M1 & M2 & M3 & M4 & _). exists hd, n, tg. unfold get. rewrite M1. repeat (split; [auto; fail|]). lia.
Qed.
Lemma with_fl_perm (L : gp -> list Z) a b : Permutation a b -> forall r, Permutation (with_fl L a r) (with_fl L b r).
Proof. intros P []; cbn; auto. Qed.
Lemma CI_fl N me lg rg g L a b : CI N me lg rg g (with_fl L a) -> Permutation a b -> CI N me lg rg g (with_fl L b).
Proof. intros V P. apply (CI_perm _ _ _ _ _ _ _ V). apply with_fl_perm, P. Qed.

Lemma sift_ok X : forall l keep st rg g L, CI (nh st) (mem st) (log st) rg g (with_fl L (l ++ keep ++ X)) ->
  exists st' keep' rg' g', sift st l keep = Ok (st', keep') /\ CI (nh st') (mem st') (log st') rg' g' (with_fl L (keep' ++ X)) /\ gone st rg g st' rg' g' l /\ incl keep' (keep ++ l).
Proof.
  induction l as [|s l IH]; intros keep st rg g L V.
  - exists st, keep, rg, g. cbn. split; [reflexivity|]. split; [exact V|]. split; [apply gone_refl|]. intros x I. apply in_or_app. auto.
  - cbn [sift]. destruct (fl_hdr _ _ _ _ s V ltac:(left; reflexivity)) as (hd & n & tg & E & _). rewrite E. cbn [bind]. destruct (is_master hd && (h_n hd <? h_rem hd)).
    + destruct (IH (s :: keep) st rg g L) as (st' & keep' & rg' & g' & A & B & C & D).
      { apply (CI_fl _ _ _ _ _ _ _ _ V). cbn [app]. apply Permutation_middle. }
      exists st', keep', rg', g'. split; [exact A|]. split; [exact B|]. split.
      * apply (gone_trans _ _ _ _ _ _ _ _ _ [] l _ (gone_refl st rg g []) C); [intros x []|apply incl_tl, incl_refl].
      * intros x I. apply D in I. apply in_app_or in I as [[<-|I]|I]; apply in_or_app; cbn; auto.
    + destruct (unmap_fl _ _ _ _ s (l ++ keep ++ X) V) as (st1 & rg1 & E1 & V1 & G1); [apply Permutation_refl|]. rewrite E1. cbn [bind].
      destruct (IH keep st1 rg1 (upd g s None) L) as (st' & keep' & rg' & g' & A & B & C & D).
      { apply (CI_perm _ _ _ _ _ _ _ V1). intros []; cbn; apply Permutation_refl. }
      exists st', keep', rg', g'. split; [exact A|]. split; [exact B|]. split.
      * apply (gone_trans _ _ _ _ _ _ _ _ _ _ _ _ G1 C); [intros x [<-|[]]; left; reflexivity|apply incl_tl, incl_refl].
      * intros x I. apply D in I. apply in_app_or in I as [I|I]; apply in_or_app; cbn; auto.
Qed.
Lemma slot_ok X : forall arr pre st rg g L, CI (nh st) (mem st) (log st) rg g (with_fl L (pre ++ arr ++ X)) ->
  exists st' f all rg' g', slot st pre arr = Ok (st', f, all) /\ gone st rg g st' rg' g' arr /\
    match f with
    | None => st' = st /\ rg' = rg /\ g' = g /\ all = pre ++ arr
    | Some (p, q) => CI (nh st') (mem st') (log st') rg' g' (with_fl L (p ++ q ++ X)) /\ incl p (pre ++ arr) /\ incl q arr /\ (length p + S (length q) = length pre + length arr)%nat
    end.
Proof.
  induction arr as [|s arr IH]; intros pre st rg g L V.
  - exists st, None, pre, rg, g. cbn. split; [reflexivity|]. split; [apply gone_refl|]. rewrite app_nil_r. auto.
  - cbn [slot]. destruct (fl_hdr _ _ _ _ s V) as (hd & n & tg & E & _); [cbn; apply in_or_app; right; left; reflexivity|]. rewrite E. cbn [bind]. destruct (negb (is_master hd) || (h_rem hd <=? h_n hd)).
    + destruct (unmap_fl _ _ _ _ s (pre ++ arr ++ X) V) as (st1 & rg1 & E1 & V1 & G1); [cbn; symmetry; apply Permutation_middle|]. rewrite E1. cbn [bind]. exists st1, (Some (pre, arr)), [], rg1, (upd g s None). split; [reflexivity|]. split.
      * apply (gone_trans _ _ _ _ _ _ _ _ _ _ _ _ G1 (gone_refl _ _ _ [])); [intros x [<-|[]]; left; reflexivity|intros x []].
      * split; [apply (CI_perm _ _ _ _ _ _ _ V1); intros []; cbn; apply Permutation_refl|]. split; [intros x I; apply in_or_app; auto|]. split; [apply incl_tl, incl_refl|]. cbn. lia.
    + destruct (IH (pre ++ [s]) st rg g L) as (st' & f & all & rg' & g' & A & B & C); [rewrite <- app_assoc; exact V|]. exists st', f, all, rg', g'. split; [exact A|]. split.
      * apply (gone_trans _ _ _ _ _ _ _ _ _ [] arr _ (gone_refl st rg g []) B); [intros x []|apply incl_tl, incl_refl].
      * destruct f as [[p q]|].
        -- destruct C as (C1 & C2 & C3 & C4). split; [exact C1|]. split; [intros x I; apply C2 in I; rewrite <- app_assoc in I; exact I|]. split; [apply incl_tl, C3|]. rewrite app_length in C4. cbn in *. lia.
        -- rewrite <- app_assoc in C. exact C.
Qed.
Lemma slots_ok X : forall keep pre arr st rg g L, CI (nh st) (mem st) (log st) rg g (with_fl L (pre ++ arr ++ keep ++ X)) ->
  exists st' arr' keep' rg' g', slots st pre arr keep = Ok (st', arr', keep') /\ gone st rg g st' rg' g' (pre ++ arr ++ keep) /\ CI (nh st') (mem st') (log st') rg' g' (with_fl L (arr' ++ keep' ++ X)) /\
    incl arr' (pre ++ arr ++ keep) /\ incl keep' keep /\ length arr' = (length pre + length arr)%nat.
Proof.
  induction keep as [|k keep IH]; intros pre arr st rg g L V.
  - exists st, (pre ++ arr), [], rg, g. cbn. split; [reflexivity|]. split; [apply gone_refl|]. split; [rewrite <- app_assoc; exact V|]. rewrite app_nil_r. split; [apply incl_refl|]. split; [apply incl_refl|apply app_length].
  - cbn [slots]. destruct (slot_ok ((k :: keep) ++ X) arr pre st rg g L V) as (st1 & f & all & rg1 & g1 & A & B & C). rewrite A. cbn [bind]. destruct f as [[p q]|].
    + destruct C as (C1 & C2 & C3 & C4). destruct (IH p (k :: q) st1 rg1 g1 L) as (st' & arr' & keep' & rg' & g' & D1 & D2 & D3 & D4 & D5 & D6).
      { apply (CI_fl _ _ _ _ _ _ _ _ C1). apply Permutation_app_head. cbn [app]. symmetry. apply Permutation_middle. }
      assert (SUB : incl (p ++ (k :: q) ++ keep) (pre ++ arr ++ k :: keep)).
      { intros x I. apply in_app_or in I as [I|I]; [apply C2 in I; rewrite app_assoc; apply in_or_app; auto|]. apply in_or_app. right. apply in_or_app. cbn [app] in I. destruct I as [<-|I]; [right; left; reflexivity|]. apply in_app_or in I as [I|I]; [left; apply C3, I|right; right; exact I]. }
      exists st', arr', keep', rg', g'. split; [exact D1|]. split; [|split; [exact D3|split; [|split]]].
      * apply (gone_trans _ _ _ _ _ _ _ _ _ _ _ _ B D2); [intros x I; apply in_or_app; right; apply in_or_app; auto|exact SUB].
      * intros x I. apply SUB, D4, I.
      * apply incl_tl, D5.
      * cbn in D6. lia.
    + destruct C as (-> & -> & -> & ->). exists st, (pre ++ arr), (k :: keep), rg, g. split; [reflexivity|]. split; [apply gone_refl|]. split; [rewrite <- app_assoc; exact V|]. split; [|split; [apply incl_refl|apply app_length]].
      intros x I. rewrite app_assoc. apply in_or_app. auto.
Qed.
