(* Runs of spans: taking and giving back, threads and their heaps. *)
From Verif Require Import Base RunModel RunProofs RunProofs2 RunProofs3 RunProofs4.
Local Open Scope Z_scope.

Lemma RES_same st st' rg g g' : RES st rg g -> res st' = res st -> (forall x n h tg, g x = Some (RS h, n, tg) -> g' x = Some (RS h, n, tg)) -> RES st' rg g'.
Proof. intros R E H h rm rs rk Q. rewrite E in Q. destruct (R _ _ _ _ Q) as (A & B). split; [exact A|]. intros NZ. destruct (B NZ) as ((tg & G) & C). split; [eauto|exact C]. Qed.
(* what a class keeps is replaced *)
Lemma swap_cc st rg g h c l fl : BI st (l ++ fl) rg g -> (length l <= 1)%nat -> 0 <= c < CLASSES -> (h < nh st)%nat -> (forall s, In s l -> exists tg, g s = Some (FL, 1, tg)) ->
  exists g', BI (w_at st (CC h c) l) (at_ st (CC h c) ++ fl) rg g' /\ (forall s, In s (at_ st (CC h c)) -> exists tg, g' s = Some (FL, 1, tg)).
Proof.
  intros [V CP RE] LL C1 HH HL. set (old := at_ st (CC h c)). destruct (outof st rg g (CC h c) old (l ++ fl) [] V) as (g1 & V1 & F1 & M1); [rewrite app_nil_r; apply Permutation_refl|].
  assert (NI : forall s, In s l -> ~ In s old) by (intros s I I'; destruct (M1 s I') as (? & ? & Q & _); destruct (HL s I); congruence).
  set (st1 := w_at st (CC h c) []) in *. assert (V1' : CI (nh st1) (mem st1) (log st1) rg g1 (list_of st1 (l ++ old ++ fl))).
  { apply (CI_perm _ _ _ _ _ _ _ V1). intros r. destruct (gp_dec r FL) as [->|NR]; [|rewrite (list_fl _ _ (l ++ old ++ fl)) by exact NR; apply Permutation_refl]. cbn [list_of]. rewrite !app_assoc. apply Permutation_app_tail, Permutation_app_comm. }
  destruct (into st1 rg g1 (CC h c) l (old ++ fl) l V1') as (g2 & V2 & F2 & M2).
  { intros s I. destruct (HL s I) as (tg & Q). exists 1, tg. rewrite F1 by (apply NI; exact I). split; [exact Q|]. cbn. unfold CLASSES in *. cbn in *. lia. }
  { unfold st1. rewrite at_same, app_nil_r. apply Permutation_refl. }
  exists g2. split.
  - constructor.
    + apply (CI_perm _ _ _ _ _ _ _ V2). intros r. unfold st1. destruct (gp_dec r (At (CC h c))) as [->|NR]; [rewrite !list_at_same; apply Permutation_refl|]. rewrite !list_at_other by exact NR. apply Permutation_refl.
    + constructor; [intros; rewrite at_other by discriminate; apply CP; assumption|intros; rewrite at_other by discriminate; apply CP; assumption|].
      intros h' c'. destruct (place_dec (CC h' c') (CC h c)) as [Q|Q]; [injection Q as -> ->; rewrite at_same; exact LL|rewrite at_other by exact Q; apply CP].
    + apply (RES_same st _ rg g g2 RE eq_refl). intros x n k tg Q. rewrite F2, F1; [exact Q| |].
      * intros I. destruct (M1 x I) as (? & ? & Q' & _). congruence.
      * intros I. destruct (HL x I). congruence.
  - intros s I. destruct (M1 s I) as (n & tg & _ & OK & _ & Q). cbn in OK. exists tg. rewrite F2 by (intros I'; apply (NI s I' I)). replace 1 with n by lia. exact Q.
Qed.

Definition fits (n cls : Z) : Prop := (0 <= cls < CLASSES /\ n = 1) \/ (cls = K_LARGE /\ 1 <= n <= RUNS).
Lemma extract_ok st rg g h n cls fl mm : BI st fl rg g -> fits n cls -> (h < nh st)%nat -> honest (after (log st)) mm (65 * SPAN) ->
  exists got st' rg' g', extract st h n cls mm = Ok (got, st') /\ BI st' (optl got ++ fl) rg' g' /\ kp st st' /\ (forall s, got = Some s -> exists k tg, g' s = Some (FL, k, tg) /\ n <= k <= nlimit n /\ (n = 1 -> k = 1)) /\ (got = None -> mm = None).
Proof.
  intros V FI HH HO. assert (N1 : 1 <= n <= RUNS) by (unfold fits, RUNS in *; lia). unfold extract.
  assert (GEN : exists got st' rg' g', (do x <- levels (Z.to_nat (nlimit n)) st h n (nlimit n); let '(got, st) := x in match got with Some s => Ok (Some s, st) | None => span_map st h n mm end) = Ok (got, st') /\ BI st' (optl got ++ fl) rg' g' /\ kp st st' /\ (forall s, got = Some s -> exists k tg, g' s = Some (FL, k, tg) /\ n <= k <= nlimit n /\ (n = 1 -> k = 1)) /\ (got = None -> mm = None)).
  { pose proof (nlimit_ok n N1) as NL. destruct (levels_ok h (nlimit n) fl (Z.to_nat (nlimit n)) st rg g n V) as (got1 & st1 & rg1 & g1 & E1 & B1 & K1 & SH & D1); try lia. rewrite E1. cbn [bind]. destruct got1 as [s1|].
    - exists (Some s1), st1, rg1, g1. split; [reflexivity|]. split; [exact B1|]. split; [exact K1|]. split; [|discriminate]. intros s Q. injection Q as <-. destruct (D1 s1 eq_refl) as (k & tg & Q1 & Q2). exists k, tg. split; [exact Q1|]. split; [lia|]. intros ->. change (nlimit 1) with 1 in Q2. lia.
    - destruct (span_map_ok st1 rg1 g1 h n fl mm B1 N1) as (got & st' & rg' & g' & E & B & K & D & M).
      + rewrite (q_nh _ _ K1). exact HH.
      + destruct mm as [a|]; [|exact I]. destruct HO as (H1 & H2 & H3). split; [exact H1|]. split; [exact H2|]. intros b k Q. apply H3. apply (c_krn _ _ _ _ _ _ (b_ci _ _ _ _ B1)) in Q as (m & T & al & R & -> & ->). apply (c_krn _ _ _ _ _ _ (b_ci _ _ _ _ V)). exists m, T, al. auto.
      + exists got, st', rg', g'. split; [exact E|]. split; [exact B|]. split; [apply (kp_trans _ _ _ K1 K)|]. split; [|exact M]. intros s Q. destruct (D s Q) as (tg & Q1). exists n, tg. split; [exact Q1|]. split; [lia|auto]. }
  destruct (Z.ltb_spec cls CLASSES) as [LC|_]; [|exact GEN]. destruct (at_ st (CC h cls)) as [|s0 r0] eqn:EC; [exact GEN|]. clear GEN.
  assert (FC : 0 <= cls < CLASSES /\ n = 1) by (destruct FI as [FI|FI]; [exact FI|unfold K_LARGE, CLASSES in *; lia]). destruct FC as (C1 & ->).
  destruct (textract_ok st rg g h 1 fl V ltac:(unfold RUNS; lia)) as (c & st1 & g1 & E1 & B1 & F1 & D1 & A1). rewrite E1.
  destruct (swap_cc st1 rg g1 h cls (optl c) fl B1) as (g2 & B2 & M2); [destruct c; cbn; lia|exact C1|rewrite (r_nh _ _ _ _ _ _ _ F1); exact HH|intros s I; destruct c; [destruct I as [<-|[]]; apply D1|destruct I]|].
  assert (R0 : r0 = []) by (pose proof (k_cc _ (b_cap _ _ _ _ V) h cls) as K; rewrite EC in K; cbn in K; destruct r0; [reflexivity|cbn in K; lia]). subst r0.
  rewrite A1, EC in B2, M2 by discriminate. exists (Some s0), (w_at st1 (CC h cls) (optl c)), rg, g2. split; [destruct c; reflexivity|]. split; [exact B2|]. split; [apply (kp_trans st st1); [apply (fr_kp _ _ _ _ _ _ _ F1)|constructor; reflexivity]|]. split; [|discriminate].
  intros s Q. injection Q as <-. destruct (M2 s0 (or_introl eq_refl)) as (tg & Q). exists 1, tg. split; [exact Q|]. change (nlimit 1) with 1. lia.
Qed.

(* ---- in use, and back ---- *)
Lemma CI_take N me lg rg g L L' t n s k tg hd hd' : CI N me lg rg g L -> g s = Some (FL, k, tg) -> me s = Some hd -> 1 <= n <= k -> small (h_heap hd', h_cls hd') k -> (h_heap hd' < N)%nat ->
  h_kind hd' = h_kind hd -> h_n hd' = h_n hd -> h_off hd' = h_off hd -> h_total hd' = h_total hd -> h_rem hd' = h_rem hd -> h_al hd' = h_al hd ->
  Permutation (L FL) (s :: L' FL) -> L' HELD = s :: L HELD -> (forall r, r <> FL -> r <> HELD -> L' r = L r) ->
  CI N (fun x => if s =? x then Some hd' else me x) (ETake t n (Some (s, k)) :: lg) rg (upd (upd g s (Some (FL, k, (h_heap hd', h_cls hd')))) s (Some (HELD, k, (h_heap hd', h_cls hd')))) L'.
Proof.
  intros V G M NK SM HN K1 K2 K3 K4 K5 K6 P1 P2 FR. destruct (p_ok _ _ _ _ _ (c_pi _ _ _ _ _ _ V) _ _ _ _ G) as (OK1 & OK2). cbn in OK2.
  assert (V1 : PI N (fun x => if s =? x then Some hd' else me x) rg (upd g s (Some (FL, k, (h_heap hd', h_cls hd')))) L) by (apply (PI_retag _ _ _ _ _ _ FL k tg hd hd' (c_pi _ _ _ _ _ _ V)); auto).
  destruct (taken_fair _ _ _ _ _ _ _ _ _ V G) as (F1 & F2). constructor; try apply V.
  - apply (PI_move _ _ _ _ _ _ _ FL HELD k (h_heap hd', h_cls hd') V1); [apply upd_same|discriminate|left; reflexivity|cbn; auto|exact P1|rewrite P2; apply Permutation_refl|exact FR].
  - split; [|apply (c_fair _ _ _ _ _ _ V)]. split; [exact NK|]. auto.
  - intros x j. cbn [after after1 held]. unfold upd. destruct (Z.eqb_spec s x) as [<-|NX].
    + split; [|intros (tt & Q); injection Q as <- _; left; reflexivity]. intros [Q|Q]; [injection Q as <-; eauto|]. apply (c_held _ _ _ _ _ _ V) in Q as (tt & Q). congruence.
    + rewrite <- (c_held _ _ _ _ _ _ V). split; [intros [Q|Q]; [congruence|exact Q]|intros Q; right; exact Q].
Qed.
Lemma held_gone (l : list (Z * Z)) s k : NoDup (map fst l) -> In (s, k) l -> Permutation (map fst l) (s :: map fst (filter (fun x => negb (fst x =? s)) l)).
Proof.
  induction l as [|[y j] l IH]; intros ND I; [destruct I|]. cbn in ND. inversion ND; subst. cbn [map fst filter]. destruct I as [E|I].
  - injection E as -> ->. rewrite Z.eqb_refl. cbn [negb]. assert (Q : filter (fun x => negb (fst x =? s)) l = l). { clear - H1. induction l as [|[y j] l IH]; [reflexivity|]. cbn in *. destruct (Z.eqb_spec y s) as [->|]; [elim H1; auto|]. cbn. f_equal. apply IH. intros I. auto. } rewrite Q. apply Permutation_refl.
  - destruct (Z.eqb_spec y s) as [->|NE]; [elim H1; apply (in_map fst) in I; exact I|]. cbn [negb map fst]. rewrite perm_swap. apply perm_skip. apply IH; assumption.
Qed.
Lemma give_log st rg g fl t s k : BI st fl rg g -> In (s, k) (held (after (log st))) -> exists tg, g s = Some (HELD, k, tg) /\ BI (note st (EFree t s)) (s :: fl) rg (upd g s (Some (FL, k, tg))).
Proof.
  intros [V CP RE] I. pose proof I as I0. apply (c_held _ _ _ _ _ _ V) in I as (tg & G). exists tg. split; [exact G|]. constructor.
  - constructor; try apply V.
    + apply (PI_move _ _ _ _ _ _ _ HELD FL k tg (c_pi _ _ _ _ _ _ V) G); [discriminate|left; reflexivity| | | |].
      * apply (p_ok _ _ _ _ _ (c_pi _ _ _ _ _ _ V) _ _ _ _ G).
      * cbn [list_of note log after after1 held]. apply (held_gone _ _ k); [apply (p_nd _ _ _ _ _ (c_pi _ _ _ _ _ _ V) HELD)|exact I0].
      * apply Permutation_refl.
      * intros r N1 N2. destruct r; try reflexivity; congruence.
    + split; [exists k; exact I0|apply (c_fair _ _ _ _ _ _ V)].
    + intros x j. cbn [note log after after1 held]. rewrite filter_In. rewrite (c_held _ _ _ _ _ _ V). unfold upd. cbn [fst]. destruct (Z.eqb_spec s x) as [<-|NX].
      * rewrite Z.eqb_refl. cbn. split; [intros (_ & Q); discriminate|intros (q & Q); discriminate].
      * destruct (Z.eqb_spec x s); [congruence|]. cbn. split; [intros (Q & _); exact Q|intros Q; auto].
  - destruct CP. constructor; assumption.
  - apply (RES_same st _ rg g _ RE eq_refl). intros x n h tg' Q. rewrite upd_other; [exact Q|]. intros ->. congruence.
Qed.

(* ---- threads ---- *)
Record USR (st : state) : Prop := {
  u_us : forall t h, In (t, h) (user (after (log st))) <-> th st t = Some h;
  u_th : forall t h, th st t = Some h -> (h < nh st)%nat /\ own st h = Some t;
  u_own : forall t h, own st h = Some t -> th st t = Some h;
  u_nd : NoDup (orph st);
  u_or : forall h, In h (orph st) -> (h < nh st)%nat /\ own st h = None;
  u_fin : forall h, fin st h = 0;
  u_grp : nh st = (HEAPS * length (groups st))%nat;
  u_grm : forall h m, In (h, m) (groups st) -> kids st h = 15 /\ exists i, h = (HEAPS * i)%nat /\ (i < length (groups st))%nat;
  u_gnd : NoDup (map fst (groups st)) }.
Lemma USR_kp st st' : USR st -> kp st st' -> USR st'.
Proof. intros [] [H1 H2 H3 H4 H5 H6 H7 H8 H9]. constructor; rewrite ?H1, ?H2, ?H3, ?H4, ?H5, ?H6, ?H7, ?H9; assumption. Qed.
Lemma USR_note st e : USR st -> user (after1 (after (log st)) e) = user (after (log st)) -> USR (note st e).
Proof. intros [] E. constructor; try assumption. cbn [note log after]. rewrite E. assumption. Qed.
Definition INV (st : state) : Prop := (exists rg g, BI st [] rg g) /\ USR st.

Lemma take_ok st t n cls mm : INV st -> (exists h, In (t, h) (user (after (log st)))) -> fits n cls -> honest (after (log st)) mm (65 * SPAN) ->
  exists st' r lg, take st t n cls mm = Ok st' /\ INV st' /\ log st' = ETake t n r :: lg /\ (r = None -> mm = None) /\
    forall s k, r = Some (s, k) -> n <= k <= nlimit n /\ exists h hd, th st' t = Some h /\ mem st' s = Some hd /\ h_heap hd = h /\ h_cls hd = cls /\ h_n hd = k.
Proof.
  intros ((rg & g & V) & U) (h & IH) FI HO. apply (u_us _ U) in IH. destruct (u_th _ U _ _ IH) as (HH & _). unfold take. rewrite IH.
  destruct (extract_ok st rg g h n cls [] mm V FI HH HO) as (got & st1 & rg1 & g1 & E & B & K & D & M). rewrite E. cbn [bind]. destruct got as [s|].
  - destruct (fl_in _ _ _ _ s B (or_introl eq_refl)) as (hd & k & tg & EG & G & HN & _ & _ & K1). rewrite EG. cbn [bind]. destruct (D s eq_refl) as (k0 & tg0 & G0 & NK & N1). rewrite G in G0. injection G0 as <- <-.
    set (hd' := mkhdr (h_kind hd) (h_n hd) (h_off hd) (h_total hd) (h_rem hd) (h_al hd) h cls). set (st2 := note (put st1 s hd') (ETake t n (Some (s, h_n hd)))).
    exists st2, (Some (s, h_n hd)), (log st1). split; [reflexivity|]. split; [|split; [reflexivity|split; [discriminate|]]].
    2:{ intros s0 k0 Q. injection Q as <- <-. split; [rewrite HN; exact NK|]. exists h, hd'. split; [cbn; rewrite (q_th _ _ K); exact IH|]. split; [cbn; unfold put_at; rewrite Z.eqb_refl; reflexivity|auto]. }
    split.
    + exists rg1. eexists. constructor.
      * unfold get in EG. destruct (mem st1 s) as [hd0|] eqn:EM; [|discriminate]. injection EG as ->. unfold st2. cbn [note put w_mem mem nh log]. rewrite HN. apply (CI_take _ _ _ _ _ _ _ t n s k tg hd hd' (b_ci _ _ _ _ B) G EM); try reflexivity.
        -- unfold fits, RUNS in FI. lia.
        -- split; [cbn; unfold fits, K_LARGE in FI; lia|]. cbn [snd]. intros LC. apply N1. unfold fits, K_LARGE, CLASSES in *. cbn in LC. lia.
        -- cbn. rewrite (q_nh _ _ K). exact HH.
        -- intros r R1 R2. destruct r; try reflexivity; congruence.
      * destruct (b_cap _ _ _ _ B). constructor; assumption.
      * apply (RES_same st1 _ rg1 g1 _ (b_res _ _ _ _ B) eq_refl). intros x j h0 t0 Q. rewrite !upd_other; [exact Q| |]; intros ->; congruence.
    + apply USR_note; [|reflexivity]. pose proof (USR_kp _ _ U K) as U1. destruct U1. constructor; assumption.
  - exists (note st1 (ETake t n None)), None, (log st1). split; [reflexivity|]. split; [|split; [reflexivity|split; [intros _; apply M; reflexivity|discriminate]]]. split.
    + exists rg1, g1. destruct B as [V1 C1 R1]. constructor.
      * destruct V1. constructor; try assumption. split; [exact I|assumption].
      * destruct C1. constructor; assumption.
      * exact R1.
    + apply USR_note; [|reflexivity]. apply (USR_kp _ _ U K).
Qed.

Lemma give_ok st t s k : INV st -> In (s, k) (held (after (log st))) -> exists st', give st t s = Ok st' /\ INV st'.
Proof.
  intros ((rg & g & V) & U) I. destruct (give_log st rg g [] t s k V I) as (tg & G & B). assert (U1 : USR (note st (EFree t s))) by (apply USR_note; [exact U|reflexivity]).
  destruct (p_ok _ _ _ _ _ (c_pi _ _ _ _ _ _ (b_ci _ _ _ _ V)) _ _ _ _ G) as (K1 & K2 & HH & SM). set (st1 := note st (EFree t s)) in *. set (g1 := upd g s (Some (FL, k, tg))) in *.
  assert (G1 : g1 s = Some (FL, k, tg)) by apply upd_same.
  destruct (fl_in _ _ _ _ s B (or_introl eq_refl)) as (hd & k0 & tg0 & EG & G0 & HN & H1 & H2 & K3). rewrite G1 in G0. injection G0 as <- <-. unfold give. change (get st s) with (get st1 s). rewrite EG. cbn [bind]. fold st1.
  rewrite H1, H2. destruct (negb match own st1 (fst tg) with Some u => (u =? t)%nat | None => false end).
  { destruct (into st1 rg g1 (DF (fst tg)) [s] [] (s :: at_ st1 (DF (fst tg))) (b_ci _ _ _ _ B)) as (g2 & V2 & F2 & M2); [intros x [<-|[]]; exists k, tg; split; [exact G1|cbn; auto]|apply Permutation_refl|].
    eexists. split; [reflexivity|]. split; [|destruct U1; constructor; assumption]. exists rg, g2. constructor; [exact V2| |].
    - destruct (b_cap _ _ _ _ B). constructor; intros; rewrite at_other by discriminate; auto.
    - apply (RES_same st1 _ rg g1 _ (b_res _ _ _ _ B) eq_refl). intros x j h t0 Q. rewrite F2; [exact Q|]. intros [<-|[]]. congruence. }
  destruct (Z.ltb_spec (snd tg) CLASSES) as [LC|GC].
  - assert (k = 1) by (apply SM; exact LC). destruct (swap_cc st1 rg g1 (fst tg) (snd tg) [s] [] B) as (g2 & B2 & M2); [cbn; lia|destruct SM; lia|exact HH|intros x [<-|[]]; exists tg; congruence|]. rewrite app_nil_r in B2.
    destruct (at_ st1 (CC (fst tg) (snd tg))) as [|c r] eqn:EC.
    + eexists. split; [reflexivity|]. split; [eauto|]. destruct U1; constructor; assumption.
    + assert (r = []) by (pose proof (k_cc _ (b_cap _ _ _ _ B) (fst tg) (snd tg)) as K; rewrite EC in K; cbn in K; destruct r; [reflexivity|cbn in K; lia]). subst r.
      destruct (cinsert_ok _ rg g2 (fst tg) c [] B2 HH) as (st3 & rg3 & g3 & E3 & B3 & F3 & _). exists st3. split; [exact E3|]. split; [eauto|]. apply (USR_kp (w_at st1 (CC (fst tg) (snd tg)) [s])); [destruct U1; constructor; assumption|apply (fr_kp _ _ _ _ _ _ _ F3)].
  - destruct (res st1 (fst tg)) as [[rm rs] rk] eqn:ER. rewrite HN. destruct ((1 <? k) && (zlen (at_ st1 (TC (fst tg) 1)) =? 0) && (rk =? 0)) eqn:EB.
    + apply andb_true_iff in EB as (_ & EB). apply Z.eqb_eq in EB. subst rk. eexists. split; [reflexivity|]. split; [|destruct U1; constructor; assumption]. exists rg, (upd g1 s (Some (RS (fst tg), k, tg))). pose proof B as [VC CP RE].
      set (m' := if is_master hd then s else s - h_off hd).
      constructor.
      * apply (CI_move _ _ _ _ _ _ _ _ FL (RS (fst tg)) k tg VC G1); try discriminate; [right; reflexivity|cbn; auto| | |].
        -- apply Permutation_refl.
        -- cbn [list_of]. rewrite ER. cbn [w_res res]. rewrite put_same. destruct (Z.eqb_spec k 0); [lia|]. apply Permutation_refl.
        -- intros r N1 N2. destruct r as [p|q| | | |]; try reflexivity; [|congruence]. cbn [list_of w_res res]. rewrite put_other by congruence. reflexivity.
      * destruct CP. constructor; assumption.
      * intros h m1 s1 k1 Q. cbn [w_res res] in Q. destruct (Nat.eq_dec h (fst tg)) as [->|NE].
        -- rewrite put_same in Q. apply triple in Q as (-> & -> & ->). split; [lia|]. intros _. split; [exists tg; apply upd_same|].
           intros m T al R IM. destruct (p_at _ _ _ _ _ (c_pi _ _ _ _ _ _ VC) _ _ _ _ G1) as (m0 & T0 & al0 & R0 & A0 & B0 & HD). destruct (HD eq_refl) as (hd0 & M1 & _ & _ & _ & M5).
           assert (m = m0) by (apply (reg_unique _ _ _ _ _ m T al m0 T0 al0 s (c_pi _ _ _ _ _ _ VC) R R0); lia). subst m0. unfold get in EG. rewrite M1 in EG. injection EG as ->. unfold m', is_master. destruct (Z.eq_dec s m) as [->|NM].
           ++ destruct (p_rg _ _ _ _ _ (c_pi _ _ _ _ _ _ VC) _ _ _ R) as (_ & _ & _ & h1 & D1 & D2 & _). rewrite M1 in D1. injection D1 as <-. rewrite G1 in D2. rewrite D2. reflexivity.
           ++ destruct (M5 NM) as (Q1 & Q2). rewrite Q1, Q2. lia.
        -- rewrite put_other in Q by exact NE. destruct (RE _ _ _ _ Q) as (Q1 & Q2). split; [exact Q1|]. intros NZ. destruct (Q2 NZ) as ((t0 & Q3) & Q4). split; [|exact Q4]. exists t0. rewrite upd_other; [exact Q3|]. intros ->. congruence.
    + destruct (cinsert_ok st1 rg g1 (fst tg) s [] B HH) as (st3 & rg3 & g3 & E3 & B3 & F3 & _). exists st3. split; [exact E3|]. split; [eauto|]. apply (USR_kp st1 _ U1), (fr_kp _ _ _ _ _ _ _ F3).
Qed.

Lemma okp_mono N N' p n tg : (N <= N')%nat -> okp N p n tg -> okp N' p n tg.
Proof. intros H. destruct p as [[]| | | | |]; cbn; intuition lia. Qed.
Lemma CI_mono N N' me lg rg g L : (N <= N')%nat -> CI N me lg rg g L -> CI N' me lg rg g L.
Proof. intros H [[] B C D E]. constructor; auto. constructor; auto. intros s p n tg Q. destruct (p_ok _ _ _ _ Q). split; [assumption|]. eapply okp_mono; eassumption. Qed.
Lemma heap_new_ok st rg g a : BI st [] rg g -> USR st -> orph st = [] -> honest (after (log st)) (Some a) (15 * SPAN) ->
  exists st' rg' g', heap_new st a = Ok (nh st, st') /\ BI st' [] rg' g' /\ USR st' /\ (nh st < nh st')%nat /\ own st' = own st /\ th st' = th st /\ ~ In (nh st) (orph st').
Proof.
  intros V U OE HO. unfold heap_new, mmap. pose proof HO as (A0 & A1 & _). destruct (mmap_addr a A0 A1) as (AL & BA). set (m := (a + (SPAN - a mod SPAN)) / SPAN) in *. set (al := Z.shiftr (SPAN - a mod SPAN) 3) in *. clearbody m al. clear A0 A1.
  change ((HEAPSPANS + 1) * SPAN) with (leng 14). rewrite <- BA in HO. change (15 * SPAN) with (leng 14) in HO. rewrite <- BA. clear BA a. unfold HEAPSPANS.
  unfold get. cbn [note fill w_mem mem]. replace ((m <=? m) && (m <? m + 14)) with true by (symmetry; apply andb_true_iff; split; [apply Z.leb_le|apply Z.ltb_lt]; lia). cbn [bind zero_hdr h_off h_heap h_cls].
  set (hm := mkhdr KMaster 14 0 14 14 al 0 0). pose proof V as [VC CP RE]. eexists _, (radd rg m 14 al), (map_g g m 14 14 HP (0%nat, 0)). split; [reflexivity|].
  destruct (CI_map (nh st) (mem st) (fun x => if m =? x then Some hm else if (m <=? x) && (x <? m + 14) then Some zero_hdr else mem st x) (log st) rg g (list_of st []) (fun r => match r with HP => m :: list_of st [] HP | _ => list_of st [] r end) m 14 al 14 HP hm VC HO) as (V1 & FAR & DJ); try reflexivity; try discriminate; try lia.
  { intros x X. destruct (Z.eqb_spec m x); [lia|]. destruct (Z.leb_spec m x), (Z.ltb_spec x (m + 14)); try lia; reflexivity. }
  { intros x X. destruct (m =? x); [discriminate|]. destruct (Z.leb_spec m x), (Z.ltb_spec x (m + 14)); try lia. discriminate. }
  { now rewrite Z.eqb_refl. }
  { intros r N1 N2. destruct r; try reflexivity; congruence. }
  assert (NEW : forall h, (nh st <= h)%nat -> own st h = None). { intros h LE. destruct (own st h) as [t|] eqn:Q; [|reflexivity]. apply (u_own _ U) in Q. apply (u_th _ U) in Q as (Q & _). lia. }
  split; [|split; [|split; [cbn; unfold HEAPS; lia|split; [reflexivity|split; [reflexivity|]]]]].
  - constructor.
    + apply (CI_mono (nh st)); [cbn; unfold HEAPS; lia|]. apply (CI_perm _ _ _ _ _ _ _ V1). intros r. destruct r; cbn; apply Permutation_refl.
    + destruct CP. constructor; assumption.
    + intros h rm rs rk Q. cbn in Q. destruct (RE _ _ _ _ Q) as (Q1 & Q2). split; [exact Q1|]. intros NZ. destruct (Q2 NZ) as ((tg & Q3) & Q4). pose proof (FAR _ _ Q3) as F. split.
      * exists tg. unfold map_g. rewrite upd_other by lia. rewrite Z.ltb_irrefl. exact Q3.
      * intros m2 T2 al2 R I. unfold radd in R. destruct (Z.eqb_spec m m2) as [<-|NE]; [|apply (Q4 _ _ _ R I)]. injection R as <- <-. lia.
  - destruct U as [U1 U2 U3 U4 U5 U6 U7 U8 U9]. constructor.
    + exact U1.
    + intros t h Q. destruct (U2 t h Q). split; [cbn; unfold HEAPS; lia|assumption].
    + exact U3.
    + cbn [w_orph orph note fill put w_mem w_kids w_groups nh]. rewrite OE, app_nil_r. apply NoDup_rev, seq_NoDup.
    + cbn [w_orph orph note fill put w_mem w_kids w_groups nh own]. rewrite OE, app_nil_r. intros h I. apply in_rev in I. apply in_seq in I. unfold HEAPS in *. split; [lia|]. apply NEW. lia.
    + exact U6.
    + cbn [w_orph groups nh note fill put w_mem w_kids w_groups length]. rewrite U7. unfold HEAPS. lia.
    + cbn [w_orph groups nh note fill put w_mem w_kids w_groups length kids]. intros h x [Q|Q].
      * injection Q as <- <-. split; [apply put_same|]. exists (length (groups st)). split; [exact U7|lia].
      * destruct (U8 _ _ Q) as (K & i & Q1 & Q2). split; [|exists i; split; [exact Q1|lia]]. unfold put_at. destruct (nh st =? h)%nat; [reflexivity|exact K].
    + cbn [w_orph groups nh note fill put w_mem w_kids w_groups map fst]. constructor; [|exact U9]. intros I. apply in_map_iff in I as ((h & x) & Q & I). cbn in Q. subst h. destruct (U8 _ _ I) as (_ & i & Q1 & Q2). rewrite U7 in Q1. unfold HEAPS in Q1. lia.
  - cbn [w_orph orph note fill put w_mem w_kids w_groups nh]. rewrite OE, app_nil_r. intros I. apply in_rev in I. apply in_seq in I. lia.
Qed.
Lemma thread_init_ok st t mm : INV st -> honest (after (log st)) mm (15 * SPAN) -> exists st', thread_init st t mm = Ok st' /\ INV st' /\ (mm <> None -> exists h, In (t, h) (user (after (log st')))).
Proof.
  intros ((rg & g & V) & U) HO. unfold thread_init. destruct (th st t) as [h0|] eqn:ET.
  { exists st. split; [reflexivity|]. split; [split; [eauto|exact U]|]. intros _. exists h0. apply (u_us _ U), ET. }
  assert (GET : exists o st1, match orph st with h :: r => Ok (Some h, w_orph st r) | [] => match mm with Some a => do y <- heap_new st a; Ok (Some (fst y), snd y) | None => Ok (None, st) end end = Ok (o, st1) /\
    match o with None => st1 = st /\ mm = None | Some h => (exists rg1 g1, BI st1 [] rg1 g1) /\ USR st1 /\ (h < nh st1)%nat /\ own st1 h = None /\ ~ In h (orph st1) /\ th st1 t = None end).
  { destruct (orph st) as [|h r] eqn:EO.
    - destruct mm as [a|]; [|exists None, st; auto]. destruct (heap_new_ok st rg g a V U EO HO) as (st1 & rg1 & g1 & E & B & U1 & N & O & TH & NI). rewrite E. cbn [bind fst snd]. exists (Some (nh st)), st1. split; [reflexivity|]. split; [eauto|]. split; [exact U1|]. split; [exact N|]. rewrite O, TH. split; [|auto].
      destruct (own st (nh st)) as [u|] eqn:Q; [|reflexivity]. apply (u_own _ U) in Q. apply (u_th _ U) in Q as (Q & _). lia.
    - exists (Some h), (w_orph st r). split; [reflexivity|]. pose proof (u_nd _ U) as ND. pose proof (u_or _ U) as OR. rewrite EO in ND, OR. inversion ND; subst. destruct (OR h (or_introl eq_refl)) as (O1 & O2). split; [|split; [|auto]].
      + exists rg, g. destruct V as [VC [] RE]. constructor; [exact VC|constructor; assumption|exact RE].
      + destruct U. constructor; try assumption. intros k I. apply OR. right. exact I. }
  destruct GET as (o & st1 & E & C). rewrite E. cbn [bind]. destruct o as [h|].
  2:{ destruct C as (-> & ->). exists st. split; [reflexivity|]. split; [split; [eauto|exact U]|]. congruence. }
  clear E. destruct C as ((rg1 & g1 & B1) & U1 & HH & O1 & NI & T1). destruct (adopt_ok st1 rg1 g1 h false [] B1 HH) as (got & st2 & rg2 & g2 & E2 & B2 & F2 & C2 & _). rewrite E2. cbn [bind snd]. rewrite (C2 eq_refl) in B2. pose proof (USR_kp _ _ U1 (fr_kp _ _ _ _ _ _ _ F2)) as U2.
  rewrite <- (r_nh _ _ _ _ _ _ _ F2) in HH. rewrite <- (r_own _ _ _ _ _ _ _ F2) in O1. rewrite <- (r_orph _ _ _ _ _ _ _ F2) in NI. rewrite <- (r_th _ _ _ _ _ _ _ F2) in T1. clear F2 B1 U1 C2 E2 rg1 g1.
  eexists. split; [reflexivity|]. split; [|intros _; exists h; left; reflexivity]. split.
  - exists rg2, g2. destruct B2 as [VC [] RE]. constructor; [|constructor; assumption|exact RE]. destruct VC. constructor; try assumption. split; [|assumption]. split.
    + intros k I. apply (u_us _ U2) in I. congruence.
    + intros u I. apply (u_us _ U2) in I. apply (u_th _ U2) in I as (_ & I). congruence.
  - destruct U2 as [U1 U2' U3 U4 U5 U6 U7 U8 U9]. constructor; cbn [w_th w_own note nh own th orph fin groups kids log after after1 user]; try assumption.
    + intros u k. split.
      * intros [Q|Q]; [injection Q as <- <-; apply put_same|]. apply U1 in Q. rewrite put_other; [exact Q|congruence].
      * intros Q. destruct (Nat.eq_dec u t) as [->|NE]; [rewrite put_same in Q; injection Q as <-; left; reflexivity|]. rewrite put_other in Q by exact NE. right. apply U1, Q.
    + intros u k Q. destruct (Nat.eq_dec u t) as [->|NE]; [rewrite put_same in Q; injection Q as <-; split; [exact HH|apply put_same]|]. rewrite put_other in Q by exact NE. destruct (U2' _ _ Q). split; [assumption|]. rewrite put_other; [assumption|congruence].
    + intros u k Q. destruct (Nat.eq_dec k h) as [->|NE]; [rewrite put_same in Q; injection Q as <-; apply put_same|]. rewrite put_other in Q by exact NE. apply U3 in Q. rewrite put_other; [exact Q|congruence].
    + intros k I. destruct (U5 k I). split; [assumption|]. rewrite put_other; [assumption|congruence].
Qed.
Lemma flush_ok h : forall fuel n st rg g, BI st [] rg g -> 1 <= n -> n + Z.of_nat fuel <= RUNS + 1 -> exists st' rg' g', flush st h n fuel = Ok st' /\ BI st' [] rg' g' /\ fr st rg g st' rg' g' [].
Proof.
  induction fuel as [|fuel IH]; intros n st rg g V N1 N2; [exists st, rg, g; split; [reflexivity|]; split; [exact V|apply fr_refl]|]. cbn [flush].
  assert (ONE : exists st1 rg1 g1, match at_ st (TC h n) with [] => Ok st | l => ginsert (w_at st (TC h n) []) n l end = Ok st1 /\ BI st1 [] rg1 g1 /\ fr st rg g st1 rg1 g1 []).
  { destruct (at_ st (TC h n)) as [|x r] eqn:E; [exists st, rg, g; split; [reflexivity|]; split; [exact V|apply fr_refl]|]. rewrite <- E. pose proof V as [VC CP RE].
    set (l := at_ st (TC h n)). destruct (outof st rg g (TC h n) l [] [] VC) as (g1 & V1 & F1 & M1); [rewrite app_nil_r; apply Permutation_refl|].
    assert (F : fr st rg g (w_at st (TC h n) []) rg g1 []).
    { constructor; try reflexivity; [intros m v Q; exact Q|]. intros y p j t GX LO _. rewrite F1; [exact GX|]. intros I. destruct (M1 y I) as (? & ? & Q & _). rewrite GX in Q. injection Q as -> -> ->. discriminate. }
    assert (B1 : BI (w_at st (TC h n) []) (l ++ []) rg g1).
    { constructor; [exact V1| |apply (RES_fr _ _ _ _ _ _ _ RE F); intros y []]. constructor.
      - intros h' n' N'. destruct (place_dec (TC h' n') (TC h n)) as [Q|Q]; [injection Q as -> ->; rewrite at_same; pose proof (tlimit_ge n N'); unfold zlen; cbn [length]; lia|rewrite at_other by exact Q; apply CP, N'].
      - intros n' N'. rewrite at_other by discriminate. apply CP, N'.
      - intros h' c. rewrite at_other by discriminate. apply CP. }
    destruct (ginsert_ok (w_at st (TC h n) []) rg g1 n l [] B1 ltac:(lia)) as (st2 & rg2 & g2 & E2 & B2 & F2 & _).
    { intros s I. destruct (M1 s I) as (k & tg & _ & OK & _ & Q). cbn in OK. exists tg. replace n with k by lia. exact Q. }
    exists st2, rg2, g2. split; [exact E2|]. split; [exact B2|]. constructor; try (first [rewrite (r_nh _ _ _ _ _ _ _ F2)|rewrite (r_own _ _ _ _ _ _ _ F2)|rewrite (r_fin _ _ _ _ _ _ _ F2)|rewrite (r_kids _ _ _ _ _ _ _ F2)|rewrite (r_groups _ _ _ _ _ _ _ F2)|rewrite (r_orph _ _ _ _ _ _ _ F2)|rewrite (r_th _ _ _ _ _ _ _ F2)|rewrite (r_res _ _ _ _ _ _ _ F2)|rewrite (r_held _ _ _ _ _ _ _ F2)|rewrite (r_user _ _ _ _ _ _ _ F2)]; reflexivity).
    - apply (r_shr _ _ _ _ _ _ _ F2).
    - intros y p j t GX LO _. pose proof (r_st _ _ _ _ _ _ _ F _ _ _ _ GX LO (fun c => c)) as G2. apply (r_st _ _ _ _ _ _ _ F2 _ _ _ _ G2 LO). intros I. destruct (M1 y I) as (? & ? & Q & _). rewrite GX in Q. injection Q as -> -> ->. discriminate. }
  destruct ONE as (st1 & rg1 & g1 & E1 & B1 & F1). rewrite E1. cbn [bind]. destruct (IH (n + 1) st1 rg1 g1 B1) as (st2 & rg2 & g2 & E2 & B2 & F2); try lia. exists st2, rg2, g2. split; [exact E2|]. split; [exact B2|]. apply (fr_trans _ _ _ _ _ _ _ _ _ _ _ _ F1 F2); apply incl_refl.
Qed.
Lemma held_tag st fl rg g s k : BI st fl rg g -> In (s, k) (held (after (log st))) -> exists hd tg, g s = Some (HELD, k, tg) /\ mem st s = Some hd /\ h_heap hd = fst tg /\ h_cls hd = snd tg /\ (fst tg < nh st)%nat /\ 0 <= snd tg.
Proof.
  intros [V _ _] I. apply (c_held _ _ _ _ _ _ V) in I as (tg & G). pose proof (c_pi _ _ _ _ _ _ V) as VP. destruct (p_ok _ _ _ _ _ VP _ _ _ _ G) as (_ & _ & K2 & K3 & _). destruct (p_at _ _ _ _ _ VP _ _ _ _ G) as (m & T & al & _ & _ & _ & HD). destruct (HD eq_refl) as (hd & M & _ & H1 & H2 & _). exists hd, tg. auto 8.
Qed.
Definition same_tags (st st' : state) : Prop := forall s k, In (s, k) (held (after (log st))) -> exists hd hd', mem st s = Some hd /\ mem st' s = Some hd' /\ h_heap hd' = h_heap hd /\ h_cls hd' = h_cls hd.
Lemma same_tags_refl st fl rg g : BI st fl rg g -> same_tags st st.
Proof. intros V s k I. destruct (held_tag _ _ _ _ _ _ V I) as (hd & tg & _ & M & _). exists hd, hd. auto. Qed.
Lemma thread_done_ok st t : INV st -> exists st', thread_done st t = Ok st' /\ INV st' /\ held (after (log st')) = held (after (log st)) /\ nh st' = nh st /\ same_tags st st'.
Proof.
  intros ((rg & g & V) & U). unfold thread_done. destruct (th st t) as [h|] eqn:ET; [|exists st; split; [reflexivity|]; split; [split; [eauto|exact U]|]; split; [reflexivity|]; split; [reflexivity|apply (same_tags_refl _ _ _ _ V)]]. destruct (u_th _ U _ _ ET) as (HH & O1).
  destruct (adopt_ok st rg g h false [] V HH) as (got & st1 & rg1 & g1 & E1 & B1 & F1 & C1 & _). rewrite E1. cbn [bind snd]. rewrite (C1 eq_refl) in B1. cbn [optl app] in B1.
  destruct (flush_ok h 63 1 st1 rg1 g1 B1 ltac:(lia) ltac:(unfold RUNS; lia)) as (st2 & rg2 & g2 & E2 & B2 & F2). rewrite E2. cbn [bind]. pose proof (kp_trans _ _ _ (fr_kp _ _ _ _ _ _ _ F1) (fr_kp _ _ _ _ _ _ _ F2)) as K. pose proof (USR_kp _ _ U K) as U2.
  rewrite <- (q_th _ _ K) in ET. rewrite <- (q_own _ _ K) in O1. rewrite <- (q_nh _ _ K) in HH.
  assert (ST : same_tags st st2).
  { intros s k I. destruct (held_tag _ _ _ _ _ _ V I) as (hd & tg & G & M & H1 & H2 & _). rewrite <- (q_held _ _ K) in I. destruct (held_tag _ _ _ _ _ _ B2 I) as (hd' & tg' & G' & M' & H1' & H2' & _). exists hd, hd'. split; [exact M|]. split; [exact M'|].
    pose proof (r_st _ _ _ _ _ _ _ F1 _ _ _ _ G eq_refl) as Q1. rewrite (r_st _ _ _ _ _ _ _ F2 s HELD k tg) in G'; [injection G' as <-; split; congruence| |reflexivity|].
    - apply Q1. intros X. apply (p_in _ _ _ _ _ (c_pi _ _ _ _ _ _ (b_ci _ _ _ _ V)) (At (DF h))) in X as (? & ? & X). congruence.
    - intros []. }
  eexists. split; [reflexivity|]. split; [|split; [cbn [note w_th w_own w_orph log after after1 held]; apply (q_held _ _ K)|split; [cbn; apply (q_nh _ _ K)|exact ST]]]. split.
  - exists rg2, g2. destruct B2 as [VC [] RE]. constructor; [|constructor; assumption|exact RE]. destruct VC. constructor; try assumption. split; [|assumption]. apply (u_us _ U2), ET.
  - destruct U2 as [U1 U2' U3 U4 U5 U6 U7 U8 U9]. constructor; cbn [w_th w_own w_orph note nh own th orph fin groups kids log after after1 user]; try assumption.
    + intros u k. rewrite filter_In. cbn [fst]. split.
      * intros (Q & N). apply U1 in Q. destruct (Nat.eqb_spec u t) as [->|NE]; [discriminate|]. rewrite put_other by exact NE. exact Q.
      * intros Q. destruct (Nat.eq_dec u t) as [->|NE]; [rewrite put_same in Q; discriminate|]. rewrite put_other in Q by exact NE. split; [apply U1, Q|]. destruct (Nat.eqb_spec u t); [congruence|reflexivity].
    + intros u k Q. destruct (Nat.eq_dec u t) as [->|NE]; [rewrite put_same in Q; discriminate|]. rewrite put_other in Q by exact NE. destruct (U2' _ _ Q) as (Q1 & Q2). split; [exact Q1|]. rewrite put_other; [exact Q2|congruence].
    + intros u k Q. destruct (Nat.eq_dec k h) as [->|NE]; [rewrite put_same in Q; discriminate|]. rewrite put_other in Q by exact NE. apply U3 in Q. rewrite put_other; [exact Q|congruence].
    + constructor; [|exact U4]. intros I. destruct (U5 h I). congruence.
    + intros k [<-|I]; [split; [exact HH|apply put_same]|]. destruct (U5 k I) as (Q1 & Q2). split; [exact Q1|]. destruct (Nat.eq_dec k h) as [->|NE]; [congruence|]. rewrite put_other by exact NE. exact Q2.
Qed.
