(* Runs of spans: the caches. *)
From Verif Require Import Base RunModel RunProofs RunProofs2.
Local Open Scope Z_scope.

Definition list_of (st : state) (fl : list Z) (r : gp) : list Z :=
  match r with
  | At p => at_ st p
  | RS h => let '(_, s, k) := res st h in if k =? 0 then [] else [s]
  | HP => map snd (groups st)
  | HELD => map fst (held (after (log st)))
  | FL => fl
  | TMP => []
  end.
Record CAP (st : state) : Prop := {
  k_tc : forall h n, 1 <= n <= RUNS -> zlen (at_ st (TC h n)) < tlimit n;
  k_ga : forall n, 1 <= n <= RUNS -> zlen (at_ st (GA n)) <= glimit n;
  k_cc : forall h c, (length (at_ st (CC h c)) <= 1)%nat }.
Definition RES (st : state) (rg : regions) (g : ghost) : Prop := forall h rm rs rk, res st h = (rm, rs, rk) ->
  0 <= rk /\ (rk <> 0 -> (exists tg, g rs = Some (RS h, rk, tg)) /\ forall m T al, rg m = Some (T, al) -> m <= rs < m + T -> m = rm).
Record BI (st : state) (fl : list Z) (rg : regions) (g : ghost) : Prop := {
  b_ci : CI (nh st) (mem st) (log st) rg g (list_of st fl);
  b_cap : CAP st;
  b_res : RES st rg g }.
Definition loose (p : gp) : bool := match p with At (TC _ _) | At (GA _) | At (GO _) => true | _ => false end.
Record fr (st : state) (rg : regions) (g : ghost) (st' : state) (rg' : regions) (g' : ghost) (ex : list Z) : Prop := {
  r_nh : nh st' = nh st; r_own : own st' = own st; r_fin : fin st' = fin st; r_kids : kids st' = kids st; r_groups : groups st' = groups st;
  r_orph : orph st' = orph st; r_th : th st' = th st; r_res : res st' = res st;
  r_held : held (after (log st')) = held (after (log st)); r_user : user (after (log st')) = user (after (log st));
  r_shr : shrinks rg rg';
  r_st : forall x p n tg, g x = Some (p, n, tg) -> loose p = false -> ~ In x ex -> g' x = Some (p, n, tg) }.
Lemma fr_refl st rg g ex : fr st rg g st rg g ex.
Proof. constructor; auto. intros m v H. exact H. Qed.
Lemma fr_trans a ra ga b rb gb c rc gc ex ey ez : fr a ra ga b rb gb ex -> fr b rb gb c rc gc ey -> incl ex ez -> incl ey ez -> fr a ra ga c rc gc ez.
Proof. intros [] [] I1 I2. constructor; try congruence; [intros m v H; auto|]. intros x p n tg G Lo N. apply r_st1; auto. Qed.
Lemma RES_fr st rg g st' rg' g' ex : RES st rg g -> fr st rg g st' rg' g' ex -> (forall x, In x ex -> exists n tg p, g x = Some (p, n, tg) /\ is_rs p = false) -> RES st' rg' g'.
Proof.
  intros R F H h rm rs rk E. rewrite (r_res _ _ _ _ _ _ _ F) in E. destruct (R _ _ _ _ E) as (A & B). split; [exact A|]. intros NZ. destruct (B NZ) as ((tg & G) & C). split.
  - exists tg. apply (r_st _ _ _ _ _ _ _ F _ _ _ _ G eq_refl). intros I. destruct (H _ I) as (n' & tg' & p & G' & Q). rewrite G in G'. injection G' as <- <- <-. discriminate.
  - intros m T al M. apply (C m T al). apply (r_shr _ _ _ _ _ _ _ F), M.
Qed.

Lemma place_dec (a b : place) : {a = b} + {a <> b}.
Proof. decide equality; try apply Z.eq_dec; apply Nat.eq_dec. Qed.
Lemma place_eqb_eq a b : place_eqb a b = true <-> a = b.
Proof.
  destruct a, b; cbn; try (split; [discriminate|congruence]); rewrite ?andb_true_iff, ?Nat.eqb_eq, ?Z.eqb_eq; split; try (intros (-> & ->)); try (intros ->); try reflexivity; intros E; injection E; auto.
Qed.
Lemma at_same st p l : at_ (w_at st p l) p = l.
Proof. cbn. unfold put_at. rewrite (proj2 (place_eqb_eq p p) eq_refl). reflexivity. Qed.
Lemma at_other st p l q : q <> p -> at_ (w_at st p l) q = at_ st q.
Proof. cbn. unfold put_at. intros N. destruct (place_eqb p q) eqn:E; [apply place_eqb_eq in E; congruence|reflexivity]. Qed.
Lemma list_at_other st p l fl r : r <> At p -> list_of (w_at st p l) fl r = list_of st fl r.
Proof. destruct r as [q| | | | |]; try reflexivity. intros N. cbn [list_of]. apply at_other. congruence. Qed.
Lemma list_at_same st p l fl : list_of (w_at st p l) fl (At p) = l.
Proof. apply at_same. Qed.
Lemma list_ml st m l fl r : held (after l) = held (after (log st)) -> list_of (ml st m l) fl r = list_of st fl r.
Proof. intros H. destruct r; try reflexivity. cbn [list_of ml log]. now rewrite H. Qed.
Lemma list_fl st fl fl' r : r <> FL -> list_of st fl r = list_of st fl' r.
Proof. destruct r; try reflexivity. congruence. Qed.

(* spans go from the hand into a list, and from a list into the hand *)
Lemma into st rg g p l fl arr : CI (nh st) (mem st) (log st) rg g (list_of st (l ++ fl)) -> (forall s, In s l -> exists n tg, g s = Some (FL, n, tg) /\ okp (nh st) (At p) n tg) -> Permutation arr (l ++ at_ st p) ->
  exists g', CI (nh st) (mem st) (log st) rg g' (list_of (w_at st p arr) fl) /\ (forall x, ~ In x l -> g' x = g x) /\ forall x, In x l -> exists n tg, g x = Some (FL, n, tg) /\ g' x = Some (At p, n, tg).
Proof.
  intros V H P. destruct (CI_moves (nh st) (mem st) (log st) rg FL (At p) ltac:(discriminate) ltac:(discriminate) ltac:(discriminate) ltac:(left; reflexivity) l g _ fl V H (Permutation_refl _)) as (g' & V' & A & B).
  exists g'. split; [|auto]. apply (CI_perm _ _ _ _ _ _ _ V'). intros r. destruct (gp_dec r (At p)) as [->|N1]; [rewrite set_same, list_at_same; symmetry; exact P|]. rewrite set_other, list_at_other by exact N1.
  destruct (gp_dec r FL) as [->|N2]; [rewrite set_same; apply Permutation_refl|]. rewrite set_other by exact N2. rewrite (list_fl _ _ fl) by exact N2. apply Permutation_refl.
Qed.
Lemma outof st rg g p l fl arr : CI (nh st) (mem st) (log st) rg g (list_of st fl) -> Permutation (at_ st p) (l ++ arr) ->
  exists g', CI (nh st) (mem st) (log st) rg g' (list_of (w_at st p arr) (l ++ fl)) /\ (forall x, ~ In x l -> g' x = g x) /\ forall x, In x l -> exists n tg, g x = Some (At p, n, tg) /\ okp (nh st) (At p) n tg /\ 1 <= n /\ g' x = Some (FL, n, tg).
Proof.
  intros V P. assert (H : forall s, In s l -> exists n tg, g s = Some (At p, n, tg) /\ okp (nh st) (At p) n tg /\ 1 <= n).
  { intros s I. assert (I2 : In s (list_of st fl (At p))) by (cbn; apply (Permutation_in s (Permutation_sym P)); apply in_or_app; auto). apply (p_in _ _ _ _ _ (c_pi _ _ _ _ _ _ V)) in I2 as (n & tg & G). exists n, tg. split; [exact G|]. destruct (p_ok _ _ _ _ _ (c_pi _ _ _ _ _ _ V) _ _ _ _ G). auto. }
  destruct (CI_moves (nh st) (mem st) (log st) rg (At p) FL ltac:(discriminate) ltac:(discriminate) ltac:(discriminate) ltac:(left; reflexivity) l g _ arr V) as (g' & V' & A & B).
  - intros s I. destruct (H s I) as (n & tg & G & OK & _). exists n, tg. split; [exact G|]. destruct p; cbn in OK |- *; unfold RUNS in *; lia.
  - exact P.
  - exists g'. split; [|split; [exact A|]].
    + apply (CI_perm _ _ _ _ _ _ _ V'). intros r. destruct (gp_dec r FL) as [->|N2]; [rewrite set_same; apply Permutation_refl|]. rewrite set_other by exact N2. rewrite (list_fl _ _ fl) by exact N2.
      destruct (gp_dec r (At p)) as [->|N1]; [rewrite set_same, list_at_same; apply Permutation_refl|]. rewrite set_other, list_at_other by exact N1. apply Permutation_refl.
    + intros x I. destruct (B x I) as (n & tg & G & G'). destruct (H x I) as (n1 & tg1 & G1 & O1 & O2). rewrite G in G1. injection G1 as <- <-. exists n, tg. auto.
Qed.

Lemma zlen_app {A} (a b : list A) : zlen (a ++ b) = zlen a + zlen b.
Proof. unfold zlen. rewrite app_length. lia. Qed.
Lemma zlen_firstn {A} (l : list A) k : 0 <= k <= zlen l -> zlen (firstn (Z.to_nat k) l) = k.
Proof. unfold zlen. intros H. rewrite firstn_length. lia. Qed.
Lemma zlen_nonneg {A} (l : list A) : 0 <= zlen l.
Proof. unfold zlen. lia. Qed.
Lemma glimit_le n : 1 <= n <= RUNS -> 0 <= glimit n <= 3200.
Proof. unfold glimit, RUNS. intros H. destruct (Z.eqb_spec n 1); [lia|]. rewrite Z.shiftr_div_pow2 by lia. change (2 ^ 1) with 2. assert (0 <= n / 2 < 32) by (split; [apply Z.div_pos; lia|apply Z.div_lt_upper_bound; lia]). lia. Qed.
Lemma tlimit_ge n : 1 <= n <= RUNS -> 69 <= tlimit n <= tcap n.
Proof. unfold tlimit, tcap, RUNS. intros H. destruct (Z.eqb_spec n 1); [lia|]. rewrite Z.shiftr_div_pow2 by lia. change (2 ^ 1) with 2. assert (0 <= n / 2 < 32) by (split; [apply Z.div_pos; lia|apply Z.div_lt_upper_bound; lia]). lia. Qed.
Lemma ttransfer_lt n : 1 <= n <= RUNS -> 0 < ttransfer n <= tlimit n.
Proof.
  intros H. pose proof (tlimit_ge n H). unfold ttransfer. destruct (Z.eqb_spec n 1) as [->|]; [cbn; lia|]. rewrite Z.shiftr_div_pow2 by lia. change (2 ^ 2) with 4. assert (0 <= tlimit n / 4) by (apply Z.div_pos; lia). lia.
Qed.

(* [gone] on a state where list [q] may have been replaced *)
Lemma ginsert_ok st rg g n l fl : BI st (l ++ fl) rg g -> 1 <= n <= RUNS -> (forall s, In s l -> exists tg, g s = Some (FL, n, tg)) ->
  exists st' rg' g', ginsert st n l = Ok st' /\ BI st' fl rg' g' /\ fr st rg g st' rg' g' l /\ (forall p, p <> GA n -> p <> GO n -> at_ st' p = at_ st p).
Proof.
  intros [V CP RE] HN HL. pose proof (k_ga _ CP n HN) as GA0. pose proof (glimit_le n HN) as GL. unfold ginsert.
  set (cnt := zlen (at_ st (GA n))) in *. set (ins := if glimit n <? cnt + zlen l then glimit n - cnt else zlen l).
  assert (INS : 0 <= ins <= zlen l /\ cnt + ins <= glimit n) by (unfold ins; pose proof (zlen_nonneg l); destruct (Z.ltb_spec (glimit n) (cnt + zlen l)); lia).
  replace ((n <? 1) || (RUNS <? n) || (ins <? 0) || (3200 <? cnt + ins)) with false by (symmetry; repeat (apply orb_false_iff; split); apply Z.ltb_ge; lia).
  set (l1 := firstn (Z.to_nat ins) l). set (l2 := skipn (Z.to_nat ins) l). assert (LL : l = l1 ++ l2) by (symmetry; apply firstn_skipn).
  set (st1 := w_at st (GA n) (at_ st (GA n) ++ l1)).
  assert (HFL : forall s, In s l -> exists m tg p, g s = Some (p, m, tg) /\ is_rs p = false) by (intros s I; destruct (HL s I) as (tg & E); exists n, tg, FL; auto).
  destruct (into st rg g (GA n) l1 (l2 ++ fl) (at_ st (GA n) ++ l1)) as (g1 & V1 & F1 & M1).
  { rewrite LL, <- app_assoc in V. exact V. }
  { intros s I. destruct (HL s) as (tg & E); [rewrite LL; apply in_or_app; auto|]. exists n, tg. split; [exact E|]. cbn. lia. }
  { apply Permutation_app_comm. }
  assert (V1' : CI (nh st1) (mem st1) (log st1) rg g1 (with_fl (list_of st1 (l2 ++ fl)) (l2 ++ [] ++ fl))) by (apply (CI_perm _ _ _ _ _ _ _ V1); intros []; cbn; apply Permutation_refl).
  destruct (sift_ok fl l2 [] st1 rg g1 _ V1') as (st2 & keep & rg2 & g2 & E2 & V2 & G2 & I2). rewrite E2. cbn [bind].
  assert (A2 : at_ st2 = at_ st1) by (destruct (n_ml _ _ _ _ _ _ _ G2) as (m' & l' & ->); reflexivity).
  assert (L2 : forall fl' r, list_of st2 fl' r = list_of st1 fl' r) by (intros fl' r; pose proof (n_held _ _ _ _ _ _ _ G2) as H; destruct (n_ml _ _ _ _ _ _ _ G2) as (m' & l' & ->); apply list_ml; exact H).
  (* frame so far *)
  assert (NIL : forall s, In s l2 -> ~ In s l1).
  { intros s I I'. pose proof (p_nd _ _ _ _ _ (c_pi _ _ _ _ _ _ V) FL) as ND. cbn in ND. rewrite LL in ND. rewrite <- app_assoc in ND. clear - ND I I'. induction l1 as [|y r IH]; [destruct I'|]. cbn in ND. inversion ND; subst. destruct I' as [->|I']; [apply H1; apply in_or_app; right; apply in_or_app; auto|auto]. }
  assert (FRM : fr st rg g st2 rg2 g2 l).
  { pose proof (n_held _ _ _ _ _ _ _ G2) as H. pose proof (n_user _ _ _ _ _ _ _ G2) as H'. pose proof (n_same _ _ _ _ _ _ _ G2) as SA. pose proof (n_rg _ _ _ _ _ _ _ G2) as SR. destruct (n_ml _ _ _ _ _ _ _ G2) as (m' & l' & ->). constructor; auto.
    intros x p k tg GX LO NX. rewrite SA by (intros I; apply NX; rewrite LL; apply in_or_app; auto). rewrite F1 by (intros I; apply NX; rewrite LL; apply in_or_app; auto). exact GX. }
  assert (LEN1 : zlen (at_ st1 (GA n)) <= glimit n) by (unfold st1; rewrite at_same, zlen_app; fold cnt; unfold l1; rewrite zlen_firstn by lia; lia).
  assert (CAPS : forall st' , (forall p, p <> GA n -> p <> GO n -> at_ st' p = at_ st p) -> zlen (at_ st' (GA n)) <= glimit n -> CAP st').
  { intros st' AO AG. constructor.
    - intros h k K. rewrite AO by discriminate. apply CP, K.
    - intros k K. destruct (Z.eq_dec k n) as [->|NE]; [exact AG|]. rewrite AO by congruence. apply CP, K.
    - intros h c. rewrite AO by discriminate. apply CP. }
  destruct keep as [|k0 keep0] eqn:EK.
  - exists st2, rg2, g2. split; [reflexivity|]. split.
    + constructor; [|apply CAPS|apply (RES_fr _ _ _ _ _ _ _ RE FRM HFL)].
      * apply (CI_perm _ _ _ _ _ _ _ V2). intros r. rewrite L2. destruct r; cbn; apply Permutation_refl.
      * intros p P1 P2. rewrite A2. apply at_other, P1.
      * rewrite A2. exact LEN1.
    + split; [exact FRM|]. intros p P1 P2. rewrite A2. apply at_other, P1.
  - assert (KIN : forall s, In s keep -> In s l2) by (intros s I; subst keep; apply I2 in I; exact I). rewrite <- EK in *. clear EK k0 keep0.
    destruct (outof st2 rg2 g2 (GA n) (at_ st2 (GA n)) (keep ++ fl) []) as (g3 & V3 & F3 & M3).
    { apply (CI_perm _ _ _ _ _ _ _ V2). intros r. rewrite L2. destruct r; cbn; apply Permutation_refl. }
    { rewrite app_nil_r. apply Permutation_refl. }
    set (L3 := list_of (w_at st2 (GA n) []) (at_ st2 (GA n) ++ keep ++ fl)) in *.
    destruct (slots_ok fl keep [] (at_ st2 (GA n)) st2 rg2 g3 L3) as (st4 & arr & keep4 & rg4 & g4 & E4 & G4 & V4 & IA & IK & LA).
    { apply (CI_perm _ _ _ _ _ _ _ V3). intros []; cbn; apply Permutation_refl. }
    rewrite E4. cbn [bind]. cbn [app] in IA.
    assert (A4 : at_ st4 = at_ st2) by (destruct (n_ml _ _ _ _ _ _ _ G4) as (m' & l' & ->); reflexivity).
    assert (N4 : nh st4 = nh st2) by (destruct (n_ml _ _ _ _ _ _ _ G4) as (m' & l' & ->); reflexivity).
    assert (L4 : forall fl' r, list_of (w_at st4 (GA n) []) fl' r = list_of (w_at st2 (GA n) []) fl' r) by (intros fl' r; pose proof (n_held _ _ _ _ _ _ _ G4) as H; destruct (n_ml _ _ _ _ _ _ _ G4) as (m' & l' & ->); destruct r; try reflexivity; cbn [list_of w_at ml log]; cbn [ml log] in H; now rewrite H).
    assert (NS : forall s, In s (at_ st2 (GA n) ++ keep) -> exists tg, g3 s = Some (FL, n, tg)).
    { intros s I. apply in_app_or in I as [I|I].
      - destruct (M3 s I) as (k & tg & _ & OK & _ & G'). exists tg. cbn in OK. replace n with k by lia. exact G'.
      - pose proof (KIN s I) as I'. destruct (HL s) as (tg & E); [rewrite LL; apply in_or_app; auto|].
        assert (X : exists k t, g2 s = Some (FL, k, t)). { apply (p_in _ _ _ _ _ (c_pi _ _ _ _ _ _ V2)). cbn. apply in_or_app. auto. }
        destruct X as (k & t & X). pose proof (n_sub _ _ _ _ _ _ _ G2 _ _ X) as X2. rewrite F1 in X2 by (apply NIL; exact I'). rewrite E in X2. injection X2 as <- <-. exists tg. rewrite F3; [exact X|]. intros C. destruct (M3 s C) as (k & t & Y & _). congruence. }
    assert (V4' : CI (nh (w_at st4 (GA n) [])) (mem (w_at st4 (GA n) [])) (log (w_at st4 (GA n) [])) rg4 g4 (list_of (w_at st4 (GA n) []) (arr ++ keep4 ++ fl))).
    { apply (CI_perm _ _ _ _ _ _ _ V4). intros r. rewrite L4. unfold L3. destruct r; cbn; apply Permutation_refl. }
    assert (N4S : forall s, In s (arr ++ keep4) -> exists tg, g4 s = Some (FL, n, tg)).
    { intros s I. assert (X : exists k t, g4 s = Some (FL, k, t)). { apply (p_in _ _ _ _ _ (c_pi _ _ _ _ _ _ V4')). cbn. rewrite app_assoc. apply in_or_app. auto. }
      destruct X as (k & t & X). pose proof (n_sub _ _ _ _ _ _ _ G4 _ _ X) as X2. destruct (NS s) as (t2 & Y). { apply in_app_or in I as [I|I]; [apply IA, I|apply in_or_app; right; apply IK, I]. } rewrite Y in X2. injection X2 as <- <-. eauto. }
    destruct (into _ _ _ (GA n) arr (keep4 ++ fl) arr V4') as (g5 & V5 & F5 & M5).
    { intros s I. destruct (N4S s) as (tg & E); [apply in_or_app; auto|]. exists n, tg. split; [exact E|]. cbn. lia. }
    { rewrite at_same, app_nil_r. apply Permutation_refl. }
    assert (NA : forall s, In s keep4 -> ~ In s arr).
    { intros s I I'. pose proof (p_nd _ _ _ _ _ (c_pi _ _ _ _ _ _ V4') FL) as ND. cbn in ND. clear - ND I I'. induction arr as [|y r IH]; [destruct I'|]. cbn in ND. inversion ND; subst. destruct I' as [->|I']; [apply H1; apply in_or_app; right; apply in_or_app; auto|auto]. }
    set (st5 := w_at (w_at st4 (GA n) []) (GA n) arr) in *.
    assert (V5' : CI (nh (w_at st4 (GA n) arr)) (mem (w_at st4 (GA n) arr)) (log (w_at st4 (GA n) arr)) rg4 g5 (list_of (w_at st4 (GA n) arr) (keep4 ++ fl))).
    { apply (CI_perm _ _ _ _ _ _ _ V5). intros r. destruct (gp_dec r (At (GA n))) as [->|NR]; [unfold st5; rewrite !list_at_same; apply Permutation_refl|]. unfold st5. rewrite !list_at_other by exact NR. apply Permutation_refl. }
    destruct (into _ _ _ (GO n) keep4 fl (keep4 ++ at_ st4 (GO n)) V5') as (g6 & V6 & F6 & M6).
    { intros s I. destruct (N4S s) as (tg & E); [apply in_or_app; auto|]. exists n, tg. rewrite F5 by (apply NA; exact I). split; [exact E|]. cbn. lia. }
    { rewrite at_other by discriminate. apply Permutation_refl. }
    set (st6 := w_at (w_at st4 (GA n) arr) (GO n) (keep4 ++ at_ st4 (GO n))) in *.
    assert (AO : forall p, p <> GA n -> p <> GO n -> at_ st6 p = at_ st p) by (intros p P1 P2; unfold st6; rewrite !at_other by assumption; rewrite A4, A2; apply at_other, P1).
    assert (FR6 : fr st rg g st6 rg4 g6 l).
    { apply (fr_trans _ _ _ _ _ _ _ _ _ l l l FRM); [|apply incl_refl|apply incl_refl].
      pose proof (n_held _ _ _ _ _ _ _ G4) as H. pose proof (n_user _ _ _ _ _ _ _ G4) as H'. pose proof (n_same _ _ _ _ _ _ _ G4) as SA. pose proof (n_rg _ _ _ _ _ _ _ G4) as SR. unfold st6. clear - F3 F5 F6 M3 SA H H' SR G4 IA IK KIN LL N4S NS. destruct (n_ml _ _ _ _ _ _ _ G4) as (m' & l' & ->). constructor; auto.
      intros x p k tg GX LO NX.
      assert (N1 : ~ In x (at_ st2 (GA n))) by (intros I; destruct (M3 x I) as (k' & t' & Y & _); rewrite Y in GX; injection GX as <- <- <-; discriminate).
      assert (N2 : ~ In x keep) by (intros I; apply NX; rewrite LL; apply in_or_app; right; auto).
      assert (N3 : ~ In x (at_ st2 (GA n) ++ keep)) by (intros I; apply in_app_or in I as [I|I]; auto).
      rewrite F6 by (intros I; apply N2, IK, I). rewrite F5 by (intros I; apply N3, IA, I). rewrite SA by exact N3. rewrite F3 by exact N1. exact GX. }
    exists st6, rg4, g6. split; [reflexivity|]. split; [|split; [exact FR6|exact AO]]. constructor; [exact V6|apply CAPS; [exact AO|]|apply (RES_fr _ _ _ _ _ _ _ RE FR6 HFL)].
    unfold st6. rewrite at_other by discriminate. rewrite at_same. unfold zlen. rewrite LA. cbn [length plus]. fold (zlen (at_ st2 (GA n))). rewrite A2. exact LEN1.
Qed.

Lemma BI_fl st fl fl' rg g : BI st fl rg g -> Permutation fl fl' -> BI st fl' rg g.
Proof. intros [V C R] P. constructor; auto. apply (CI_perm _ _ _ _ _ _ _ V). intros []; cbn; auto. Qed.
Lemma unmap_ok st rg g s fl : BI st (s :: fl) rg g -> exists st' rg', unmap st s = Ok st' /\ BI st' fl rg' (upd g s None) /\ fr st rg g st' rg' (upd g s None) [s] /\ at_ st' = at_ st.
Proof.
  intros [V C R]. destruct (unmap_fl _ _ _ _ s fl V (Permutation_refl _)) as (st' & rg' & E & V' & G'). exists st', rg'. split; [exact E|].
  assert (F : fr st rg g st' rg' (upd g s None) [s]).
  { destruct (n_ml _ _ _ _ _ _ _ G') as (m' & l' & ->). constructor; try reflexivity; try apply G'. intros x p n tg H _ NX. rewrite (n_same _ _ _ _ _ _ _ G'); assumption. }
  assert (A : at_ st' = at_ st) by (destruct (n_ml _ _ _ _ _ _ _ G') as (m' & l' & ->); reflexivity).
  split; [|auto]. constructor.
  - apply (CI_perm _ _ _ _ _ _ _ V'). pose proof (n_held _ _ _ _ _ _ _ G') as H. destruct (n_ml _ _ _ _ _ _ _ G') as (m' & l' & ->). intros r. rewrite list_ml by exact H. destruct r; cbn; apply Permutation_refl.
  - destruct C as [C1 C2 C3]. constructor; rewrite A; assumption.
  - apply (RES_fr _ _ _ _ _ _ _ R F). intros x [<-|[]]. assert (I : In s (list_of st (s :: fl) FL)) by (left; reflexivity). apply (p_in _ _ _ _ _ (c_pi _ _ _ _ _ _ V)) in I as (n & tg & I). exists n, tg, FL. auto.
Qed.

Lemma fl_in st fl rg g s : BI st fl rg g -> In s fl -> exists hd n tg, get st s = Ok hd /\ g s = Some (FL, n, tg) /\ h_n hd = n /\ h_heap hd = fst tg /\ h_cls hd = snd tg /\ 1 <= n <= RUNS.
Proof. intros V I. apply (fl_hdr _ _ _ _ _ (b_ci _ _ _ _ V)). exact I. Qed.
Definition other3 (h : nat) (n : Z) (p : place) : Prop := p <> TC h n /\ p <> GA n /\ p <> GO n.
Lemma cinsert_ok st rg g h s fl : BI st (s :: fl) rg g -> (h < nh st)%nat ->
  exists st' rg' g', cinsert st h s = Ok st' /\ BI st' fl rg' g' /\ fr st rg g st' rg' g' [s] /\ exists n tg, g s = Some (FL, n, tg) /\ forall p, other3 h n p -> at_ st' p = at_ st p.
Proof.
  intros V HH. destruct (fl_in _ _ _ _ s V (or_introl eq_refl)) as (hd & n & tg & E & G & HN & _ & _ & N1). unfold cinsert. destruct (fin st h =? 0) eqn:F0; cbn [negb].
  2:{ destruct (unmap_ok _ _ _ _ _ V) as (st' & rg' & A & B & C & D). exists st', rg', (upd g s None). split; [exact A|]. split; [exact B|]. split; [exact C|]. exists n, tg. split; [exact G|]. intros p _. now rewrite D. }
  rewrite E. cbn [bind]. rewrite HN. destruct V as [V CP RE]. pose proof (k_tc _ CP h n N1) as K. pose proof (tlimit_ge n N1) as TL. pose proof (ttransfer_lt n N1) as TT.
  replace ((n <? 1) || (RUNS <? n)) with false by (symmetry; apply orb_false_iff; split; apply Z.ltb_ge; lia).
  destruct (Z.leb_spec (tcap n) (zlen (at_ st (TC h n)))); [lia|]. set (l := at_ st (TC h n) ++ [s]). assert (LZ : zlen l = zlen (at_ st (TC h n)) + 1) by (unfold l; rewrite zlen_app; reflexivity).
  destruct (into st rg g (TC h n) [s] fl l V) as (g1 & V1 & F1 & M1).
  { intros x [<-|[]]. exists n, tg. split; [exact G|]. cbn. lia. }
  { unfold l. apply Permutation_app_comm. }
  assert (NRS : forall x, In x [s] -> exists m t p, g x = Some (p, m, t) /\ is_rs p = false) by (intros x [<-|[]]; exists n, tg, FL; auto).
  destruct (Z.eqb_spec (zlen l) (tlimit n)) as [EQ|NE].
  - set (k := Z.to_nat (tlimit n - ttransfer n)). set (st2 := w_at st (TC h n) (firstn k l)).
    destruct (outof (w_at st (TC h n) l) rg g1 (TC h n) (skipn k l) fl (firstn k l) V1) as (g2 & V2 & F2 & M2).
    { rewrite at_same. rewrite <- (firstn_skipn k l) at 1. apply Permutation_app_comm. }
    assert (F : fr st rg g st2 rg g2 [s]).
    { constructor; try reflexivity; [intros m v Q; exact Q|]. intros x p j t GX LO NX. rewrite F2; [rewrite F1 by exact NX; exact GX|]. intros I. destruct (M2 x I) as (j' & t' & Q & _). rewrite F1 in Q by exact NX. rewrite GX in Q. injection Q as -> -> ->. discriminate. }
    assert (B2 : BI st2 (skipn k l ++ fl) rg g2).
    { constructor.
      - apply (CI_perm _ _ _ _ _ _ _ V2). intros r. unfold st2. destruct (gp_dec r (At (TC h n))) as [->|NR]; [rewrite !list_at_same; apply Permutation_refl|]. rewrite !list_at_other by exact NR. apply Permutation_refl.
      - constructor.
        + intros h' n' N'. unfold st2. destruct (place_dec (TC h' n') (TC h n)) as [Q|Q]; [|rewrite at_other by exact Q; apply CP, N']. injection Q as -> ->. rewrite at_same. unfold k. rewrite zlen_firstn; lia.
        + intros n' N'. unfold st2. rewrite at_other by discriminate. apply CP, N'.
        + intros h' c. unfold st2. rewrite at_other by discriminate. apply CP.
      - apply (RES_fr _ _ _ _ _ _ _ RE F NRS). }
    destruct (ginsert_ok st2 rg g2 n (skipn k l) fl B2 N1) as (st3 & rg3 & g3 & E3 & B3 & F3 & A3).
    { intros x I. destruct (M2 x I) as (j & t & _ & OK & _ & Q). exists t. cbn in OK. replace n with j by lia. exact Q. }
    exists st3, rg3, g3. split; [exact E3|]. split; [exact B3|]. split.
    + constructor; try (rewrite ?(r_nh _ _ _ _ _ _ _ F3), ?(r_own _ _ _ _ _ _ _ F3), ?(r_fin _ _ _ _ _ _ _ F3), ?(r_kids _ _ _ _ _ _ _ F3), ?(r_groups _ _ _ _ _ _ _ F3), ?(r_orph _ _ _ _ _ _ _ F3), ?(r_th _ _ _ _ _ _ _ F3), ?(r_res _ _ _ _ _ _ _ F3), ?(r_held _ _ _ _ _ _ _ F3), ?(r_user _ _ _ _ _ _ _ F3); reflexivity).
      * intros m v Q. apply (r_shr _ _ _ _ _ _ _ F3), Q.
      * intros x p j t GX LO NX. pose proof (r_st _ _ _ _ _ _ _ F _ _ _ _ GX LO NX) as G2X. apply (r_st _ _ _ _ _ _ _ F3 _ _ _ _ G2X LO). intros I. destruct (M2 x I) as (j' & t' & Q & _). rewrite F1 in Q by exact NX. rewrite GX in Q. injection Q as -> -> ->. discriminate.
    + exists n, tg. split; [exact G|]. intros p (P1 & P2 & P3). rewrite A3 by assumption. unfold st2. apply at_other, P1.
  - exists (w_at st (TC h n) l), rg, g1. split; [reflexivity|].
    assert (F : fr st rg g (w_at st (TC h n) l) rg g1 [s]) by (constructor; try reflexivity; [intros m v Q; exact Q|]; intros x p j t GX LO NX; rewrite F1 by exact NX; exact GX).
    split; [|split; [exact F|exists n, tg; split; [exact G|]; intros p (P1 & _); apply at_other, P1]]. constructor; [exact V1| |apply (RES_fr _ _ _ _ _ _ _ RE F NRS)].
    constructor.
    + intros h' n' N'. destruct (place_dec (TC h' n') (TC h n)) as [Q|Q]; [|rewrite at_other by exact Q; apply CP, N']. injection Q as -> ->. rewrite at_same. lia.
    + intros n' N'. rewrite at_other by discriminate. apply CP, N'.
    + intros h' c. rewrite at_other by discriminate. apply CP.
Qed.

Definition optl (o : option Z) : list Z := match o with Some s => [s] | None => [] end.
Definition local (h : nat) (p : place) : Prop := match p with TC k _ => k <> h | GA _ | GO _ => False | CC _ _ | DF _ => True end.
Lemma local_other h n p : local h p -> other3 h n p.
Proof. intros H. repeat split; intros ->; cbn in H; auto. Qed.
Lemma adopt_list_ok h want fl : forall l got st rg g, BI st (l ++ optl got ++ fl) rg g -> (h < nh st)%nat -> (forall s, In s l -> exists n tg, g s = Some (FL, n, tg) /\ small tg n) -> (forall s, got = Some s -> exists tg, g s = Some (FL, 1, tg)) ->
  exists got' st' rg' g', adopt_list st h want got l = Ok (got', st') /\ BI st' (optl got' ++ fl) rg' g' /\ fr st rg g st' rg' g' l /\ (want = false -> got' = got) /\ (forall s, got' = Some s -> exists tg, g' s = Some (FL, 1, tg)) /\
    (want = true -> got' = None -> at_ st' (TC h 1) = at_ st (TC h 1)) /\ forall p, local h p -> at_ st' p = at_ st p.
Proof.
  induction l as [|s l IH]; intros got st rg g V HH HS HG.
  - exists got, st, rg, g. cbn. split; [reflexivity|]. split; [exact V|]. split; [apply fr_refl|]. repeat (split; [auto; fail|]). auto.
  - cbn [adopt_list]. destruct (fl_in _ _ _ _ s V (or_introl eq_refl)) as (hd & n & tg & E & G & HN & H1 & H2 & N1). rewrite E. cbn [bind]. destruct (HS s (or_introl eq_refl)) as (n0 & tg0 & G0 & SM). rewrite G in G0. injection G0 as <- <-.
    assert (ND : NoDup ((s :: l) ++ optl got ++ fl)) by (apply (p_nd _ _ _ _ _ (c_pi _ _ _ _ _ _ (b_ci _ _ _ _ V)) FL)).
    assert (NS : ~ In s l) by (cbn in ND; inversion ND; subst; intros I; apply H3; apply in_or_app; auto).
    assert (SING : (h_cls hd <? CLASSES) || (h_n hd =? 1) = true -> n = 1).
    { rewrite HN, H2. intros Q. apply orb_true_iff in Q as [Q|Q]; [apply Z.ltb_lt in Q; apply SM, Q|apply Z.eqb_eq, Q]. }
    assert (CASE : (want && ((h_cls hd <? CLASSES) || (h_n hd =? 1)) = true /\ got = None) \/ ((want = false \/ n <> 1 \/ got <> None) /\ match want && ((h_cls hd <? CLASSES) || (h_n hd =? 1)), got with true, None => adopt_list st h want (Some s) l | _, _ => do st <- cinsert st h s; adopt_list st h want got l end = do st <- cinsert st h s; adopt_list st h want got l)).
    { destruct want; cbn [andb]; [|right; auto]. destruct ((h_cls hd <? CLASSES) || (h_n hd =? 1)) eqn:Q; [|right; split; [right; left; intros ->; rewrite HN in Q; rewrite orb_true_r in Q; discriminate|reflexivity]]. destruct got; [right; split; [right; right; discriminate|reflexivity]|left; auto]. }
    destruct CASE as [(Q & ->)|(Q & ->)].
    + rewrite Q. apply andb_true_iff in Q as (-> & Q). apply SING in Q as ->. destruct (IH (Some s) st rg g) as (got' & st' & rg' & g' & A & B & C & D1 & D2 & D3 & D4).
      * apply (BI_fl _ _ _ _ _ V). cbn. apply Permutation_middle.
      * exact HH.
      * intros x I. apply HS. right. exact I.
      * intros x X. injection X as <-. eauto.
      * exists got', st', rg', g'. split; [exact A|]. split; [exact B|]. split; [apply (fr_trans _ _ _ _ _ _ _ _ _ [] l _ (fr_refl st rg g []) C); [intros x []|apply incl_tl, incl_refl]|]. split; [discriminate|]. split; [exact D2|]. auto.
    + destruct (cinsert_ok st rg g h s (l ++ optl got ++ fl) V HH) as (st1 & rg1 & g1 & E1 & V1 & FR1 & n1 & tg1 & G1 & A1). rewrite E1. cbn [bind]. rewrite G in G1. injection G1 as <- <-.
      destruct (IH got st1 rg1 g1 V1) as (got' & st' & rg' & g' & A & B & C & D1 & D2 & D3 & D4).
      * rewrite (r_nh _ _ _ _ _ _ _ FR1). exact HH.
      * intros x I. destruct (HS x (or_intror I)) as (n2 & t2 & GX & SX). exists n2, t2. split; [|exact SX]. apply (r_st _ _ _ _ _ _ _ FR1 _ _ _ _ GX eq_refl). intros [<-|[]]. contradiction.
      * intros x X. destruct (HG x X) as (t2 & GX). exists t2. apply (r_st _ _ _ _ _ _ _ FR1 _ _ _ _ GX eq_refl). intros [<-|[]]. subst got. cbn in ND. inversion ND; subst. apply H3. apply in_or_app. right. left. reflexivity.
      * exists got', st', rg', g'. split; [exact A|]. split; [exact B|]. split; [apply (fr_trans _ _ _ _ _ _ _ _ _ [s] l _ FR1 C); [intros x [<-|[]]; left; reflexivity|apply incl_tl, incl_refl]|]. split; [exact D1|]. split; [exact D2|]. split.
        -- intros W N. rewrite D3 by assumption. apply A1. destruct Q as [Q|[Q|Q]]; [congruence| |].
           ++ repeat split; congruence.
           ++ exfalso. apply Q. clear - A N. destruct got as [x|]; [|reflexivity]. exfalso. revert st1 A. induction l as [|y l IH]; intros st1 A; cbn in A; [congruence|]. destruct (get st1 y) as [hd| | |]; cbn in A; try discriminate. destruct (want && ((h_cls hd <? CLASSES) || (h_n hd =? 1))); destruct (cinsert st1 h y); cbn in A; try discriminate; eapply IH; eassumption.
        -- intros p P. rewrite D4 by exact P. apply A1. apply local_other, P.
Qed.
Lemma adopt_ok st rg g h want fl : BI st fl rg g -> (h < nh st)%nat ->
  exists got' st' rg' g', adopt st h want = Ok (got', st') /\ BI st' (optl got' ++ fl) rg' g' /\ fr st rg g st' rg' g' (at_ st (DF h)) /\ (want = false -> got' = None) /\ (forall s, got' = Some s -> exists tg, g' s = Some (FL, 1, tg)) /\
    (want = true -> got' = None -> at_ st' (TC h 1) = at_ st (TC h 1)) /\ at_ st' (DF h) = [] /\ forall p, p <> DF h -> local h p -> at_ st' p = at_ st p.
Proof.
  intros [V CP RE] HH. unfold adopt. destruct (outof st rg g (DF h) (at_ st (DF h)) fl [] V) as (g1 & V1 & F1 & M1); [rewrite app_nil_r; apply Permutation_refl|].
  set (st1 := w_at st (DF h) []) in *. assert (F : fr st rg g st1 rg g1 (at_ st (DF h))).
  { constructor; try reflexivity; [intros m v Q; exact Q|]. intros x p j t GX LO NX. rewrite F1 by exact NX. exact GX. }
  assert (B1 : BI st1 (at_ st (DF h) ++ optl None ++ fl) rg g1).
  { constructor; [exact V1| |apply (RES_fr _ _ _ _ _ _ _ RE F); intros x I; destruct (M1 x I) as (n & tg & Q & _); exists n, tg, (At (DF h)); auto].
    constructor; intros; unfold st1; rewrite at_other by discriminate; apply CP; assumption. }
  destruct (adopt_list_ok h want fl _ None st1 rg g1 B1 HH) as (got' & st' & rg' & g' & A & B & C & D1 & D2 & D3 & D4).
  - intros s I. destruct (M1 s I) as (n & tg & _ & OK & _ & Q). exists n, tg. split; [exact Q|]. cbn in OK. apply OK.
  - discriminate.
  - exists got', st', rg', g'. split; [exact A|]. split; [exact B|]. split; [apply (fr_trans _ _ _ _ _ _ _ _ _ _ _ _ F C); apply incl_refl|]. split; [exact D1|]. split; [exact D2|]. split; [|split].
    + intros W N. rewrite D3 by assumption. unfold st1. apply at_other. discriminate.
    + rewrite D4 by exact I. unfold st1. apply at_same.
    + intros p P1 P2. rewrite D4 by exact P2. unfold st1. apply at_other, P1.
Qed.
