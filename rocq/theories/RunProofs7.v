(* Runs of spans: whole histories, and the end of them. *)
From Verif Require Import Base RunModel RunProofs RunProofs2 RunProofs3 RunProofs4 RunProofs5 RunProofs6.
Local Open Scope Z_scope.

Definition empty_of (st : state) (h : nat) : Prop :=
  (forall n, 1 <= n <= RUNS -> at_ st (TC h n) = []) /\ (forall c, 0 <= c < CLASSES -> at_ st (CC h c) = []) /\ at_ st (DF h) = [] /\ snd (res st h) = 0.
Definition of_heap (h : nat) (p : place) : Prop := match p with TC k _ | CC k _ | DF k => k = h | _ => False end.
Lemma empty_keep st st' h : empty_of st h -> (forall p, of_heap h p -> at_ st' p = at_ st p) -> res st' h = res st h -> empty_of st' h.
Proof. intros (A & B & C & D) E R. split; [intros n N; rewrite E by reflexivity; auto|]. split; [intros c N; rewrite E by reflexivity; auto|]. split; [rewrite E by reflexivity; auto|congruence]. Qed.

Section Fin.
Variable st0 : state.
Variable idle : list Z.
Hypothesis ND : NoDup idle.
Hypothesis CL : forall s, In s idle -> exists h c, tagged st0 s = Some (h, c) /\ 0 <= c < CLASSES.
Record FP (K : nat) (st : state) (dn : list nat) (rest : list Z) : Prop := {
  f_bi : exists rg g, BI st rest rg g;
  f_mt : MT st0 st;
  f_rest : forall s, In s rest <-> In s idle /\ forall h c, In h dn -> isT st0 h c s = false;
  f_emp : forall h, In h dn -> empty_of st h;
  f_gr : GR K st dn;
  f_fin : FIN st dn;
  f_held : held (after (log st)) = [] }.
Lemma isT_one h c h' c' s : isT st0 h c s = true -> isT st0 h' c' s = true -> h = h' /\ c = c'.
Proof. unfold isT. destruct (tagged st0 s) as [t|]; [|discriminate]. rewrite !andb_true_iff, !Nat.eqb_eq, !Z.eqb_eq. intros (A & B) (C & D). split; congruence. Qed.
Lemma kp_GR K st st' dn : kp st st' -> GR K st dn -> GR K st' dn.
Proof. intros [Q1 Q2 Q3 Q4 Q5 _ _ _ _] []. constructor; rewrite ?Q1, ?Q4, ?Q5; assumption. Qed.
Lemma from_reserve_MT st h n r : from_reserve st h n = Ok r -> MT st (snd r).
Proof.
  unfold from_reserve. destruct (res st h) as [[rm rs] rk]. unfold mark_sub, get. cbn [w_res mem]. destruct (mem st rs) as [hd|] eqn:M; [|discriminate]. cbn [bind]. intros E. injection E as <-. cbn [snd].
  apply (MT_trans _ (w_res st h (rm, rs + n, rk - n))); [apply MT_mem; reflexivity|]. apply (MT_put _ _ hd); [exact M|destruct (rs =? rm); reflexivity|destruct (rs =? rm); reflexivity].
Qed.
Lemma fin_heap_ok K st dn rest h : FP K st dn rest -> (h < nh st)%nat -> ~ In h dn -> exists st' rest', fin_heap st h idle = Ok st' /\ FP K st' (h :: dn) rest' /\ nh st' = nh st.
Proof.
  intros [(rg & g & V) M RS0 EM GRP F HE] HH N. unfold fin_heap. set (st1 := w_fin st h 2).
  assert (V1 : BI st1 rest rg g) by (destruct V as [VC [] RE]; constructor; [exact VC|constructor; assumption|exact RE]).
  assert (F1 : FIN st1 (h :: dn)). { intros k. unfold st1. cbn [w_fin fin]. unfold inb. cbn [existsb]. destruct (Nat.eqb_spec k h) as [->|NE]; [apply put_same|]. rewrite put_other by exact NE. apply F. }
  assert (G1 : GR K st1 dn) by (destruct GRP; constructor; assumption).
  destruct (res st1 h) as [[rm rs] rk] eqn:ER.
  (* the reserve *)
  assert (ONE : exists st2 rg2 g2, (if rk =? 0 then Ok st1 else do x <- from_reserve st1 h rk; unmap (snd x) (fst x)) = Ok st2 /\ BI st2 rest rg2 g2 /\ kp st1 st2 /\ at_ st2 = at_ st1 /\ snd (res st2 h) = 0 /\ (forall k, k <> h -> res st2 k = res st1 k) /\ MT st1 st2).
  { destruct (Z.eqb_spec rk 0) as [Z0|NZ].
    - exists st1, rg, g. split; [reflexivity|]. split; [exact V1|]. split; [apply kp_refl|]. split; [reflexivity|]. split; [rewrite ER; exact Z0|]. split; [reflexivity|apply MT_refl].
    - destruct (res_in _ _ _ _ _ _ _ _ V1 ER NZ) as (_ & _ & _ & _ & _ & R1 & _).
      destruct (from_reserve_ok st1 rg g h rk rest rm rs rk V1 ER ltac:(lia)) as (st2 & g2 & E2 & B2 & K2 & _ & RH & A2 & RO). pose proof (from_reserve_MT _ _ _ _ E2) as M2. rewrite E2. cbn [bind fst snd] in *.
      destruct (unmap_ok st2 rg g2 rs rest B2) as (st3 & rg3 & E3 & B3 & F3 & A3). rewrite E3. exists st3, rg3, (upd g2 rs None). split; [reflexivity|]. split; [exact B3|]. split; [apply (kp_trans _ _ _ K2), (fr_kp _ _ _ _ _ _ _ F3)|]. split; [congruence|]. rewrite (r_res _ _ _ _ _ _ _ F3). split; [rewrite RH; cbn [snd]; lia|]. split; [exact RO|]. apply (MT_trans _ _ _ M2), (unmap_MT _ _ _ E3). }
  destruct ONE as (st2 & rg2 & g2 & E2 & B2 & K2 & A2 & R2 & RO2 & M2). rewrite E2. cbn [bind].
  (* runs others gave back *)
  rewrite adopt_fin by (rewrite (q_fin _ _ K2), (F1 h); unfold inb; cbn [existsb]; rewrite Nat.eqb_refl; discriminate).
  destruct (empty_ok st2 rg2 g2 (DF h) rest B2) as (st3 & rg3 & g3 & E3 & B3 & K3 & R3 & A3 & O3 & M3). rewrite E3. cbn [bind snd].
  (* the classes *)
  assert (M03 : MT st0 st3) by (apply (MT_trans _ _ _ M), (MT_trans _ st1); [apply MT_mem; reflexivity|apply (MT_trans _ _ _ M2 M3)]).
  destruct (fin_classes_ok st0 idle h ND 126 0 st3 rg3 g3 rest B3) as (st4 & rg4 & g4 & rest4 & E4 & B4 & C4 & K4 & R4 & M4 & D4 & O4); [intros s I; apply RS0 in I; apply I| |exact M03|].
  { intros s k I _ T. apply RS0. split; [exact I|]. intros h' c' I'. destruct (isT st0 h' c' s) eqn:Q; [|reflexivity]. exfalso. destruct (isT_one _ _ _ _ _ T Q) as (<- & _). contradiction. }
  rewrite E4. cbn [bind].
  destruct (fin_caches_ok h rest4 63 1 st4 rg4 g4 B4) as (st5 & rg5 & g5 & E5 & B5 & K5 & R5 & M5 & D5 & O5). rewrite E5. cbn [bind].
  pose proof (kp_trans _ _ _ K2 (kp_trans _ _ _ K3 (kp_trans _ _ _ K4 K5))) as K15.
  destruct (heap_unmap_ok K st5 rg5 g5 rest4 h dn B5) as (st6 & rg6 & g6 & E6 & B6 & G6 & KE); [apply (kp_GR _ _ _ _ K15 G1)|intros k; rewrite (q_fin _ _ K15); apply F1|rewrite (q_nh _ _ K15); exact HH|exact N|].
  exists st6, rest4. split; [exact E6|]. split; [|rewrite (e_nh _ _ KE), (q_nh _ _ K15); reflexivity]. constructor.
  - eauto.
  - apply (MT_trans _ _ _ M03), (MT_trans _ _ _ M4), (MT_trans _ _ _ M5), KE.
  - intros s. rewrite C4, RS0. split.
    + intros ((I & H1) & H2). split; [exact I|]. intros h' c' [<-|I']; [|apply H1, I']. destruct (isT st0 h c' s) eqn:Q; [|reflexivity]. exfalso. destruct (CL s I) as (h0 & c0 & T & CB). assert (c' = c0). { clear - Q T. unfold isT in Q. rewrite T in Q. cbn [fst snd] in Q. apply andb_true_iff in Q as (_ & Q). apply Z.eqb_eq in Q. congruence. } subst c'. rewrite H2 in Q; [discriminate|]. unfold CLASSES in CB. lia.
    + intros (I & H). split; [split; [exact I|]|].
      * intros h' c' I'. apply H. right. exact I'.
      * intros k _. apply H. left. reflexivity.
  - assert (AT : forall p, (~ exists k, p = TC h k /\ 1 <= k < 1 + Z.of_nat 63) -> (~ exists k, p = CC h k /\ 0 <= k < 0 + Z.of_nat 126) -> p <> DF h -> at_ st6 p = at_ st p).
    { intros p N1 N2 N3. rewrite (e_at _ _ KE). destruct (O5 p) as [Q|Q]; [|contradiction]. rewrite Q. destruct (O4 p) as [Q'|Q']; [|contradiction]. rewrite Q', O3 by exact N3. rewrite A2. reflexivity. }
    intros h' [<-|I'].
    + split; [intros n NB; rewrite (e_at _ _ KE); apply D5; unfold RUNS in NB; lia|]. split; [|split].
      * intros c CB. rewrite (e_at _ _ KE). destruct (O5 (CC h c)) as [Q|(k & Q & _)]; [rewrite Q; apply D4; unfold CLASSES in CB; lia|discriminate].
      * rewrite (e_at _ _ KE). destruct (O5 (DF h)) as [Q|(k & Q & _)]; [|discriminate]. rewrite Q. destruct (O4 (DF h)) as [Q'|(k & Q' & _)]; [|discriminate]. rewrite Q'. exact A3.
      * rewrite (e_res _ _ KE), R5, R4, R3. exact R2.
    + assert (NE : h' <> h) by congruence. apply (empty_keep st); [apply EM, I'| |].
      * intros p PP. destruct p as [k n|k c|k|n|n]; cbn in PP; try contradiction; subst k; apply AT; try (intros (k & Q & _)); congruence.
      * rewrite (e_res _ _ KE), R5, R4, R3, RO2 by exact NE. reflexivity.
  - exact G6.
  - intros k. rewrite (e_fin _ _ KE), (q_fin _ _ K15). apply F1.
  - rewrite (e_held _ _ KE), (q_held _ _ K15). exact HE.
Qed.
Lemma fin_heaps_ok K : forall hs st dn rest, FP K st dn rest -> NoDup hs -> (forall h, In h hs -> (h < nh st)%nat /\ ~ In h dn) -> exists st' rest', fin_heaps st idle hs = Ok st' /\ FP K st' (rev hs ++ dn) rest' /\ nh st' = nh st.
Proof.
  induction hs as [|h hs IH]; intros st dn rest P NH H; [exists st, rest; auto|]. cbn [fin_heaps]. inversion NH; subst. destruct (H h (or_introl eq_refl)) as (HH & N).
  destruct (fin_heap_ok K st dn rest h P HH N) as (st1 & rest1 & E1 & P1 & N1). rewrite E1. cbn [bind]. destruct (IH st1 (h :: dn) rest1 P1 H3) as (st2 & rest2 & E2 & P2 & N2).
  - intros k I. rewrite N1. destruct (H k (or_intror I)) as (A & B). split; [exact A|]. intros [<-|X]; contradiction.
  - exists st2, rest2. split; [exact E2|]. split; [|congruence]. cbn [rev]. rewrite <- app_assoc. exact P2.
Qed.
Lemma fin_end K st dn rest : FP K st dn rest -> (forall h, (h < nh st)%nat -> In h dn) -> (forall s, In s idle -> exists h c, tagged st0 s = Some (h, c) /\ (h < nh st)%nat) ->
  exists st', fin_global st 1 63 = Ok st' /\ fair (log st') /\ mapped (after (log st')) = [].
Proof.
  intros [(rg & g & V) M RS0 EM GRP F HE] ALL TG.
  assert (R0 : rest = []). { destruct rest as [|s l]; [reflexivity|]. exfalso. destruct (proj1 (RS0 s) (or_introl eq_refl)) as (I & H). destruct (TG s I) as (h & c & T & HH). specialize (H h c (ALL h HH)). unfold isT in H. rewrite T in H. cbn [fst snd] in H. rewrite Nat.eqb_refl, Z.eqb_refl in H. discriminate. }
  subst rest. destruct (fin_global_ok [] 63 1 st rg g V) as (st1 & rg1 & g1 & E1 & B1 & K1 & R1 & D1 & O1). exists st1. split; [exact E1|]. pose proof (b_ci _ _ _ _ B1) as VC. pose proof (c_pi _ _ _ _ _ _ VC) as VP. split; [apply (c_fair _ _ _ _ _ _ VC)|].
  assert (G0 : groups st = []). { destruct (groups st) as [|[k m] l] eqn:EG; [reflexivity|]. exfalso. assert (I : In (k, m) (groups st)) by (rewrite EG; left; reflexivity). destruct (g_grp _ _ _ GRP _ _ I) as (i & -> & IK). apply (g_none _ _ _ GRP i m); [|exact I]. intros j J. apply ALL. rewrite (g_nh _ _ _ GRP). unfold HEAPS in *. lia. }
  assert (NONE : forall s p n tg, g1 s <> Some (p, n, tg)).
  { intros s p n tg G. pose proof (p_ok _ _ _ _ _ VP _ _ _ _ G) as (N1 & OK). assert (I : In s (list_of st1 [] p)) by (apply (p_in _ _ _ _ _ VP); eauto). rewrite (q_nh _ _ K1) in OK.
    assert (OE : forall h q, of_heap h q -> at_ st1 q = at_ st q) by (intros h q Q; destruct (O1 q) as [X|(k & [X|X] & _)]; [exact X|subst q; destruct Q|subst q; destruct Q]).
    destruct p as [[h k|h c|h|k|k]|h| | | |]; cbn [list_of okp] in I, OK.
    - destruct OK as (-> & K2 & HH). rewrite (OE h) in I by reflexivity. rewrite (proj1 (EM h (ALL h HH))) in I by lia. destruct I.
    - destruct OK as (_ & CB & HH). rewrite (OE h) in I by reflexivity. rewrite (proj1 (proj2 (EM h (ALL h HH)))) in I by lia. destruct I.
    - destruct OK as (_ & HH & _). rewrite (OE h) in I by reflexivity. rewrite (proj1 (proj2 (proj2 (EM h (ALL h HH))))) in I. destruct I.
    - destruct OK as (-> & K2). rewrite (proj1 (D1 k ltac:(unfold RUNS in *; lia))) in I. destruct I.
    - destruct OK as (-> & K2). rewrite (proj2 (D1 k ltac:(unfold RUNS in *; lia))) in I. destruct I.
    - destruct OK as (_ & HH). pose proof (proj2 (proj2 (proj2 (EM h (ALL h HH))))) as Z0. rewrite <- R1 in Z0. destruct (res st1 h) as [[a b] c]. cbn [snd] in Z0. subst c. destruct I.
    - rewrite (q_groups _ _ K1), G0 in I. destruct I.
    - rewrite (q_held _ _ K1), HE in I. destruct I.
    - destruct I.
    - destruct I. }
  destruct (mapped (after (log st1))) as [|[a len] l] eqn:EM1; [reflexivity|]. exfalso. assert (I : In (a, len) (mapped (after (log st1)))) by (rewrite EM1; left; reflexivity). apply (c_krn _ _ _ _ _ _ VC) in I as (m & T & al & R & _).
  destruct (p_rg _ _ _ _ _ VP _ _ _ R) as (_ & _ & SUM & _). assert (Z0 : gsum g1 m T = 0); [|lia]. unfold gsum. generalize (Z.to_nat T). intros k. induction k as [|k IH]; [reflexivity|]. cbn. rewrite IH. destruct (g1 (m + Z.of_nat k)) as [[[p n] tg]|] eqn:Q; [elim (NONE _ _ _ _ Q)|reflexivity].
Qed.
End Fin.

(* ---- what is in use at the end is given up ---- *)
Definition undo (g : ghost) : ghost := fun x => match g x with Some (HELD, n, tg) => Some (FL, n, tg) | y => y end.
Lemma undo_some g x p n tg : undo g x = Some (p, n, tg) -> exists q, g x = Some (q, n, tg) /\ p = match q with HELD => FL | _ => q end /\ p <> HELD.
Proof. unfold undo. destruct (g x) as [[[q k] t]|]; [|discriminate]. intros E. exists q. destruct q; injection E as <- <- <-; (split; [reflexivity|]; split; [reflexivity|discriminate]). Qed.
Lemma undo_wt g x : wt (undo g x) = wt (g x).
Proof. unfold undo. destruct (g x) as [[[q k] t]|]; [|reflexivity]. destruct q; reflexivity. Qed.
Lemma done_ok st rg g : BI st [] rg g -> BI (note st EDone) (map fst (held (after (log st)))) rg (undo g).
Proof.
  intros [V CP RE]. pose proof (c_pi _ _ _ _ _ _ V) as VP. constructor.
  - destruct V as [_ FA KR PA _]. constructor.
    + constructor.
      * intros p. destruct p; cbn [list_of note log after after1 held]; try apply (p_nd _ _ _ _ _ VP (At _)); try apply (p_nd _ _ _ _ _ VP (RS _)); try apply (p_nd _ _ _ _ _ VP HP); try apply (p_nd _ _ _ _ _ VP HELD); constructor.
      * intros p s. destruct (gp_dec p HELD) as [->|N1]; [cbn; split; [intros []|intros (n & tg & E); apply undo_some in E as (_ & _ & _ & E); congruence]|]. destruct (gp_dec p FL) as [->|N2].
        -- change (In s (list_of st [] HELD) <-> exists n tg, undo g s = Some (FL, n, tg)). rewrite (p_in _ _ _ _ _ VP). split.
           ++ intros (n & tg & E). exists n, tg. unfold undo. rewrite E. reflexivity.
           ++ intros (n & tg & E). apply undo_some in E as (q & E & Q & _). exists n, tg. destruct q; try discriminate; [exact E|]. exfalso. assert (I : In s (list_of st [] FL)) by (apply (p_in _ _ _ _ _ VP); eauto). destruct I.
        -- assert (L : list_of (note st EDone) (map fst (held (after (log st)))) p = list_of st [] p) by (destruct p; try reflexivity; congruence). rewrite L, (p_in _ _ _ _ _ VP). split; intros (n & tg & E); exists n, tg; [unfold undo; rewrite E; destruct p; try reflexivity; congruence|]. apply undo_some in E as (q & E & Q & _). destruct q; congruence.
      * intros s p n tg E. apply undo_some in E as (q & E & -> & _). destruct (p_ok _ _ _ _ _ VP _ _ _ _ E) as (A & B). split; [exact A|]. destruct q; try exact B. apply B.
      * intros s p n tg E. apply undo_some in E as (q & E & _). apply (p_acc _ _ _ _ _ VP _ _ _ _ E).
      * intros s p n tg E. apply undo_some in E as (q & E & -> & _). destruct (p_at _ _ _ _ _ VP _ _ _ _ E) as (m & T & al & R & A & B & H). exists m, T, al. split; [exact R|]. split; [exact A|]. split; [exact B|]. intros Q. apply H. destruct q; assumption || reflexivity.
      * intros m T al R. destruct (p_rg _ _ _ _ _ VP _ _ _ R) as (T1 & AL & SUM & hd & D1 & D2 & D3 & D4 & D5). assert (S : gsum (undo g) m T = gsum g m T) by (apply gsum_ext; intros; apply undo_wt). split; [exact T1|]. split; [exact AL|]. split; [lia|]. exists hd. split; [exact D1|]. split; [|rewrite S; auto]. rewrite D2. unfold undo. destruct (g m) as [[[q k] t]|]; [|reflexivity]. destruct q; reflexivity.
      * intros s p n tg s' p' n' tg' E E'. apply undo_some in E as (q & E & _). apply undo_some in E' as (q' & E' & _). apply (p_dis _ _ _ _ _ VP _ _ _ _ _ _ _ _ E E').
      * apply VP.
    + split; [exact I|exact FA].
    + exact KR.
    + exact PA.
    + intros s n. cbn. split; [intros []|]. intros (tg & E). apply undo_some in E as (_ & _ & _ & E). congruence.
  - destruct CP. constructor; assumption.
  - intros h rm rs rk E. destruct (RE h rm rs rk E) as (A & B). split; [exact A|]. intros NZ. destruct (B NZ) as ((tg & G) & C). split; [|exact C]. exists tg. unfold undo. rewrite G. reflexivity.
Qed.

(* ---- histories ---- *)
Definition allowed (z : spec) (o : op) : Prop :=
  match o with
  | OInit _ mm => honest z mm (15 * SPAN)
  | OTake t n cls mm => (exists h, In (t, h) (user z)) /\ fits n cls /\ honest z mm (65 * SPAN)
  | OGive _ s => exists k, In (s, k) (held z)
  | ODone _ => True
  end.
Fixpoint good (st : state) (os : list op) : Prop :=
  match os with [] => True | o :: r => allowed (after (log st)) o /\ forall st', step st o = Ok st' -> good st' r end.
Lemma INV0 : INV state0.
Proof.
  split.
  - exists (fun _ => None), (fun _ => None). constructor.
    + constructor; cbn; try discriminate; [constructor; cbn; try discriminate|exact I| |].
      * intros p. destruct p; cbn; constructor.
      * intros p s. split; [destruct p; intros []|]. intros (? & ? & E). discriminate.
      * intros a len. split; [intros []|]. intros (? & ? & ? & E & _). discriminate.
      * intros s n. split; [intros []|]. intros (? & E). discriminate.
    + constructor; cbn; try lia; intros; [pose proof (tlimit_ge n H); unfold zlen; cbn; lia|pose proof (glimit_le n H); unfold zlen; cbn; lia].
    + intros h rm rs rk E. cbn in E. injection E as <- <- <-. split; lia.
  - constructor; cbn; try discriminate; try reflexivity; try (intros; contradiction); try constructor; [intros []|discriminate].
Qed.
Lemma step_ok st o : INV st -> allowed (after (log st)) o -> exists st', step st o = Ok st' /\ INV st'.
Proof.
  intros V A. destruct o as [t mm|t n cls mm|t s|t]; cbn [step allowed] in *.
  - destruct (thread_init_ok st t mm V A) as (st' & E & V' & _). eauto.
  - destruct A as (A & B & C). destruct (take_ok st t n cls mm V A B C) as (st' & r & lg & E & V' & _). eauto.
  - destruct A as (k & A). apply (give_ok st t s k V A).
  - destruct (thread_done_ok st t V) as (st' & E & V' & _). eauto.
Qed.
Lemma run_inv : forall os st, INV st -> good st os -> exists st', run st os = Ok st' /\ INV st'.
Proof.
  induction os as [|o os IH]; intros st V G; [exists st; auto|]. destruct G as (A & G). cbn [run]. destruct (step_ok st o V A) as (st1 & E & V1). rewrite E. cbn [bind]. apply (IH st1 V1 (G st1 E)).
Qed.
Lemma INV_fair st : INV st -> fair (log st).
Proof. intros ((rg & g & V) & _). apply (c_fair _ _ _ _ _ _ (b_ci _ _ _ _ V)). Qed.
Lemma run_ok os : good state0 os -> exists st, run state0 os = Ok st /\ fair (log st).
Proof. intros G. destruct (run_inv os state0 INV0 G) as (st & E & V). exists st. split; [exact E|apply INV_fair, V]. Qed.
Lemma run_of os st : good state0 os -> run state0 os = Ok st -> INV st.
Proof. intros G E. destruct (run_inv os state0 INV0 G) as (st' & E' & V). congruence. Qed.
Lemma run_take os st t n cls mm : good state0 os -> run state0 os = Ok st -> allowed (after (log st)) (OTake t n cls mm) ->
  exists st' r lg, step st (OTake t n cls mm) = Ok st' /\ log st' = ETake t n r :: lg /\ (mm <> None -> r <> None).
Proof. intros G E (A & B & C). destruct (take_ok st t n cls mm (run_of _ _ G E) A B C) as (st' & r & lg & S & _ & L & N & _). exists st', r, lg. split; [exact S|]. split; [exact L|]. intros X Y. apply X, N, Y. Qed.
Lemma run_init os st t a : good state0 os -> run state0 os = Ok st -> allowed (after (log st)) (OInit t (Some a)) -> exists st' h, step st (OInit t (Some a)) = Ok st' /\ In (t, h) (user (after (log st'))).
Proof. intros G E A. destruct (thread_init_ok st t (Some a) (run_of _ _ G E) A) as (st' & S & _ & H). destruct (H ltac:(discriminate)) as (h & I). exists st', h. auto. Qed.

(* ---- the end ---- *)
Definition class_run (st : state) (s : Z) : Prop := exists hd, mem st s = Some hd /\ h_cls hd < CLASSES.
Lemma USR_GR st : USR st -> GR (length (groups st)) st [].
Proof.
  intros U. constructor.
  - apply U.
  - intros k m I. apply (u_grm _ U _ _ I).
  - apply U.
  - intros i j IK _ _. assert (I : In (HEAPS * i)%nat (map fst (groups st))).
    { apply (NoDup_length_incl (l := map fst (groups st)) (l' := map (fun i => (HEAPS * i)%nat) (seq 0 (length (groups st))))); [apply U|rewrite !map_length, seq_length; lia| |].
      - intros k I. apply in_map_iff in I as ((k' & m) & <- & I). destruct (u_grm _ U _ _ I) as (_ & i' & -> & I'). cbn [fst]. apply (in_map (fun i => (HEAPS * i)%nat)). apply in_seq. lia.
      - apply (in_map (fun i => (HEAPS * i)%nat)). apply in_seq. lia. }
    apply in_map_iff in I as ((k & m) & E & I). cbn [fst] in E. subst k. exists m. exact I.
  - intros i m H. specialize (H 0%nat). exfalso. apply H. unfold HEAPS. lia.
  - intros i IK. destruct (u_grp _ U). assert (I : exists m, In ((HEAPS * i)%nat, m) (groups st)).
    { assert (I : In (HEAPS * i)%nat (map fst (groups st))).
      { apply (NoDup_length_incl (l := map fst (groups st)) (l' := map (fun i => (HEAPS * i)%nat) (seq 0 (length (groups st))))); [apply U|rewrite !map_length, seq_length; lia| |].
        - intros k I. apply in_map_iff in I as ((k' & m) & <- & I). destruct (u_grm _ U _ _ I) as (_ & i' & -> & I'). cbn [fst]. apply (in_map (fun i => (HEAPS * i)%nat)). apply in_seq. lia.
        - apply (in_map (fun i => (HEAPS * i)%nat)). apply in_seq. lia. }
      apply in_map_iff in I as ((k & m) & E & I). cbn [fst] in E. subst k. exists m. exact I. }
    destruct I as (m & I). destruct (u_grm _ U _ _ I) as (KI & _). rewrite KI. reflexivity.
Qed.
Lemma finalize_inv st t idle hs : INV st -> Permutation idle (map fst (held (after (log st)))) -> (forall s, In s idle -> class_run st s) -> Permutation hs (seq 0 (nh st)) ->
  exists st', finalize st t idle hs = Ok st' /\ fair (log st') /\ mapped (after (log st')) = [].
Proof.
  intros V PI PC PH. unfold finalize. destruct (thread_done_ok st t V) as (st1 & E1 & ((rg & g & V1) & U1) & H1 & N1 & T1). rewrite E1. cbn [bind].
  pose proof (done_ok st1 rg g V1) as B2. set (st2 := note st1 EDone) in *. rewrite H1 in B2.
  assert (TG : forall s, In s idle -> exists h c, tagged st2 s = Some (h, c) /\ 0 <= c < CLASSES /\ (h < nh st2)%nat).
  { intros s I. destruct (PC s I) as (hd0 & M0 & C0). apply (Permutation_in s PI) in I. apply in_map_iff in I as ((s' & k) & <- & I). cbn [fst] in *. destruct (T1 s' k I) as (hd & hd' & M & M' & Q1 & Q2). rewrite M in M0. injection M0 as ->. rewrite <- H1 in I. destruct (held_tag _ _ _ _ _ _ V1 I) as (hd2 & tg & _ & M2 & A & B & C & D). rewrite M' in M2. injection M2 as <-.
    exists (h_heap hd'), (h_cls hd'). split; [unfold tagged; change (mem st2 s') with (mem st1 s'); rewrite M'; reflexivity|]. split; [split; [rewrite B; exact D|congruence]|]. change (nh st2) with (nh st1). rewrite A. exact C. }
  assert (ND : NoDup idle) by (apply (Permutation_NoDup (Permutation_sym PI)), (p_nd _ _ _ _ _ (c_pi _ _ _ _ _ _ (b_ci _ _ _ _ B2)) FL)).
  assert (P2 : FP st2 idle (length (groups st1)) st2 [] idle).
  { constructor.
    - exists rg, (undo g). apply (BI_fl _ _ _ _ _ B2). symmetry. exact PI.
    - apply MT_refl.
    - intros s. split; [intros I; split; [exact I|intros h c []]|intros (I & _); exact I].
    - intros h [].
    - pose proof (USR_GR _ U1) as []. constructor; assumption.
    - intros k. cbn. apply (u_fin _ U1).
    - reflexivity. }
  destruct (fin_heaps_ok st2 idle ND) with (K := length (groups st1)) (hs := hs) (st := st2) (dn := @nil nat) (rest := idle) as (st3 & rest3 & E3 & P3 & N3).
  - intros s I. destruct (TG s I) as (h & c & A & B & _). eauto.
  - exact P2.
  - apply (Permutation_NoDup (Permutation_sym PH)), seq_NoDup.
  - intros h I. apply (Permutation_in h PH) in I. apply in_seq in I. split; [|intros []]. change (nh st2) with (nh st1). lia.
  - rewrite E3. cbn [bind]. assert (CL : forall s, In s idle -> exists h c, tagged st2 s = Some (h, c) /\ 0 <= c < CLASSES) by (intros s I; destruct (TG s I) as (h & c & A & B & _); eauto). apply (fin_end st2 idle CL) with (1 := P3).
    + intros h HH. rewrite N3 in HH. change (nh st2) with (nh st1) in HH. rewrite app_nil_r. apply -> in_rev. apply (Permutation_in h (Permutation_sym PH)), in_seq. lia.
    + intros s I. destruct (TG s I) as (h & c & A & _ & C). exists h, c. split; [exact A|]. rewrite N3. exact C.
Qed.
Lemma run_final os st t idle hs : good state0 os -> run state0 os = Ok st -> Permutation idle (map fst (held (after (log st)))) -> (forall s, In s idle -> class_run st s) -> Permutation hs (seq 0 (nh st)) ->
  exists st', finalize st t idle hs = Ok st' /\ fair (log st') /\ mapped (after (log st')) = [].
Proof. intros G E. apply finalize_inv, (run_of _ _ G E). Qed.
