(* Loops from their first timer on; loops that have nothing but timers. *)
From Verif Require Import Base DllModel DllProofs TimersModel TimersProofs LpModel LpProofs.
Local Open Scope Z_scope.

(* a loop whose timers were made by a program that obeys the rules of C21 *)
Definition made (s : loop) (st : tspec) : Prop :=
  exists nx pv a0 r0 ops, spec_tops tspec0 ops = Some st /\ do_tops (timers_init nx pv a0 r0) ops = Ok (tm s).

Lemma made_good : forall s st, made s st -> Good s st.
Proof.
  intros s st (nx & pv & a0 & r0 & ops & E1 & E2).
  destruct (tops_ok _ _ _ _ (init_ok nx pv a0 r0) eq_refl E1) as (t & Et & HT & HR). rewrite E2 in Et. injection Et as <-.
  split; [exact HT|]. split; [exact HR|]. exact (stops_inv _ _ _ spec0_inv eq_refl E1).
Qed.

Lemma made_overdue : forall mw l s st D R, made s st -> obeys mw l s st -> -2147483 <= mw <= 2147483 -> 0 <= res s -> 0 <= clk s ->
  pend st = D ++ R -> Forall (fun p => snd p < clk s) D -> (length l <= length D)%nat ->
  (exists s' times, passes mw l s = Ok (Some s') /\ length times = length l /\
     fired (tm s') = fired (tm s) ++ combine (map fst (firstn (length l) D)) times /\
     (forall n t, nth_error times n = Some t -> clk s <= t <= clk s') /\
     (forall P, 0 <= mw -> Forall (fun i => Z.min (res s) mw * 1000000000 + late1 i + late2 i <= P) l ->
        forall n t, nth_error times n = Some t -> t <= clk s + Z.of_nat (S n) * P)) \/
  (passes mw l s = Ok None /\ mw < 0 /\ exists i, In i l /\ early i = None).
Proof.
  intros mw l s st D R HM HO Hmw Hres Hc Hp HD Hlen.
  assert (Hmin : (if res s <? mw then res s else mw) = Z.min (res s) mw) by (destruct (Z.ltb_spec (res s) mw); lia).
  destruct (overdue mw l s st D R (made_good _ _ HM) HO Hmw Hres Hc Hp HD Hlen)
    as [(s' & st' & times & R' & E & _ & HL & HF & _ & HT & _ & HU & _)|H]; [left|right; exact H].
  exists s', times. rewrite Hmin in HU. auto.
Qed.

(* -- passes in which nothing but the timer's own callback runs, and that leaves the timers alone -- *)
Definition quiet (i : input) : Prop :=
  early i = None /\ acts i = [] /\ tasks1 i = 0 /\ tasks2 i = 0 /\ descs2 i = 0 /\ sigs2 i = 0 /\ 0 <= late1 i /\ 0 <= late2 i.

Lemma quiet_ops : forall now i, quiet i -> ops_of now i = [TIter now []].
Proof. intros now i (H1 & H2 & H3 & _). unfold ops_of. rewrite H1, H2, H3. reflexivity. Qed.

Lemma quiet_pass : forall mw i s st, Good s st -> quiet i -> tasks s = 0 -> 0 <= mw <= 2147483 -> 0 <= res s ->
  exists s1 st1, let now := clk s + Z.min (res s) mw * 1000000000 + late1 i in
    pass mw i s = Ok (Some s1) /\ Good s1 st1 /\ spec_tops st [TIter now []] = Some st1 /\ clk s1 = now + late2 i /\ res s1 = res s /\
    tasks s1 = 0 /\ descs s1 = 0 /\ sigs s1 = 0.
Proof.
  intros mw i s st (HT & HR & HS) HQ Ht Hmw Hres. pose proof HQ as (H1 & H2 & H3 & H4 & H5 & H6 & H7 & H8).
  set (now := clk s + Z.min (res s) mw * 1000000000 + late1 i).
  assert (exists st1, spec_tops st [TIter now []] = Some st1) as (st1 & E1).
  { cbn [spec_tops spec_top spec_acts]. destruct (pend st) as [|[t w] r]; [eauto|]. destruct (w <=? now); eauto. }
  destruct (tops_ok _ _ _ _ HT HR E1) as (t & Et & HT' & HR'). pose proof (stops_inv _ _ _ HS HR E1) as HS'.
  exists (mkLoop t (now + late2 i) (res s) (tasks2 i) (descs2 i) (sigs2 i)), st1. cbv zeta. fold now.
  split.
  - unfold pass. rewrite Ht, H1, H2, H3. cbn [Z.eqb]. unfold wait_ms.
    replace (if res s <? mw then res s else mw) with (Z.min (res s) mw) by (destruct (Z.ltb_spec (res s) mw); lia).
    replace (- 2 ^ 31 <=? Z.min (res s) mw * 1000) with true by (symmetry; apply Z.leb_le; lia).
    replace (Z.min (res s) mw * 1000 <? 2 ^ 31) with true by (symmetry; apply Z.ltb_lt; lia). cbn [andb bind].
    unfold slept. destruct (Z.ltb_spec (Z.min (res s) mw * 1000) 0); [lia|].
    replace (clk s + Z.min (res s) mw * 1000 * 1000000 + late1 i) with now by (unfold now; lia).
    cbn [do_acts bind]. cbn [do_tops do_top] in Et. destruct (iterate (tm s) now []) as [t2| | |]; cbn [bind] in *; try discriminate.
    injection Et as ->. reflexivity.
  - split; [split; [exact HT'|split; [exact HR'|exact HS']]|]. cbn. auto 10.
Qed.

(* one timer alone is not looked at before the wait is over, however soon it is due *)
Lemma wait_ignores_timers : forall mw i s st s1, made s st -> quiet i -> tasks s = 0 -> 0 <= mw <= 2147483 -> 0 <= res s ->
  pass mw i s = Ok (Some s1) -> fired (tm s1) = fired (tm s) \/
  exists x t, fired (tm s1) = fired (tm s) ++ [(x, t)] /\ clk s + Z.min (res s) mw * 1000000000 <= t.
Proof.
  intros mw i s st s1 HM HQ Ht Hmw Hres E. apply made_good in HM.
  destruct (quiet_pass mw i s st HM HQ Ht Hmw Hres) as (s2 & st2 & E2 & HG2 & Es & _). cbv zeta in *. rewrite E in E2. injection E2 as <-.
  rewrite (ti_fired _ _ (proj1 HG2)), (ti_fired _ _ (proj1 HM)).
  cbn [spec_tops spec_top spec_acts] in Es. destruct (pend st) as [|[x w] r]; [injection Es as <-; auto|].
  destruct (w <=? _); injection Es as <-; [|auto]. right. cbn [sfired]. destruct HQ as (_ & _ & _ & _ & _ & _ & H7 & _). do 2 eexists. split; [reflexivity|lia].
Qed.

(* only one-shot timers, all pending *)
Definition plain (st : tspec) : Prop := srep st = [] /\ length (live st) = length (pend st).

Lemma quiet_run : forall mw l s st, Good s st -> plain st -> Forall quiet l -> tasks s = 0 -> 0 <= mw <= 2147483 -> 0 <= res s ->
  Forall (fun p => snd p <= clk s) (pend st) -> (length l <= length (pend st))%nat ->
  exists s' st', passes mw l s = Ok (Some s') /\ Good s' st' /\ plain st' /\ pend st' = skipn (length l) (pend st) /\
    (l <> [] -> tasks s' = 0 /\ descs s' = 0 /\ sigs s' = 0) /\
    map fst (fired (tm s')) = map fst (fired (tm s)) ++ map fst (firstn (length l) (pend st)) /\
    (forall n, (n < length l)%nat -> exists x t, nth_error (fired (tm s')) (length (fired (tm s)) + n) = Some (x, t) /\
       clk s + Z.of_nat (S n) * (Z.min (res s) mw * 1000000000) <= t) /\ res s' = res s /\
    (exists more, fired (tm s') = fired (tm s) ++ more /\ length more = length l).
Proof.
  intros mw. induction l as [|i l IH]; intros s st HG HP HQ Ht Hmw Hres HD Hlen.
  - exists s, st. split; [reflexivity|]. split; [exact HG|]. split; [exact HP|]. split; [reflexivity|]. split; [congruence|].
    split; [cbn; rewrite app_nil_r; reflexivity|]. split; [cbn; intros n Hn; lia|]. split; [reflexivity|]. exists []. rewrite app_nil_r. auto.
  - inversion HQ as [|? ? HQi HQl]; subst.
    destruct (quiet_pass mw i s st HG HQi Ht Hmw Hres) as (s1 & st1 & E1 & HG1 & Es & Ec & Er & Et1 & Ed1 & Eg1). cbv zeta in *.
    cbn [passes]. rewrite E1. cbn [bind]. set (now := clk s + Z.min (res s) mw * 1000000000 + late1 i) in *.
    destruct HQi as (_ & _ & _ & _ & _ & _ & H7 & H8).
    destruct (pend st) as [|[x d] D] eqn:Ep; [cbn in Hlen; lia|]. inversion HD as [|? ? Hd HD']; subst. cbn in Hd.
    cbn [spec_tops spec_top spec_acts] in Es. rewrite Ep in Es. replace (d <=? now) with true in Es by (symmetry; apply Z.leb_le; unfold now; lia).
    destruct HP as (HP1 & HP2). cbn [srep] in Es. rewrite HP1 in Es. cbn [inb existsb] in Es.
    assert (Hin : In x (live st)) by (apply (ti_pend _ _ (proj1 HG)); rewrite Ep; left; reflexivity).
    assert (HP' : plain st1).
    { injection Es as <-. split; [reflexivity|]. cbn [live pend]. rewrite del_length by (auto; exact (ti_livend _ _ (proj1 HG))). rewrite HP2, Ep. cbn. lia. }
    assert (Ep1 : pend st1 = D) by (injection Es as <-; reflexivity).
    assert (Ef1 : fired (tm s1) = fired (tm s) ++ [(x, now)]).
    { rewrite (ti_fired _ _ (proj1 HG1)), (ti_fired _ _ (proj1 HG)). injection Es as <-. reflexivity. }
    destruct (IH s1 st1 HG1 HP' HQl Et1 Hmw ltac:(lia)) as (s' & st' & EE & HG' & HPf & Hp' & Hz & Hf & Htm & Hr' & more & Hm & Hml).
    { rewrite Ep1. eapply Forall_impl; [|exact HD']. cbn. intros p Hle. unfold now in Ec. lia. }
    { rewrite Ep1. cbn in Hlen. lia. }
    exists s', st'. split; [exact EE|]. split; [exact HG'|]. split; [exact HPf|]. split; [rewrite Hp', Ep1; reflexivity|].
    split. { intros _. destruct l as [|j l']; [|apply Hz; discriminate]. cbn in EE. injection EE as <-. auto. }
    split. { rewrite Hf, Ep1, Ef1, map_app, <- app_assoc. reflexivity. }
    split.
    { intros [|n] Hn.
      - exists x, now. split; [|unfold now; lia]. rewrite Hm, Ef1, <- app_assoc, Nat.add_0_r. rewrite nth_error_app2, Nat.sub_diag by lia. reflexivity.
      - destruct (Htm n ltac:(cbn in Hn; lia)) as (y & t & Hy & Hle). exists y, t. rewrite Ef1, app_length in Hy. cbn [length] in Hy.
        replace (length (fired (tm s)) + S n)%nat with (length (fired (tm s)) + 1 + n)%nat by lia. split; [exact Hy|]. rewrite Er in Hle. unfold now in Ec. lia. }
    split; [congruence|]. exists ((x, now) :: more). rewrite Hm, Ef1, <- app_assoc. cbn. auto.
Qed.

Lemma news : forall reqs st, plain st -> Forall (fun q => 0 <= fst q /\ 0 <= snd q <= 2147 /\ fst q + snd q * 1000000 < 2 ^ 64) reqs ->
  exists st', spec_acts st (map (fun q => TNew (fst q) (snd q)) reqs) = Some st' /\ plain st' /\
    length (pend st') = (length reqs + length (pend st))%nat /\ sfired st' = sfired st /\
    forall p, In p (pend st') -> In p (pend st) \/ exists q, In q reqs /\ snd p = fst q + snd q * 1000000.
Proof.
  induction reqs as [|[c ms] reqs IH]; intros st HP HF; [exists st; cbn; auto 6|]. inversion HF as [|? ? (H1 & H2 & H3) HF']; subst. cbn in H1, H2, H3.
  cbn [map spec_acts spec_act fst snd]. unfold short_delay. replace (-2147 <=? ms) with true by (symmetry; apply Z.leb_le; lia).
  replace (ms <=? 2147) with true by (symmetry; apply Z.leb_le; lia). cbn [andb].
  match goal with |- context [spec_acts ?z _] => set (st1 := z) end.
  assert (Hd : due_at c ms = c + ms * 1000000) by (unfold due_at, wrapu; apply Z.mod_small; lia).
  assert (Hl : forall x w l, length (ins x w l) = S (length l)).
  { intros x w. induction l as [|[y v] l IHl]; [reflexivity|]. cbn [ins]. destruct (v <? w); cbn [length]; [rewrite IHl; reflexivity|reflexivity]. }
  assert (Hi : forall x w l p, In p (ins x w l) -> p = (x, w) \/ In p l).
  { intros x w l p. destruct (ins_map x w l) as (a & b & -> & -> & _). rewrite !in_app_iff. cbn. intuition. }
  destruct (IH st1) as (st' & E & HP' & HL & HS & HI).
  { destruct HP as (A & B). split; [exact A|]. unfold st1. cbn [live pend length]. rewrite Hl. lia. }
  { exact HF'. }
  exists st'. split; [exact E|]. split; [exact HP'|]. split; [rewrite HL; unfold st1; cbn [pend]; rewrite Hl; cbn; lia|]. split; [exact HS|].
  intros p Hp. destruct (HI p Hp) as [Hp1|(q & Hq & Hqe)].
  - unfold st1 in Hp1. cbn [pend] in Hp1. destruct (Hi _ _ _ _ Hp1) as [->|Hp2]; [|left; exact Hp2].
    right. exists (c, ms). split; [left; reflexivity|]. cbn. exact Hd.
  - right. exists q. split; [right; exact Hq|exact Hqe].
Qed.

(* a loop with [reqs] one-shot timers, all due *)
Lemma timers_only : forall nx pv a0 r0 reqs mw l s, Forall (fun q => 0 <= fst q /\ 0 <= snd q <= 2147 /\ fst q + snd q * 1000000 < 2 ^ 64 /\
    fst q + snd q * 1000000 <= clk s) reqs ->
  do_acts (timers_init nx pv a0 r0) (map (fun q => TNew (fst q) (snd q)) reqs) = Ok (tm s) ->
  tasks s = 0 -> descs s = 0 -> sigs s = 0 -> 0 <= mw <= 2147483 -> 0 <= res s -> Forall quiet l -> (length l <= length reqs)%nat ->
  exists s', passes mw l s = Ok (Some s') /\ length (fired (tm s')) = length l /\ NoDup (map fst (fired (tm s'))) /\
    (forall i, early i = None -> once_ret i s' = Z.of_nat (length reqs - length l)) /\ is_running s' = (length l <? length reqs)%nat /\
    forall n, (n < length l)%nat -> exists x t, nth_error (fired (tm s')) n = Some (x, t) /\
       clk s + Z.of_nat (S n) * (Z.min (res s) mw * 1000000000) <= t.
Proof.
  intros nx pv a0 r0 reqs mw l s HF E Ht Hde Hsg Hmw Hres HQ Hlen.
  destruct (news reqs tspec0) as (st & Es & HP & HL & HS & HI).
  { split; reflexivity. }
  { eapply Forall_impl; [|exact HF]. cbn. tauto. }
  assert (HG : Good s st).
  { apply made_good. exists nx, pv, a0, r0, (map TAct (map (fun q => TNew (fst q) (snd q)) reqs)). rewrite spec_tops_acts, do_tops_acts. auto. }
  cbn in HL. rewrite Nat.add_0_r in HL.
  assert (Hf0 : fired (tm s) = []) by (rewrite (ti_fired _ _ (proj1 HG)), HS; reflexivity).
  destruct (quiet_run mw l s st HG HP HQ Ht Hmw Hres) as (s' & st' & EE & HG' & HP' & Hp' & Hz & Hf & Htm & _ & more & Hm & Hml).
  { apply Forall_forall. intros p Hp. destruct (HI p Hp) as [[]|(q & Hq & ->)]. rewrite Forall_forall in HF. destruct (HF q Hq) as (_ & _ & _ & H). exact H. }
  { lia. }
  rewrite Hf0 in *. cbn [app map length Nat.add] in *.
  exists s'. split; [exact EE|]. split; [rewrite Hm; exact Hml|].
  assert (Hact : active (tm s') = Z.of_nat (length reqs - length l)).
  { rewrite (ti_active _ _ (proj1 HG')). destruct HP' as (_ & ->). rewrite Hp', skipn_length, HL. reflexivity. }
  assert (Hz' : tasks s' = 0 /\ descs s' = 0 /\ sigs s' = 0) by (destruct l; [cbn in EE; injection EE as <-; auto|apply Hz; discriminate]).
  destruct Hz' as (Z1 & Z2 & Z3). split.
  { rewrite Hf. destruct HG as (_ & _ & HSI). pose proof (rep_nodup _ _ (ti_rep _ _ (proj1 (made_good s st ltac:(exists nx, pv, a0, r0, (map TAct (map (fun q => TNew (fst q) (snd q)) reqs)); rewrite spec_tops_acts, do_tops_acts; auto))))) as HN.
    rewrite <- (firstn_skipn (length l) (pend st)), map_app in HN. clear - HN. induction (map fst (firstn (length l) (pend st))) as [|y r IH]; [constructor|].
    cbn in HN. inversion HN; subst. constructor; [rewrite in_app_iff in *; tauto|auto]. }
  split. { intros i Hi. unfold once_ret. rewrite Hi, Z2, Hact. lia. }
  split. { unfold is_running. rewrite Z1, Z2, Z3, Hact. destruct (Nat.ltb_spec (length l) (length reqs)); destruct (Z.ltb_spec 0 (Z.of_nat (length reqs - length l))); try lia; reflexivity. }
  exact Htm.
Qed.

(* a pending timer keeps the loop running *)
Lemma pending_runs : forall s st, made s st -> pend st <> [] -> is_running s = true /\ (forall i, broken i = false -> 0 <= descs s -> 1 <= once_ret i s).
Proof.
  intros s st HM Hp. apply made_good in HM. destruct HM as (HT & _ & _).
  assert (1 <= active (tm s)).
  { rewrite (ti_active _ _ HT). destruct (pend st) as [|p r] eqn:E; [congruence|]. pose proof (ti_pend _ _ HT (fst p)) as H. rewrite E in H. specialize (H (or_introl eq_refl)).
    destruct (live st); [contradiction|cbn; lia]. }
  split.
  - unfold is_running. replace (0 <? active (tm s)) with true by (symmetry; apply Z.ltb_lt; lia). rewrite orb_true_r. reflexivity.
  - intros i Hb Hd. unfold once_ret. rewrite Hb. destruct (early i); lia.
Qed.

(* a wait without an end *)
Lemma never_returns : forall mw i s, -2147483 <= mw < 0 -> 0 <= res s -> tasks s = 0 -> early i = None -> pass mw i s = Ok None.
Proof.
  intros mw i s H Hr Ht He. unfold pass. rewrite Ht, He. cbn [Z.eqb]. unfold wait_ms. destruct (Z.ltb_spec (res s) mw); [lia|].
  replace (- 2 ^ 31 <=? mw * 1000) with true by (symmetry; apply Z.leb_le; lia).
  replace (mw * 1000 <? 2 ^ 31) with true by (symmetry; apply Z.ltb_lt; lia). cbn [andb bind]. unfold slept.
  destruct (Z.ltb_spec (mw * 1000) 0); [reflexivity|lia].
Qed.

(* passes that a signal ends: nothing is done *)
Lemma interrupted : forall mw l s s', Forall (fun i => (exists z, early i = Some z) /\ broken i = true) l ->
  passes mw l s = Ok (Some s') -> tm s' = tm s /\ tasks s' = tasks s /\ forall i, In i l -> once_ret i s' = -1.
Proof.
  intros mw. induction l as [|i l IH]; intros s s' HF E.
  - cbn in E. injection E as <-. split; [reflexivity|]. split; [reflexivity|]. intros i [].
  - inversion HF as [|? ? ((z & Hz) & Hb) HF']; subst. cbn [passes] in E. unfold pass in E. rewrite Hz, Hb in E.
    destruct (wait_ms _) as [ms| | |]; cbn [bind] in E; try discriminate. destruct (slept ms (Some z)); [|discriminate]. cbn [bind] in E.
    destruct (IH _ _ HF' E) as (A & B & C). split; [exact A|]. split; [exact B|]. intros j [<-|Hj]; [|apply C; exact Hj]. unfold once_ret. rewrite Hz, Hb. reflexivity.
Qed.

Lemma interrupted_runs : forall mw l s, -2147483 <= mw <= 2147483 -> 0 <= res s ->
  Forall (fun i => (exists z, early i = Some z) /\ broken i = true) l -> exists s', passes mw l s = Ok (Some s').
Proof.
  intros mw. induction l as [|i l IH]; intros s Hm Hr HF; [exists s; reflexivity|]. inversion HF as [|? ? ((z & Hz) & Hb) HF']; subst.
  cbn [passes]. unfold pass. rewrite Hz, Hb. set (w := if tasks s =? 0 then if res s <? mw then res s else mw else 0).
  assert (Hw : -2147483 <= w <= 2147483) by (unfold w; destruct (tasks s =? 0); [destruct (Z.ltb_spec (res s) mw); lia|lia]).
  unfold wait_ms. replace (- 2 ^ 31 <=? w * 1000) with true by (symmetry; apply Z.leb_le; lia).
  replace (w * 1000 <? 2 ^ 31) with true by (symmetry; apply Z.ltb_lt; lia). cbn [andb bind]. unfold slept.
  destruct (w * 1000 <? 0); cbn [bind]; apply IH; auto.
Qed.

(* with a task about, the pass does not wait at all *)
Lemma tasks_no_wait : forall mw i s s1, tasks s <> 0 -> (match early i with Some z => 0 <= z | None => True end) -> broken i = false ->
  pass mw i s = Ok (Some s1) -> clk s1 = clk s + late1 i + late2 i.
Proof.
  intros mw i s s1 Ht He Hb E. rewrite pass_ops in E by exact Hb. destruct (Z.eqb_spec (tasks s) 0); [contradiction|]. cbn in E.
  destruct (do_tops _ _) as [t| | |] in E; cbn [bind] in E; try discriminate. injection E as <-. cbn [clk]. destruct (early i); lia.
Qed.
