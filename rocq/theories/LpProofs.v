(* One timer fires in a pass: which, and when. *)
From Verif Require Import Base DllModel DllProofs TimersModel TimersProofs LpModel.
Local Open Scope Z_scope.

(* what callbacks may do: the rules of C21, clocks that do not run backwards, delays that are not negative *)
Definition act_at (c : Z) (a : tact) : Prop :=
  match a with TNew k ms | TRepeat _ k ms => c <= k /\ 0 <= ms /\ k + ms * 1000000 < 2 ^ 64 | TClear _ => True end.
Definition acts_at (c : Z) (i : input) : Prop := Forall (act_at c) (dacts i) /\ Forall (act_at c) (acts i) /\ Forall (act_at c) (tacts i).

Lemma ins_after : forall x w D R, Forall (fun p => snd p < w) D -> ins x w (D ++ R) = D ++ ins x w R.
Proof.
  intros x w. induction D as [|[y v] D IH]; intros R H; [reflexivity|]. inversion H as [|? ? Hv HD]; subst. cbn [app ins]. cbn in Hv.
  replace (v <? w) with true by (symmetry; apply Z.ltb_lt; exact Hv). rewrite IH by exact HD. reflexivity.
Qed.

Lemma spec_act_behind : forall c a st st' D R, 0 <= c -> act_at c a -> spec_act st a = Some st' -> pend st = D ++ R ->
  Forall (fun p => snd p < c) D -> exists R', pend st' = D ++ R' /\ sfired st' = sfired st.
Proof.
  intros c a st st' D R Hc Ha Hs Hp HD.
  assert (G : forall k ms x, act_at c (TNew k ms) -> ins x (due_at k ms) (D ++ R) = D ++ ins x (due_at k ms) R).
  { intros k ms x (H1 & H2 & H3). apply ins_after. eapply Forall_impl; [|exact HD]. intros p Hlt. cbn in Hlt.
    unfold due_at, wrapu. rewrite Z.mod_small by (change (2 ^ 64) with 18446744073709551616 in *; lia). lia. }
  destruct a as [k ms|x k ms|x]; cbn [spec_act] in Hs.
  - destruct (short_delay ms); [|discriminate]. injection Hs as <-. cbn [pend sfired]. rewrite Hp, G by exact Ha. eauto.
  - destruct (_ && _ && _)%bool; [|discriminate]. injection Hs as <-. cbn [pend sfired]. rewrite Hp, G by exact Ha. eauto.
  - destruct (_ && _)%bool; [|discriminate]. injection Hs as <-. cbn [pend sfired]. eauto.
Qed.

Lemma spec_acts_behind : forall c l st st' D R, 0 <= c -> Forall (act_at c) l -> spec_acts st l = Some st' -> pend st = D ++ R ->
  Forall (fun p => snd p < c) D -> exists R', pend st' = D ++ R' /\ sfired st' = sfired st.
Proof.
  intros c. induction l as [|a l IH]; intros st st' D R Hc Hl Hs Hp HD; cbn [spec_acts] in Hs; [injection Hs as <-; eauto|].
  inversion Hl as [|? ? Ha Hl']; subst. destruct (spec_act st a) as [st1|] eqn:E; [|discriminate].
  destruct (spec_act_behind _ _ _ _ _ _ Hc Ha E Hp HD) as (R1 & P1 & F1).
  destruct (IH _ _ _ _ Hc Hl' Hs P1 HD) as (R2 & P2 & F2). exists R2. split; [exact P2|congruence].
Qed.

(* the operations of a pass on timers, as TimersModel counts them *)
Definition ops_of (now : Z) (i : input) : list top :=
  map TAct (match early i with Some _ => dacts i | None => [] end) ++ TIter now (acts i) :: map TAct (if tasks1 i =? 0 then [] else tacts i).

Lemma do_tops_app : forall l1 l2 s, do_tops s (l1 ++ l2) = do s1 <- do_tops s l1; do_tops s1 l2.
Proof. induction l1 as [|o r IH]; intros l2 s; cbn [app do_tops]; [reflexivity|]. destruct (do_top s o); cbn [bind]; auto. Qed.
Lemma do_tops_acts : forall l s, do_tops s (map TAct l) = do_acts s l.
Proof. induction l as [|a l IH]; intros s; [reflexivity|]. cbn [map do_tops do_acts do_top]. destruct (do_act s a); cbn [bind]; auto. Qed.
Lemma spec_tops_app : forall l1 l2 st, spec_tops st (l1 ++ l2) = match spec_tops st l1 with Some st1 => spec_tops st1 l2 | None => None end.
Proof. induction l1 as [|o r IH]; intros l2 st; cbn [app spec_tops]; [reflexivity|]. destruct (spec_top st o); auto. Qed.
Lemma spec_tops_acts : forall l st, spec_tops st (map TAct l) = spec_acts st l.
Proof. induction l as [|a l IH]; intros st; [reflexivity|]. cbn [map spec_tops spec_acts spec_top]. destruct (spec_act st a); auto. Qed.

Lemma pass_ops : forall mw i s, broken i = false -> pass mw i s =
  (do ms <- wait_ms (if tasks s =? 0 then if res s <? mw then res s else mw else 0);
   match slept ms (early i) with
   | None => Ok None
   | Some z => do t <- do_tops (tm s) (ops_of (clk s + z + late1 i) i);
               Ok (Some (mkLoop t (clk s + z + late1 i + late2 i) (res s) (tasks2 i) (descs2 i) (sigs2 i)))
   end).
Proof.
  intros mw i s Hb. unfold pass. rewrite Hb. destruct (wait_ms _) as [ms| | |]; cbn [bind]; try reflexivity.
  destruct (slept ms (early i)) as [z|]; [|reflexivity]. replace (match early i with Some _ => false | None => false end) with false by (destruct (early i); reflexivity). unfold ops_of. rewrite do_tops_app, do_tops_acts.
  destruct (do_acts (tm s) _) as [t1| | |]; cbn [bind]; try reflexivity. cbn [do_tops do_top].
  destruct (iterate t1 _ _) as [t2| | |]; cbn [bind]; try reflexivity. rewrite do_tops_acts. reflexivity.
Qed.

Lemma ops_fire : forall c now i st st' x d D R, 0 <= c -> c <= now -> acts_at c i -> spec_tops st (ops_of now i) = Some st' ->
  pend st = ((x, d) :: D) ++ R -> Forall (fun p => snd p < c) ((x, d) :: D) ->
  exists R', pend st' = D ++ R' /\ sfired st' = sfired st ++ [(x, now)].
Proof.
  intros c now i st st' x d D R Hc Hn (H1 & H2 & H3) Hs Hp HD. unfold ops_of in Hs. rewrite spec_tops_app, spec_tops_acts in Hs.
  assert (H1' : Forall (act_at c) match early i with Some _ => dacts i | None => [] end) by (destruct (early i); auto).
  assert (H3' : Forall (act_at c) (if tasks1 i =? 0 then [] else tacts i)) by (destruct (tasks1 i =? 0); auto).
  destruct (spec_acts st _) as [st1|] eqn:E1; [|discriminate].
  destruct (spec_acts_behind _ _ _ _ _ _ Hc H1' E1 Hp HD) as (R1 & P1 & F1).
  cbn [spec_tops spec_top] in Hs. rewrite P1 in Hs. cbn [app] in Hs.
  inversion HD as [|? ? Hd HD']; subst. cbn in Hd. replace (d <=? now) with true in Hs by (symmetry; apply Z.leb_le; lia).
  match type of Hs with context [spec_acts ?z _] => set (st2 := z) in Hs end.
  destruct (spec_acts st2 (acts i)) as [st3|] eqn:E3; [|discriminate].
  assert (P2 : pend st2 = D ++ R1) by reflexivity.
  destruct (spec_acts_behind _ _ _ _ _ _ Hc H2 E3 P2 HD') as (R3 & P3 & F3).
  rewrite spec_tops_acts in Hs.
  match type of Hs with spec_acts ?z _ = _ => set (st4 := z) in Hs end.
  assert (P4 : pend st4 = D ++ R3) by exact P3.
  destruct (spec_acts_behind _ _ _ _ _ _ Hc H3' Hs P4 HD') as (R5 & P5 & F5).
  exists R5. split; [exact P5|]. rewrite F5. unfold st4. cbn [sfired]. rewrite F3. unfold st2. cbn [sfired]. rewrite F1. reflexivity.
Qed.

(* -- a loop whose timers obey the rules -- *)
Definition Good (s : loop) (st : tspec) : Prop := TInv (tm s) st /\ running st = None /\ SpecInv st.

(* the program of a list of passes obeys the rules of C21 *)
Fixpoint obeys (mw : Z) (l : list input) (s : loop) (st : tspec) : Prop :=
  match l with
  | [] => True
  | i :: r => broken i = false /\ acts_at (clk s) i /\ 0 <= late1 i /\ 0 <= late2 i /\ (match early i with Some z => 0 <= z | None => True end) /\
    forall ms z, wait_ms (if tasks s =? 0 then if res s <? mw then res s else mw else 0) = Ok ms -> slept ms (early i) = Some z ->
      exists st1, spec_tops st (ops_of (clk s + z + late1 i) i) = Some st1 /\
        forall s1, pass mw i s = Ok (Some s1) -> obeys mw r s1 st1
  end.

Lemma slept_nonneg : forall ms e z, slept ms e = Some z -> (match e with Some y => 0 <= y | None => True end) -> 0 <= z.
Proof.
  intros ms e z H He. unfold slept in H. destruct (Z.ltb_spec ms 0); [subst e; exact He|]. injection H as <-. destruct e; lia.
Qed.

Lemma pass_good : forall mw i s st, Good s st -> obeys mw [i] s st -> -2147483 <= mw <= 2147483 -> 0 <= res s ->
  (exists z st1 s1, pass mw i s = Ok (Some s1) /\ Good s1 st1 /\ 0 <= z /\ spec_tops st (ops_of (clk s + z + late1 i) i) = Some st1 /\
     clk s1 = clk s + z + late1 i + late2 i /\ res s1 = res s /\
     (tasks s = 0 -> 0 <= mw -> early i = None -> z = (if res s <? mw then res s else mw) * 1000000000) /\
     (0 <= mw -> z <= (if res s <? mw then res s else mw) * 1000000000) /\ (tasks s <> 0 -> z = 0)) \/
  (pass mw i s = Ok None /\ early i = None /\ mw < 0 /\ tasks s = 0).
Proof.
  intros mw i s st (HT & HR & HS) (Hbr & Ha & Hl1 & Hl2 & He & Hspec) Hmw Hres.
  rewrite pass_ops by exact Hbr. set (w := if tasks s =? 0 then if res s <? mw then res s else mw else 0) in *.
  assert (Hw : -2147483 <= w <= 2147483).
  { unfold w. destruct (tasks s =? 0); [|lia]. destruct (Z.ltb_spec (res s) mw); lia. }
  assert (Hms : wait_ms w = Ok (w * 1000)).
  { unfold wait_ms. replace (- 2 ^ 31 <=? w * 1000) with true by (symmetry; apply Z.leb_le; lia). replace (w * 1000 <? 2 ^ 31) with true by (symmetry; apply Z.ltb_lt; lia). reflexivity. }
  rewrite Hms. cbn [bind]. destruct (slept (w * 1000) (early i)) as [z|] eqn:Ez.
  - left. destruct (Hspec _ z Hms Ez) as (st1 & E1 & _). pose proof (slept_nonneg _ _ _ Ez He) as Hz.
    destruct (tops_ok _ _ _ _ HT HR E1) as (t & Et & HT' & HR').
    pose proof (stops_inv _ _ _ HS HR E1) as HS'. rewrite Et. cbn [bind].
    exists z, st1. eexists. split; [reflexivity|]. split; [split; [exact HT'|split; [exact HR'|exact HS']]|]. split; [exact Hz|]. split; [exact E1|].
    split; [reflexivity|]. split; [reflexivity|]. unfold slept in Ez. split; [|split].
    + intros H0 Hm H1. rewrite H1 in Ez. unfold w in Ez. rewrite H0 in Ez. cbn [Z.eqb] in Ez.
      destruct (Z.ltb_spec (res s) mw) as [Hlt|Hge].
      * destruct (Z.ltb_spec (res s * 1000) 0); [lia|]. injection Ez as <-. lia.
      * destruct (Z.ltb_spec (mw * 1000) 0); [lia|]. injection Ez as <-. lia.
    + intros Hm. assert (0 <= w <= if res s <? mw then res s else mw) by (unfold w; destruct (tasks s =? 0), (Z.ltb_spec (res s) mw); lia).
      destruct (Z.ltb_spec (w * 1000) 0); [lia|]. injection Ez as <-. destruct (early i); lia.
    + intros Ht. unfold w in Ez. destruct (Z.eqb_spec (tasks s) 0); [contradiction|]. cbn in Ez. injection Ez as <-. destruct (early i); lia.
  - right. unfold slept in Ez. destruct (Z.ltb_spec (w * 1000) 0); [|discriminate]. split; [reflexivity|]. split; [exact Ez|].
    unfold w in *. destruct (Z.eqb_spec (tasks s) 0); [|lia]. split; [|assumption]. destruct (Z.ltb_spec (res s) mw); lia.
Qed.

(* in each pass the first of the overdue timers fires, and nothing that callbacks start comes before the others *)
Lemma overdue : forall mw l s st D R, Good s st -> obeys mw l s st -> -2147483 <= mw <= 2147483 -> 0 <= res s -> 0 <= clk s ->
  pend st = D ++ R -> Forall (fun p => snd p < clk s) D -> (length l <= length D)%nat ->
  (exists s' st' times R', passes mw l s = Ok (Some s') /\ Good s' st' /\ length times = length l /\
     fired (tm s') = fired (tm s) ++ combine (map fst (firstn (length l) D)) times /\ pend st' = skipn (length l) D ++ R' /\
     (forall n t, nth_error times n = Some t -> clk s <= t <= clk s') /\ clk s <= clk s' /\
     (forall P, 0 <= mw -> Forall (fun i => (if res s <? mw then res s else mw) * 1000000000 + late1 i + late2 i <= P) l ->
        forall n t, nth_error times n = Some t -> t <= clk s + Z.of_nat (S n) * P) /\
     (0 <= mw -> tasks s = 0 -> Forall (fun i => early i = None /\ tasks2 i = 0) l ->
        forall n t, nth_error times n = Some t -> clk s + Z.of_nat (S n) * ((if res s <? mw then res s else mw) * 1000000000) <= t)) \/
  (passes mw l s = Ok None /\ mw < 0 /\ exists i, In i l /\ early i = None).
Proof.
  intros mw. induction l as [|i l IH]; intros s st D R HG HO Hmw Hres Hc Hp HD Hlen.
  - left. exists s, st, [], R. split; [reflexivity|]. split; [exact HG|]. split; [reflexivity|]. split; [cbn; rewrite app_nil_r; reflexivity|].
    split; [exact Hp|]. split; [intros [|n] t H; discriminate|]. split; [lia|]. split; intros; destruct n; discriminate.
  - destruct HO as (Hbr & Ha & Hl1 & Hl2 & He & Hspec). cbn [passes].
    destruct (pass_good mw i s st HG) as [(z & st1 & s1 & E1 & HG1 & Hz & E2 & Hclk & Hr & Hlow & Hup & _)|(E1 & Hn & Hneg & _)]; try assumption.
    { split; [exact Hbr|]. split; [exact Ha|]. split; [exact Hl1|]. split; [exact Hl2|]. split; [exact He|]. intros ms z A B. destruct (Hspec ms z A B) as (st1 & C & _). exists st1. cbn. auto. }
    + rewrite E1. cbn [bind].
      destruct D as [|[x d] D]; [cbn in Hlen; lia|].
      destruct (ops_fire (clk s) (clk s + z + late1 i) i st st1 x d D R Hc ltac:(lia) Ha E2 Hp HD) as (R1 & P1 & F1).
      assert (HO1 : obeys mw l s1 st1).
      { rewrite pass_ops in E1 by exact Hbr. destruct (wait_ms _) as [ms| | |] eqn:Ems; cbn [bind] in E1; try discriminate.
        destruct (slept ms (early i)) as [z'|] eqn:Esl; [|discriminate].
        destruct (Hspec ms z' eq_refl Esl) as (st1' & C1 & C2).
        assert (z' = z) as ->.
        { destruct (do_tops _ _) as [t| | |]; cbn [bind] in E1; try discriminate. injection E1 as E1. rewrite <- E1 in Hclk. cbn in Hclk. lia. }
        assert (st1' = st1) as -> by congruence. apply C2. rewrite pass_ops, Ems by exact Hbr. cbn [bind]. rewrite Esl. exact E1. }
      inversion HD as [|? ? Hd HD']; subst.
      assert (HD1 : Forall (fun p => snd p < clk s1) D) by (eapply Forall_impl; [|exact HD']; cbn; intros p Hlt; lia).
      destruct (IH s1 st1 D R1 HG1 HO1 Hmw ltac:(lia) ltac:(lia) P1 HD1 ltac:(cbn in Hlen; lia))
        as [(s' & st' & times & R' & EE & HG' & HL & HF & HP & HT & HC & HUp & HLow)|(EE & Hn & j & Hj & Hje)].
      * left. exists s', st', ((clk s + z + late1 i) :: times), R'. split; [exact EE|]. split; [exact HG'|]. split; [cbn; lia|].
        split.
        { cbn [length firstn map fst combine]. rewrite HF. rewrite (ti_fired _ _ (proj1 HG1)), F1, (ti_fired _ _ (proj1 HG)), <- app_assoc. reflexivity. }
        split; [exact HP|]. split.
        { intros [|n] t Hnt; cbn in Hnt; [injection Hnt as <-; lia|]. apply HT in Hnt. lia. }
        split; [lia|]. split.
        { intros P Hm HF2 [|n] t Hnt; cbn in Hnt; inversion HF2 as [|? ? Hb HF3]; subst.
          - injection Hnt as <-. specialize (Hup Hm). lia.
          - rewrite Hr in HUp. specialize (HUp P Hm HF3 n t Hnt). specialize (Hup Hm). lia. }
        { intros Hm Ht HF2 [|n] t Hnt; cbn in Hnt; inversion HF2 as [|? ? Hb HF3]; subst; destruct Hb as (Hb1 & Hb2).
          - injection Hnt as <-. specialize (Hlow Ht Hm Hb1). lia.
          - rewrite Hr in HLow. assert (Ht1 : tasks s1 = 0).
            { rewrite pass_ops in E1 by exact Hbr. destruct (wait_ms _) as [ms| | |]; cbn [bind] in E1; try discriminate.
              destruct (slept ms (early i)); [|discriminate]. destruct (do_tops _ _); cbn [bind] in E1; try discriminate. injection E1 as <-. exact Hb2. }
            specialize (HLow Hm Ht1 HF3 n t Hnt). specialize (Hlow Ht Hm Hb1). lia. }
      * right. split; [exact EE|]. split; [exact Hn|]. exists j. split; [right; exact Hj|exact Hje].
    + right. rewrite E1. split; [reflexivity|]. split; [exact Hneg|]. exists i. split; [left; reflexivity|exact Hn].
Qed.
