(* Runs of spans: what a thread gives back it can have again. *)
From Verif Require Import Base RunModel RunProofs RunProofs2 RunProofs3 RunProofs4 RunProofs5 RunProofs6 RunProofs7.
Local Open Scope Z_scope.

Record kc (st st' : state) : Prop := { kc_at : at_ st' = at_ st; kc_res : res st' = res st; kc_fin : fin st' = fin st; kc_th : th st' = th st }.
Lemma kc_refl st : kc st st.
Proof. constructor; reflexivity. Qed.
Lemma kc_trans a b c : kc a b -> kc b c -> kc a c.
Proof. intros [] []. constructor; congruence. Qed.
Lemma unmap_kc st s st' : unmap st s = Ok st' -> kc st st'.
Proof.
  unfold unmap. destruct (get st s) as [h| | |]; try discriminate. cbn [bind]. set (st1 := if is_master h then put st s (with_kind h KDead) else note (fill st s (h_n h) None) (EDrop (s * SPAN) (h_n h * SPAN))). assert (K1 : kc st st1) by (unfold st1; destruct (is_master h); constructor; reflexivity). clearbody st1.
  match goal with |- context [get st1 ?m] => destruct (get st1 m) as [k| | |]; try discriminate end. cbn [bind]. destruct (h_rem k - h_n h <=? 0); [destruct (h_al k =? 0)|]; intros E; injection E as <-; apply (kc_trans _ _ _ K1); constructor; reflexivity.
Qed.
Lemma sift_kc : forall l st keep x, sift st l keep = Ok x -> kc st (fst x).
Proof.
  induction l as [|s l IH]; intros st keep x E; cbn [sift] in E; [injection E as <-; apply kc_refl|]. destruct (get st s) as [h| | |]; try discriminate. cbn [bind] in E. destruct (is_master h && (h_n h <? h_rem h)); [apply (IH _ _ _ E)|]. destruct (unmap st s) as [st1| | |] eqn:U; try discriminate. cbn [bind] in E. apply (kc_trans _ _ _ (unmap_kc _ _ _ U) (IH _ _ _ E)).
Qed.
Lemma slot_kc : forall arr st pre x, slot st pre arr = Ok x -> kc st (fst (fst x)).
Proof.
  induction arr as [|s l IH]; intros st pre x E; cbn [slot] in E; [injection E as <-; apply kc_refl|]. destruct (get st s) as [h| | |]; try discriminate. cbn [bind] in E. destruct (negb (is_master h) || (h_rem h <=? h_n h)); [|apply (IH _ _ _ E)]. destruct (unmap st s) as [st1| | |] eqn:U; try discriminate. cbn [bind] in E. injection E as <-. apply (unmap_kc _ _ _ U).
Qed.
Lemma slots_kc : forall keep st pre arr x, slots st pre arr keep = Ok x -> kc st (fst (fst x)).
Proof.
  induction keep as [|k l IH]; intros st pre arr x E; cbn [slots] in E; [injection E as <-; apply kc_refl|]. destruct (slot st pre arr) as [[[st1 f] all]| | |] eqn:S1; try discriminate. cbn [bind] in E. apply slot_kc in S1. cbn [fst] in S1. destruct f as [[p q]|]; [|injection E as <-; exact S1]. apply (kc_trans _ _ _ S1 (IH _ _ _ _ E)).
Qed.
Definition keeps (n : Z) (st st' : state) : Prop := (forall p, p <> GA n -> p <> GO n -> at_ st' p = at_ st p) /\ res st' = res st /\ fin st' = fin st /\ th st' = th st.
Lemma ginsert_keeps st n l st' : ginsert st n l = Ok st' -> keeps n st st'.
Proof.
  unfold ginsert. match goal with |- context [if ?b then UB else _] => destruct b; [discriminate|] end.
  match goal with |- context [sift ?a ?b ?c] => destruct (sift a b c) as [[st1 keep]| | |] eqn:S1; try discriminate; apply sift_kc in S1 as [A1 R1 F1 H1] end. cbn [bind fst] in *.
  assert (K1 : keeps n st st1) by (split; [intros p N1 N2; rewrite A1; apply at_other, N1|split; [exact R1|split; [exact F1|exact H1]]]). destruct keep as [|x keep]; [intros E; injection E as <-; exact K1|].
  destruct (slots st1 [] (at_ st1 (GA n)) (x :: keep)) as [[[st2 arr] kp2]| | |] eqn:S2; try discriminate. cbn [bind]. apply slots_kc in S2 as [A2 R2 F2 H2]. cbn [fst] in *. intros E. injection E as <-. destruct K1 as (P1 & P2 & P3 & P4). split; [|repeat split; cbn [w_at res fin th]; congruence]. intros p N1 N2. rewrite (at_other (w_at st2 (GA n) arr)) by exact N2. rewrite at_other by exact N1. rewrite A2. apply P1; assumption.
Qed.
(* a run of k spans, or more in the reserve *)
Definition sup (st : state) (h : nat) (k : Z) : Prop := at_ st (TC h k) <> [] \/ k <= snd (res st h).
Lemma ttransfer_less n : 1 <= n <= RUNS -> ttransfer n < tlimit n.
Proof.
  intros H. unfold ttransfer, tlimit. destruct (Z.eqb_spec n 1) as [->|NE]; [lia|]. assert (A : Z.shiftr n 1 <= 32) by (rewrite Z.shiftr_div_pow2 by lia; change (2 ^ 1) with 2; apply Z.lt_succ_r, Z.div_lt_upper_bound; unfold RUNS in *; lia). lia.
Qed.
Lemma cinsert_sup st h s st' : fin st h = 0 -> cinsert st h s = Ok st' -> (fin st' = fin st /\ res st' = res st /\ th st' = th st) /\ (forall c, at_ st' (CC h c) = at_ st (CC h c)) /\ (forall k, sup st h k -> sup st' h k) /\ forall hd, mem st s = Some hd -> sup st' h (h_n hd).
Proof.
  intros F. unfold cinsert. rewrite F. cbn [negb Z.eqb]. unfold get. destruct (mem st s) as [hd|] eqn:M; [|discriminate]. cbn [bind]. set (n := h_n hd). destruct ((n <? 1) || (RUNS <? n)) eqn:NB; [discriminate|]. apply orb_false_iff in NB as (N1 & N2). apply Z.ltb_ge in N1, N2. pose proof (ttransfer_less n (conj N1 N2)) as TT.
  destruct (tcap n <=? zlen (at_ st (TC h n))); [discriminate|]. set (l := at_ st (TC h n) ++ [s]). assert (LN : l <> []) by (unfold l; destruct (at_ st (TC h n)); discriminate).
  assert (GEN : forall st1, fin st1 = fin st -> res st1 = res st -> th st1 = th st -> at_ st1 (TC h n) <> [] -> (forall p, p <> TC h n -> p <> GA n -> p <> GO n -> at_ st1 p = at_ st p) -> (fin st1 = fin st /\ res st1 = res st /\ th st1 = th st) /\ (forall c, at_ st1 (CC h c) = at_ st (CC h c)) /\ (forall k, sup st h k -> sup st1 h k) /\ forall hd0, Some hd = Some hd0 -> sup st1 h (h_n hd0)).
  { intros st1 F1 R1 H1 NE O1. split; [auto|]. split; [intros c; apply O1; discriminate|]. split; [|intros hd0 Q; injection Q as <-; left; exact NE]. intros k [S1|S1]; [|right; rewrite R1; exact S1]. left. destruct (Z.eq_dec k n) as [->|NK]; [exact NE|]. rewrite O1 by congruence. exact S1. }
  destruct (zlen l =? tlimit n); intros E.
  - apply ginsert_keeps in E as (O1 & R1 & F1 & H1). apply GEN; [exact F1|exact R1|exact H1| |].
    + rewrite O1 by discriminate. rewrite at_same. destruct l as [|x r]; [congruence|]. destruct (Z.to_nat (tlimit n - ttransfer n)) eqn:K; [exfalso; clear - TT K; lia|discriminate].
    + intros p P1 P2 P3. rewrite O1 by assumption. apply at_other, P1.
  - injection E as <-. apply GEN; try reflexivity; [rewrite at_same; exact LN|]. intros p P1 _ _. apply at_other, P1.
Qed.
Lemma adopt_sup h want k : forall l got st x, adopt_list st h want got l = Ok x -> fin st h = 0 -> sup st h k -> sup (snd x) h k /\ fin (snd x) = fin st /\ res (snd x) = res st.
Proof.
  induction l as [|s l IH]; intros got st x E F S; cbn [adopt_list] in E; [injection E as <-; auto|]. destruct (get st s) as [hd| | |]; try discriminate. cbn [bind] in E.
  assert (CI : (do st1 <- cinsert st h s; adopt_list st1 h want got l) = Ok x -> sup (snd x) h k /\ fin (snd x) = fin st /\ res (snd x) = res st).
  { intros E1. destruct (cinsert st h s) as [st1| | |] eqn:C; try discriminate. cbn [bind] in E1. destruct (cinsert_sup _ _ _ _ F C) as ((F1 & R1 & _) & _ & S1 & _). destruct (IH _ _ _ E1) as (A & B & C1); [rewrite F1; exact F|apply S1, S|]. split; [exact A|split; congruence]. }
  destruct (want && ((h_cls hd <? CLASSES) || (h_n hd =? 1))); [|apply CI, E]. destruct got; [apply CI, E|apply (IH _ _ _ E F S)].
Qed.
Lemma textract_sup st h n : match textract st h n with (Some _, _) => True | (None, st') => st' = st /\ at_ st (TC h n) = [] end.
Proof. unfold textract. destruct (rev (at_ st (TC h n))) eqn:E; [|exact I]. split; [reflexivity|]. rewrite <- (rev_involutive (at_ st (TC h n))), E. reflexivity. Qed.
Lemma levels_sup h limit k : forall fuel st n got st', levels fuel st h n limit = Ok (got, st') -> fin st h = 0 -> sup st h k -> n <= k <= limit -> got <> None.
Proof.
  induction fuel as [|fuel IH]; intros st n got st' E F S NK; [discriminate|]. cbn [levels] in E. pose proof (textract_sup st h n) as T1. destruct (textract st h n) as [[s1|] st1]; [injection E as <- <-; discriminate|]. destruct T1 as (-> & T1).
  destruct (adopt st h (n =? 1)) as [[got2 st2]| | |] eqn:A2; try discriminate. cbn [bind] in E. unfold adopt in A2. apply (adopt_sup h (n =? 1) k) in A2 as (S2 & F2 & R2); [|exact F|destruct S as [S|S]; [left; rewrite at_other by discriminate; exact S|right; exact S]]. cbn [snd w_at fin res] in *.
  destruct got2 as [s2|]; [injection E as <- <-; discriminate|]. assert (MID : exists got3 st3, (if n =? 1 then (None, st2) else textract st2 h n) = (got3, st3) /\ (got3 = None -> st3 = st2)) by (destruct (n =? 1); [exists None, st2; auto|]; pose proof (textract_sup st2 h n) as T2; destruct (textract st2 h n) as [[s3|] st3]; [exists (Some s3), st3; split; [reflexivity|discriminate]|exists None, st3; split; [reflexivity|intros _; apply T2]]).
  destruct MID as (got3 & st3 & E3 & M3). rewrite E3 in E. destruct got3 as [s3|]; [injection E as <- <-; discriminate|]. rewrite (M3 eq_refl) in E. clear E3 M3 st3.
  unfold gfetch in E. destruct (gextract st2 n (if n =? 1 then 64 else 6)) as [l st3] eqn:G3. unfold gextract in G3. injection G3 as GL G3.
  pose proof (textract_sup (w_at st3 (TC h n) l) h n) as T4. destruct (textract (w_at st3 (TC h n) l) h n) as [[s4|] st4]; [injection E as <- <-; discriminate|]. destruct T4 as (-> & T4). cbn [w_at res] in E. replace (res st3) with (res st2) in E by (rewrite <- G3; reflexivity).
  destruct (res st2 h) as [[rm rs] rk] eqn:ER. destruct (Z.leb_spec n rk) as [LE|GT]; [destruct (from_reserve _ h n) as [y| | |]; try discriminate; cbn [bind] in E; injection E as <- <-; discriminate|].
  assert (S4 : at_ st2 (TC h k) <> []) by (destruct S2 as [S2|S2]; [exact S2|]; rewrite ER in S2; cbn [snd] in S2; lia).
  destruct (Z.eq_dec k n) as [->|NE].
  - exfalso. destruct S as [S|S]; [congruence|]. rewrite <- R2, ER in S. cbn [snd] in S. lia.
  - destruct (Z.leb_spec (n + 1) limit); [|lia]. apply (IH _ _ _ _ E); [cbn [w_at fin]; rewrite <- G3; cbn [w_at fin]; rewrite F2; exact F| |lia]. left. rewrite at_other by congruence. rewrite <- G3. rewrite !at_other by discriminate. exact S4.
Qed.
Lemma take_has st t n cls h s0 : INV st -> th st t = Some h -> fits n cls -> (cls < CLASSES /\ at_ st (CC h cls) = [s0]) \/ (exists k, sup st h k /\ n <= k <= nlimit n) ->
  exists st' r lg, take st t n cls None = Ok st' /\ log st' = ETake t n (Some r) :: lg /\ (cls < CLASSES -> at_ st (CC h cls) = [s0] -> fst r = s0).
Proof.
  intros V T FI H. pose proof V as (_ & U). destruct (take_ok st t n cls None V) as (st' & r & lg & E & V' & L & _ & D); [exists h; apply (u_us _ U), T|exact FI|exact I|].
  pose proof E as E0. unfold take in E0. rewrite T in E0. destruct (extract st h n cls None) as [[got st1]| | |] eqn:EX; try discriminate. cbn [bind] in E0.
  assert (GS : exists s, got = Some s /\ (cls < CLASSES -> at_ st (CC h cls) = [s0] -> s = s0)).
  { unfold extract in EX. destruct (Z.ltb_spec cls CLASSES) as [LC|GC].
    - destruct (at_ st (CC h cls)) as [|x y] eqn:EC; [|destruct (textract st h 1) as [c st2]; injection EX as <- _; exists x; split; [reflexivity|intros _ Q; congruence]]. destruct H as [(_ & H)|(k & S & NK)]; [congruence|]. destruct (levels (Z.to_nat (nlimit n)) st h n (nlimit n)) as [[g2 st2]| | |] eqn:LV; try discriminate. cbn [bind] in EX. pose proof (levels_sup h _ k _ _ _ _ _ LV (u_fin _ U h) S NK). destruct g2 as [s2|]; [|congruence]. injection EX as <- _. exists s2. split; [reflexivity|discriminate].
    - destruct H as [(H & _)|(k & S & NK)]; [lia|]. destruct (levels (Z.to_nat (nlimit n)) st h n (nlimit n)) as [[g2 st2]| | |] eqn:LV; try discriminate. cbn [bind] in EX. pose proof (levels_sup h _ k _ _ _ _ _ LV (u_fin _ U h) S NK). destruct g2 as [s2|]; [|congruence]. injection EX as <- _. exists s2. split; [reflexivity|lia]. }
  destruct GS as (s & -> & Q). destruct (get st1 s) as [hd| | |]; try discriminate. cbn [bind] in E0. injection E0 as <-. exists (note (put st1 s (mkhdr (h_kind hd) (h_n hd) (h_off hd) (h_total hd) (h_rem hd) (h_al hd) h cls)) (ETake t n (Some (s, h_n hd)))), (s, h_n hd), (log st1). split; [exact E|]. split; [reflexivity|exact Q].
Qed.
Lemma again os st t n cls mm st1 s k lg : good state0 os -> run state0 os = Ok st -> allowed (after (log st)) (OTake t n cls mm) -> step st (OTake t n cls mm) = Ok st1 -> log st1 = ETake t n (Some (s, k)) :: lg ->
  exists st2 st3 r lg', step st1 (OGive t s) = Ok st2 /\ step st2 (OTake t n cls None) = Ok st3 /\ log st3 = ETake t n (Some r) :: lg' /\ (cls < CLASSES -> fst r = s).
Proof.
  intros G R (A1 & FI & A3) E1 L1. cbn [step] in *. destruct (take_ok st t n cls mm (run_of _ _ G R) A1 FI A3) as (st1' & r1 & lg1 & E1' & V1 & L1' & _ & D). rewrite E1 in E1'. injection E1' as <-. rewrite L1 in L1'. injection L1' as <- <-. destruct (D s k eq_refl) as (NK & h & hd & T & M & H1 & H2 & H3). clear D.
  assert (IH : In (s, k) (held (after (log st1)))) by (rewrite L1; cbn; left; reflexivity). destruct (give_ok st1 t s k V1 IH) as (st2 & E2 & V2). pose proof V1 as (_ & U1). destruct (u_th _ U1 _ _ T) as (_ & O1).
  assert (T2 : th st2 t = Some h /\ ((cls < CLASSES /\ at_ st2 (CC h cls) = [s]) \/ (~ cls < CLASSES /\ exists k, sup st2 h k /\ n <= k <= nlimit n))).
  { unfold give, get in E2. rewrite M in E2. cbn [bind] in E2. rewrite H1 in E2. set (st1' := note st1 (EFree t s)) in *. change (own st1' h) with (own st1 h) in E2. rewrite O1, Nat.eqb_refl in E2. cbn [negb] in E2. rewrite H2, H3 in E2. assert (F1 : fin st1' h = 0) by apply (u_fin _ U1). destruct (Z.ltb_spec cls CLASSES) as [LC|GC].
    - destruct (at_ st1' (CC h cls)) as [|c y]; [injection E2 as <-; split; [exact T|left; split; [exact LC|apply at_same]]|]. destruct (cinsert_sup (w_at st1' (CC h cls) [s]) h c st2 F1 E2) as ((_ & _ & T2) & C2 & _). split; [rewrite T2; exact T|]. left. split; [exact LC|]. rewrite C2. apply at_same.
    - destruct (res st1' h) as [[rm rs] rk]. destruct ((1 <? k) && (zlen (at_ st1' (TC h 1)) =? 0) && (rk =? 0)).
      + injection E2 as <-. split; [exact T|]. right. split; [lia|]. exists k. split; [|exact NK]. right. cbn [w_res res]. rewrite put_same. cbn [snd]. lia.
      + destruct (cinsert_sup _ _ _ _ F1 E2) as ((_ & _ & T2) & _ & _ & S2). split; [rewrite T2; exact T|]. right. split; [lia|]. exists k. split; [|exact NK]. rewrite <- H3. apply S2. exact M. }
  destruct T2 as (T2 & H). destruct (take_has st2 t n cls h s V2 T2 FI) as (st3 & r & lg' & E3 & L3 & Q3); [destruct H as [H|(_ & H)]; [left; exact H|right; exact H]|].
  exists st2, st3, r, lg'. split; [exact E2|]. split; [exact E3|]. split; [exact L3|]. intros LC. apply Q3; [exact LC|]. destruct H as [(_ & H)|(H & _)]; [exact H|contradiction].
Qed.
