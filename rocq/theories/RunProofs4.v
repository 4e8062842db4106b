(* Runs of spans: a run for a heap, mapping. *)
From Verif Require Import Base RunModel RunProofs RunProofs2 RunProofs3.
Local Open Scope Z_scope.

(* ---- from the caches ---- *)
Lemma rev_last {A} (l : list A) s r : rev l = s :: r -> l = rev r ++ [s].
Proof. intros E. rewrite <- (rev_involutive l), E. reflexivity. Qed.
Lemma textract_ok st rg g h n fl : BI st fl rg g -> 1 <= n <= RUNS ->
  exists got st' g', textract st h n = (got, st') /\ BI st' (optl got ++ fl) rg g' /\ fr st rg g st' rg g' [] /\
    match got with Some s => In s (at_ st (TC h n)) /\ (exists tg, g' s = Some (FL, n, tg)) | None => st' = st /\ at_ st (TC h n) = [] end /\ forall p, p <> TC h n -> at_ st' p = at_ st p.
Proof.
  intros V N1. pose proof V as [VC CP RE]. unfold textract. destruct (rev (at_ st (TC h n))) as [|s r] eqn:E.
  - exists None, st, g. split; [reflexivity|]. split; [exact V|]. split; [apply fr_refl|]. split; [|auto]. split; [reflexivity|]. rewrite <- (rev_involutive (at_ st (TC h n))), E. reflexivity.
  - apply rev_last in E. destruct (outof st rg g (TC h n) [s] fl (rev r) VC) as (g1 & V1 & F1 & M1); [rewrite E; apply Permutation_app_comm|].
    destruct (M1 s (or_introl eq_refl)) as (k & tg & GS & OK & _ & GS1). cbn in OK. assert (k = n) by lia. subst k.
    assert (F : fr st rg g (w_at st (TC h n) (rev r)) rg g1 []).
    { constructor; try reflexivity; [intros m v Q; exact Q|]. intros x p j t GX LO _. rewrite F1; [exact GX|]. intros [<-|[]]. rewrite GS in GX. injection GX as <- <- <-. discriminate. }
    exists (Some s), (w_at st (TC h n) (rev r)), g1. split; [reflexivity|]. split; [|split; [exact F|split; [split; [rewrite E; apply in_or_app; right; left; reflexivity|eauto]|intros p P; apply at_other, P]]].
    constructor; [exact V1| |apply (RES_fr _ _ _ _ _ _ _ RE F); intros x []]. constructor.
    + intros h' n' N'. destruct (place_dec (TC h' n') (TC h n)) as [Q|Q]; [|rewrite at_other by exact Q; apply CP, N']. injection Q as -> ->. rewrite at_same. pose proof (k_tc _ CP h n N1) as K. rewrite E, zlen_app in K. unfold zlen in *. cbn in *. lia.
    + intros n' N'. rewrite at_other by discriminate. apply CP, N'.
    + intros h' c. rewrite at_other by discriminate. apply CP.
Qed.
Lemma gfetch_ok st rg g h n fl : BI st fl rg g -> 1 <= n <= RUNS -> (h < nh st)%nat -> at_ st (TC h n) = [] ->
  exists got st' g', gfetch st h n = (got, st') /\ BI st' (optl got ++ fl) rg g' /\ fr st rg g st' rg g' [] /\ (forall s, got = Some s -> exists tg, g' s = Some (FL, n, tg)) /\
    (got = None -> at_ st' (TC h n) = []) /\ forall p, p <> TC h n -> p <> GA n -> p <> GO n -> at_ st' p = at_ st p.
Proof.
  intros V N1 HH EM. pose proof V as [VC CP RE]. unfold gfetch, gextract.
  set (want := if n =? 1 then 64 else 6). set (arr := at_ st (GA n)). set (o := at_ st (GO n)). set (k := Z.min want (zlen arr)). set (d := (length arr - Z.to_nat k)%nat). set (j := Z.to_nat (want - k)).
  assert (W : 0 < want <= 64 /\ want < tlimit n) by (unfold want, tlimit; pose proof (tlimit_ge n N1) as TL; unfold tlimit in TL; destruct (n =? 1); lia).
  assert (KK : 0 <= k <= want /\ k <= zlen arr) by (unfold k; pose proof (zlen_nonneg arr); lia).
  set (st1 := w_at st (GA n) (firstn d arr)). destruct (outof st rg g (GA n) (skipn d arr) fl (firstn d arr) VC) as (g1 & V1 & F1 & M1); [fold arr; rewrite <- (firstn_skipn d arr) at 1; apply Permutation_app_comm|]. fold st1 in V1.
  assert (V1' : CI (nh st1) (mem st1) (log st1) rg g1 (list_of st1 (skipn d arr ++ fl))) by exact V1.
  set (st2 := w_at st1 (GO n) (skipn j o)). destruct (outof st1 rg g1 (GO n) (firstn j o) (skipn d arr ++ fl) (skipn j o) V1') as (g2 & V2 & F2 & M2); [unfold st1; rewrite at_other by discriminate; fold o; rewrite firstn_skipn; apply Permutation_refl|]. fold st2 in V2.
  set (l := skipn d arr ++ firstn j o). set (st3 := w_at st2 (TC h n) l).
  assert (V2' : CI (nh st2) (mem st2) (log st2) rg g2 (list_of st2 (l ++ fl))).
  { apply (CI_perm _ _ _ _ _ _ _ V2). intros r. destruct (gp_dec r FL) as [->|NR]; [|rewrite (list_fl _ _ (l ++ fl)) by exact NR; apply Permutation_refl]. cbn [list_of]. unfold l. rewrite !app_assoc. apply Permutation_app_tail, Permutation_app_comm. }
  assert (E2 : at_ st2 (TC h n) = []) by (unfold st2, st1; rewrite !at_other by discriminate; exact EM).
  assert (D12 : forall x, In x (firstn j o) -> ~ In x (skipn d arr)) by (intros x I I'; destruct (M1 x I') as (? & ? & _ & _ & _ & Q); destruct (M2 x I) as (? & ? & Q' & _); congruence).
  assert (LN : forall x, In x l -> exists tg, g2 x = Some (FL, n, tg)).
  { intros x I. apply in_app_or in I as [I|I].
    - destruct (M1 x I) as (n' & tg & _ & OK & _ & Q). cbn in OK. exists tg. replace n with n' by lia. rewrite F2; [exact Q|]. intros I'. apply (D12 x I' I).
    - destruct (M2 x I) as (n' & tg & _ & OK & _ & Q). cbn in OK. exists tg. replace n with n' by lia. exact Q. }
  destruct (into st2 rg g2 (TC h n) l fl l V2') as (g3 & V3 & F3 & M3).
  { intros x I. destruct (LN x I) as (tg & Q). exists n, tg. split; [exact Q|]. cbn. unfold st2, st1. cbn. lia. }
  { rewrite E2, app_nil_r. apply Permutation_refl. }
  fold st3 in V3.
  assert (F : fr st rg g st3 rg g3 []).
  { constructor; try reflexivity; [intros m v Q; exact Q|]. intros x p j' t GX LO _. rewrite F3.
    - rewrite F2; [rewrite F1; [exact GX|]|].
      + intros I. destruct (M1 x I) as (? & ? & Q & _). rewrite GX in Q. injection Q as -> -> ->. discriminate.
      + intros I. destruct (M2 x I) as (? & ? & Q & _). rewrite F1 in Q by (apply D12; exact I). rewrite GX in Q. injection Q as -> -> ->. discriminate.
    - intros I. apply in_app_or in I as [I|I]; [destruct (M1 x I) as (? & ? & Q & _); rewrite GX in Q; injection Q as -> -> ->; discriminate|].
      destruct (M2 x I) as (? & ? & Q & _). rewrite F1 in Q by (apply D12; exact I). rewrite GX in Q. injection Q as -> -> ->. discriminate. }
  assert (LL : zlen l <= want).
  { unfold l. rewrite zlen_app. unfold zlen in *. rewrite skipn_length, firstn_length. unfold d, j. lia. }
  assert (B3 : BI st3 fl rg g3).
  { constructor; [exact V3| |apply (RES_fr _ _ _ _ _ _ _ RE F); intros x []]. constructor.
    - intros h' n' N'. unfold st3. destruct (place_dec (TC h' n') (TC h n)) as [Q|Q]; [injection Q as -> ->; rewrite at_same; lia|]. unfold st2, st1. rewrite !at_other by (exact Q || discriminate). apply CP, N'.
    - intros n' N'. unfold st3, st2. rewrite !at_other by discriminate. unfold st1. destruct (place_dec (GA n') (GA n)) as [Q|Q]; [injection Q as ->; rewrite at_same; pose proof (k_ga _ CP n N1) as K; fold arr in K; unfold zlen in *; rewrite firstn_length; lia|]. rewrite at_other by exact Q. apply CP, N'.
    - intros h' c. unfold st3, st2, st1. rewrite !at_other by discriminate. apply CP. }
  destruct (textract_ok st3 rg g3 h n fl B3 N1) as (got & st' & g' & E & B & F' & C & A). exists got, st', g'. split; [exact E|]. split; [exact B|]. split; [apply (fr_trans _ _ _ _ _ _ _ _ _ _ _ _ F F'); apply incl_refl|]. split; [|split].
  - intros s ->. apply C.
  - intros ->. destruct C as (-> & C). exact C.
  - intros p P1 P2 P3. rewrite A by exact P1. unfold st3, st2, st1. rewrite !at_other by assumption. reflexivity.
Qed.

(* what stays while a run is found *)
Record kp (st st' : state) : Prop := {
  q_nh : nh st' = nh st; q_own : own st' = own st; q_fin : fin st' = fin st; q_kids : kids st' = kids st; q_groups : groups st' = groups st;
  q_orph : orph st' = orph st; q_th : th st' = th st;
  q_held : held (after (log st')) = held (after (log st)); q_user : user (after (log st')) = user (after (log st)) }.
Lemma kp_refl st : kp st st.
Proof. constructor; reflexivity. Qed.
Lemma kp_trans a b c : kp a b -> kp b c -> kp a c.
Proof. intros [] []. constructor; congruence. Qed.
Lemma fr_kp st rg g st' rg' g' ex : fr st rg g st' rg' g' ex -> kp st st'.
Proof. intros []. constructor; assumption. Qed.

(* ---- from the reserve ---- *)
Lemma CI_cut N me lg rg g L L' h s k n tg m T al hd : CI N me lg rg g L -> g s = Some (RS h, k, tg) -> rg m = Some (T, al) -> m <= s -> s + k <= m + T -> 1 <= n <= k -> me s = Some hd ->
  L (RS h) = [s] -> L' (RS h) = (if n <? k then [s + n] else []) -> L' FL = s :: L FL -> (forall r, r <> RS h -> r <> FL -> L' r = L r) ->
  CI N (fun x => if s =? x then Some (cut_hdr m s n hd) else me x) lg rg (cut_g g h s k n tg (h_heap hd, h_cls hd)) L'.
Proof.
  intros V G R A B NK M L1 L2 L3 FR. constructor; try apply V.
  - apply (PI_cut _ _ _ _ _ _ _ _ _ _ _ _ T al _ (c_pi _ _ _ _ _ _ V)); auto.
  - assert (GN : n < k -> g (s + n) = None). { intros LT. destruct (g (s + n)) as [[[q j] t]|] eqn:E; [|reflexivity]. pose proof (p_dis _ _ _ _ _ (c_pi _ _ _ _ _ _ V) _ _ _ _ _ _ _ _ G E ltac:(lia)). lia. }
    intros s' n'. rewrite (c_held _ _ _ _ _ _ V). unfold cut_g, upd. destruct (Z.eqb_spec s s') as [<-|NS]; [split; intros (t & Q); congruence|]. destruct (Z.ltb_spec n k) as [LT|]; [|reflexivity]. destruct (Z.eqb_spec (s + n) s') as [<-|]; [|reflexivity]. rewrite GN by exact LT. split; intros (t & Q); congruence.
Qed.
Lemma res_in st fl rg g h rm rs rk : BI st fl rg g -> res st h = (rm, rs, rk) -> rk <> 0 -> exists tg T al hd, g rs = Some (RS h, rk, tg) /\ 1 <= rk <= RUNS /\ (h < nh st)%nat /\ rg rm = Some (T, al) /\ rm <= rs /\ rs + rk <= rm + T /\ mem st rs = Some hd.
Proof.
  intros [V CP RE] E NZ. destruct (RE _ _ _ _ E) as (_ & H). destruct (H NZ) as ((tg & G) & C). destruct (p_ok _ _ _ _ _ (c_pi _ _ _ _ _ _ V) _ _ _ _ G) as (K1 & K2). cbn in K2.
  destruct (p_at _ _ _ _ _ (c_pi _ _ _ _ _ _ V) _ _ _ _ G) as (m & T & al & R & A & B & _). assert (m = rm) by (apply (C m T al R); lia). subst m.
  pose proof (p_acc _ _ _ _ _ (c_pi _ _ _ _ _ _ V) _ _ _ _ G rs ltac:(lia)) as NN. destruct (mem st rs) as [hd|] eqn:M; [|congruence]. exists tg, T, al, hd. repeat (split; [auto; fail|]). repeat (split; [lia|]). auto 8.
Qed.
Lemma put_same {B} (f : nat -> B) k v : put_at Nat.eqb f k v k = v.
Proof. unfold put_at. now rewrite Nat.eqb_refl. Qed.
Lemma put_other {B} (f : nat -> B) k v x : x <> k -> put_at Nat.eqb f k v x = f x.
Proof. unfold put_at. intros N. destruct (Nat.eqb_spec k x); congruence. Qed.
Lemma mark_sub_ok st m s n hd : mem st s = Some hd -> mark_sub st m s n = Ok (put st s (cut_hdr m s n hd)).
Proof. intros M. unfold mark_sub, get. rewrite M. cbn [bind]. reflexivity. Qed.
Lemma from_reserve_ok st rg g h n fl rm rs rk : BI st fl rg g -> res st h = (rm, rs, rk) -> 1 <= n <= rk ->
  exists st' g', from_reserve st h n = Ok (rs, st') /\ BI st' (rs :: fl) rg g' /\ kp st st' /\ (exists tg, g' rs = Some (FL, n, tg)) /\ res st' h = (rm, rs + n, rk - n) /\ at_ st' = at_ st /\ forall k, k <> h -> res st' k = res st k.
Proof.
  intros V E NK. destruct (res_in _ _ _ _ _ _ _ _ V E ltac:(lia)) as (tg & T & al & hd & G & K1 & K2 & R & A & B & M). pose proof V as [VC CP RE]. unfold from_reserve. rewrite E.
  rewrite (mark_sub_ok _ _ _ _ hd) by exact M. cbn [bind]. eexists _, _. split; [reflexivity|].
  assert (RES' : forall k, k <> h -> res (put (w_res st h (rm, rs + n, rk - n)) rs (cut_hdr rm rs n hd)) k = res st k) by (intros k NE; cbn; apply put_other, NE).
  assert (RESH : res (put (w_res st h (rm, rs + n, rk - n)) rs (cut_hdr rm rs n hd)) h = (rm, rs + n, rk - n)) by (cbn; apply put_same).
  assert (GN : n < rk -> g (rs + n) = None). { intros LT. destruct (g (rs + n)) as [[[q j] t]|] eqn:Q; [|reflexivity]. pose proof (p_dis _ _ _ _ _ (c_pi _ _ _ _ _ _ VC) _ _ _ _ _ _ _ _ G Q ltac:(lia)). lia. }
  split; [constructor|].
  - apply (CI_cut _ _ _ _ _ _ _ h rs rk n tg rm T al hd VC G R A B NK M).
    + cbn [list_of]. rewrite E. destruct (Z.eqb_spec rk 0); [lia|reflexivity].
    + cbn [list_of]. rewrite RESH. destruct (Z.ltb_spec n rk), (Z.eqb_spec (rk - n) 0); try lia; reflexivity.
    + reflexivity.
    + intros r N1 N2. destruct r as [p|k| | | |]; try reflexivity; [|congruence]. cbn [list_of]. rewrite RES' by congruence. reflexivity.
  - destruct CP. constructor; assumption.
  - intros k m1 s1 k1 Q. destruct (Nat.eq_dec k h) as [->|NE].
    + rewrite RESH in Q. injection Q as <- <- <-. split; [lia|]. intros NZ. split.
      * exists tg. unfold cut_g. rewrite upd_other by lia. destruct (Z.ltb_spec n rk); [|lia]. apply upd_same.
      * intros m T' al' R' I. apply (reg_unique _ _ _ _ _ m T' al' rm T al (rs + n) (c_pi _ _ _ _ _ _ VC) R' R); lia.
    + rewrite RES' in Q by exact NE. destruct (RE _ _ _ _ Q) as (Q1 & Q2). split; [exact Q1|]. intros NZ. destruct (Q2 NZ) as ((t & G1) & Q3). split; [|exact Q3]. exists t. unfold cut_g. rewrite upd_other by congruence. destruct (Z.ltb_spec n rk); [|exact G1]. rewrite upd_other; [exact G1|]. intros ->. rewrite GN in G1 by lia. discriminate.
  - split; [constructor; reflexivity|]. split; [eexists; apply upd_same|]. split; [exact RESH|]. split; [reflexivity|exact RES'].
Qed.

(* ---- new memory ---- *)
Lemma mmap_addr a : 0 <= a -> a mod 4096 = 0 -> let pad := SPAN - a mod SPAN in let m := (a + pad) / SPAN in let al := Z.shiftr pad 3 in 0 < al <= 8192 /\ base m al = a.
Proof.
  intros A0 A1. cbn zeta. unfold base, SPAN. rewrite Z.shiftr_div_pow2 by lia. change (2 ^ 3) with 8. assert (D : a mod 65536 mod 4096 = 0).
  { assert (Q : exists q, a = 4096 * q) by (exists (a / 4096); pose proof (Z.div_mod a 4096); lia). destruct Q as (q & ->). change 65536 with (4096 * 16). rewrite Z.mul_mod_distr_l by lia. rewrite Z.mul_comm. apply Z.mod_mul. lia. }
  pose proof (Z.mod_pos_bound a 65536 ltac:(lia)) as B. pose proof (Z.div_mod a 65536 ltac:(lia)) as E. set (q := a / 65536) in *. set (r := a mod 65536) in *.
  assert (Q : exists j, r = 4096 * j) by (exists (r / 4096); pose proof (Z.div_mod r 4096); lia). destruct Q as (j & Q).
  assert (P : (65536 - r) / 8 = 8192 - 512 * j) by (rewrite Q; replace (65536 - 4096 * j) with ((8192 - 512 * j) * 8) by lia; apply Z.div_mul; lia). rewrite P.
  replace ((a + (65536 - r)) / 65536) with (q + 1) by (rewrite E; replace (65536 * q + r + (65536 - r)) with ((q + 1) * 65536) by lia; symmetry; apply Z.div_mul; lia). lia.
Qed.
Lemma CI_map N me me' lg rg g L L' m T al n p hd : CI N me lg rg g L -> honest (after lg) (Some (base m al)) (leng T) -> 1 <= n <= T -> is_rs p = false -> p <> HELD -> okp N p n (h_heap hd, h_cls hd) -> (n < T -> T - n <= RUNS) -> 0 < al <= 8192 ->
  (forall x, x < m \/ m + T <= x -> me' x = me x) -> (forall x, m <= x < m + T -> me' x <> None) -> me' m = Some hd ->
  h_kind hd = KMaster -> h_n hd = n -> h_total hd = T -> h_rem hd = T -> h_al hd = al ->
  L' p = m :: L p -> L TMP = [] -> L' TMP = (if n <? T then [m + n] else []) -> (forall r, r <> p -> r <> TMP -> L' r = L r) ->
  CI N me' (EMap (base m al) (leng T) :: lg) (radd rg m T al) (map_g g m T n p (h_heap hd, h_cls hd)) L' /\ (forall x v, g x = Some v -> x < m \/ m + T <= x) /\ (forall m1 T1 al1, rg m1 = Some (T1, al1) -> m + T <= m1 \/ m1 + T1 <= m).
Proof.
  intros V (A0 & _ & HO) NT Q NH OK TL HA ME MN MM K1 K2 K3 K4 K5 L1 L2 L3 FR.
  assert (DB : forall m1 T1 al1, rg m1 = Some (T1, al1) -> base m al + leng T <= base m1 al1 \/ base m1 al1 + leng T1 <= base m al) by (intros m1 T1 al1 R; apply HO; apply (c_krn _ _ _ _ _ _ V); eauto 6).
  assert (DJ : forall m1 T1 al1, rg m1 = Some (T1, al1) -> m + T <= m1 \/ m1 + T1 <= m).
  { intros m1 T1 al1 R. destruct (p_rg _ _ _ _ _ (c_pi _ _ _ _ _ _ V) _ _ _ R) as (_ & B1 & _). destruct (DB _ _ _ R) as [H|H]; unfold base, leng, SPAN in H; lia. }
  assert (FAR : forall x v, g x = Some v -> x < m \/ m + T <= x).
  { intros x [[r j] t] E. destruct (p_at _ _ _ _ _ (c_pi _ _ _ _ _ _ V) _ _ _ _ E) as (m1 & T1 & al1 & R1 & A1 & B1 & _). pose proof (p_ok _ _ _ _ _ (c_pi _ _ _ _ _ _ V) _ _ _ _ E). destruct (DJ _ _ _ R1); lia. }
  assert (RA : forall m1 v, radd rg m T al m1 = Some v -> m1 = m /\ v = (T, al) \/ m1 <> m /\ rg m1 = Some v) by (intros m1 v; unfold radd; destruct (Z.eqb_spec m m1); intros; [left; split; congruence|right; split; congruence]).
  split; [|split; [exact FAR|exact DJ]]. constructor.
  - apply (PI_map _ _ _ _ _ _ _ _ _ _ _ _ _ (c_pi _ _ _ _ _ _ V)); auto.
  - split; [exact I|apply (c_fair _ _ _ _ _ _ V)].
  - intros a len. cbn [after after1 mapped]. split.
    + intros [E|I]; [injection E as <- <-; exists m, T, al; unfold radd; rewrite Z.eqb_refl; auto|]. apply (c_krn _ _ _ _ _ _ V) in I as (m1 & T1 & al1 & R1 & -> & ->). exists m1, T1, al1. split; [|auto]. unfold radd. destruct (Z.eqb_spec m m1) as [<-|]; [|exact R1]. destruct (DJ _ _ _ R1); destruct (p_rg _ _ _ _ _ (c_pi _ _ _ _ _ _ V) _ _ _ R1); lia.
    + intros (m1 & T1 & al1 & R1 & -> & ->). destruct (RA _ _ R1) as [(-> & E)|(_ & R0)]; [injection E as -> ->; left; reflexivity|right; apply (c_krn _ _ _ _ _ _ V); eauto 6].
  - intros m1 T1 al1 m2 T2 al2 R1 R2 LT. destruct (RA _ _ R1) as [(-> & E1)|(N1 & R1')]; destruct (RA _ _ R2) as [(-> & E2)|(N2 & R2')]; [lia| | |apply (c_pad _ _ _ _ _ _ V _ _ _ _ _ _ R1' R2' LT)].
    + injection E1 as -> ->. destruct (DB _ _ _ R2') as [H|H]; [exact H|]. destruct (DJ _ _ _ R2'); [|destruct (p_rg _ _ _ _ _ (c_pi _ _ _ _ _ _ V) _ _ _ R2'); lia]. destruct (p_rg _ _ _ _ _ (c_pi _ _ _ _ _ _ V) _ _ _ R2') as (? & ? & _). unfold base, leng, SPAN in *. lia.
    + injection E2 as -> ->. destruct (DB _ _ _ R1') as [H|H]; [|exact H]. destruct (p_rg _ _ _ _ _ (c_pi _ _ _ _ _ _ V) _ _ _ R1') as (? & ? & _). unfold base, leng, SPAN in *. lia.
  - intros s k. cbn [after after1 held]. rewrite (c_held _ _ _ _ _ _ V). unfold map_g, upd. destruct (Z.eqb_spec m s) as [<-|NS].
    + split; intros (t & E); [destruct (FAR _ _ E); lia|congruence].
    + destruct (Z.ltb_spec n T) as [LT|]; [|reflexivity]. destruct (Z.eqb_spec (m + n) s) as [<-|]; [|reflexivity]. split; intros (t & E); [destruct (FAR _ _ E); lia|congruence].
Qed.

Lemma triple {A B C} (a x : A) (b y : B) (c z : C) : (a, b, c) = (x, y, z) -> x = a /\ y = b /\ z = c.
Proof. intros E. injection E. auto. Qed.
Definition over (L : gp -> list Z) (a b c : list Z) (h : nat) : gp -> list Z := fun r => match r with FL => a | TMP => b | RS k => if Nat.eqb h k then c else L r | _ => L r end.
Lemma span_map_ok st rg g h n fl mm : BI st fl rg g -> 1 <= n <= RUNS -> (h < nh st)%nat -> honest (after (log st)) mm (65 * SPAN) ->
  exists got st' rg' g', span_map st h n mm = Ok (got, st') /\ BI st' (optl got ++ fl) rg' g' /\ kp st st' /\ (forall s, got = Some s -> exists tg, g' s = Some (FL, n, tg)) /\ (got = None -> mm = None).
Proof.
  intros V N1 HH HO. unfold span_map. destruct (res st h) as [[rm rs] rk] eqn:ER. pose proof (b_res _ _ _ _ V _ _ _ _ ER) as RK0. destruct (Z.leb_spec n rk) as [LE|GT].
  { destruct (from_reserve_ok st rg g h n fl rm rs rk V ER ltac:(lia)) as (st' & g' & E & B & K & G & _). rewrite E. cbn [bind fst snd]. exists (Some rs), st', rg, g'. split; [reflexivity|]. split; [exact B|]. split; [exact K|]. split; [intros s Q; injection Q as <-; exact G|discriminate]. }
  destruct mm as [a|]; [|exists None, st, rg, g; split; [reflexivity|]; split; [exact V|]; split; [apply kp_refl|]; split; [discriminate|reflexivity]].
  replace (Z.max n MAPCOUNT) with 64 by (unfold MAPCOUNT, RUNS in *; lia). unfold mmap. pose proof HO as (A0 & A1 & _). destruct (mmap_addr a A0 A1) as (AL & BA). set (m := (a + (SPAN - a mod SPAN)) / SPAN) in *. set (al := Z.shiftr (SPAN - a mod SPAN) 3) in *. clearbody m al. clear A0 A1.
  change ((64 + 1) * SPAN) with (leng 64). rewrite <- BA in HO. change (65 * SPAN) with (leng 64) in HO. rewrite <- BA. clear BA a.
  unfold get. cbn [note fill w_mem mem]. replace ((m <=? m) && (m <? m + 64)) with true by (symmetry; apply andb_true_iff; split; [apply Z.leb_le|apply Z.ltb_lt]; lia). cbn [bind zero_hdr h_off h_heap h_cls].
  destruct (Z.ltb_spec n 64) as [_|]; [|unfold RUNS in *; lia].
  set (hm := mkhdr KMaster n 0 64 64 al 0 0). pose proof V as [VC CP RE].
  set (me1 := fun x => if m =? x then Some hm else if (m <=? x) && (x <? m + 64) then Some zero_hdr else mem st x).
  set (g1 := map_g g m 64 n FL (0%nat, 0)). set (rg1 := radd rg m 64 al). set (lg1 := EMap (base m al) (leng 64) :: log st).
  destruct (CI_map (nh st) (mem st) me1 (log st) rg g (list_of st fl) (over (list_of st fl) (m :: fl) [m + n] (list_of st fl (RS h)) h) m 64 al n FL hm VC HO) as (V1 & FAR & DJ); try reflexivity; try discriminate; try (unfold RUNS in *; lia).
  { cbn. unfold RUNS in *; lia. }
  { intros x X. unfold me1. destruct (Z.eqb_spec m x); [lia|]. destruct (Z.leb_spec m x), (Z.ltb_spec x (m + 64)); try lia; reflexivity. }
  { intros x X. unfold me1. destruct (m =? x); [discriminate|]. destruct (Z.leb_spec m x), (Z.ltb_spec x (m + 64)); try lia. discriminate. }
  { unfold me1. now rewrite Z.eqb_refl. }
  { destruct (Z.ltb_spec n 64); [reflexivity|unfold RUNS in *; lia]. }
  { intros r R1 R2. destruct r as [p|k| | | |]; try reflexivity; [|congruence|congruence]. cbn [over]. destruct (Nat.eqb_spec h k) as [<-|]; reflexivity. }
  fold lg1 rg1 in V1. change (map_g g m 64 n FL (h_heap hm, h_cls hm)) with g1 in V1.
  assert (GM : g1 m = Some (FL, n, (0%nat, 0))) by apply upd_same.
  assert (GT1 : g1 (m + n) = Some (TMP, 64 - n, (0%nat, 0))) by (unfold g1, map_g; rewrite upd_other by lia; destruct (Z.ltb_spec n 64); [apply upd_same|unfold RUNS in *; lia]).
  assert (GO : forall x, x < m \/ m + 64 <= x -> g1 x = g x) by (intros x X; unfold g1, map_g; unfold RUNS in *; rewrite upd_other by lia; destruct (n <? 64); [rewrite upd_other by lia|]; reflexivity).
  assert (RM : forall m1 T1 al1, rg1 m1 = Some (T1, al1) -> m <= m1 < m + 64 -> m1 = m).
  { intros m1 T1 al1 R I. unfold rg1, radd in R. destruct (Z.eqb_spec m m1) as [|NE]; [congruence|]. destruct (DJ _ _ _ R); [lia|]. destruct (p_rg _ _ _ _ _ (c_pi _ _ _ _ _ _ VC) _ _ _ R); lia. }
  assert (RIN : forall x m1 T1 al1, m <= x < m + 64 -> rg1 m1 = Some (T1, al1) -> m1 <= x < m1 + T1 -> m1 = m).
  { intros x m1 T1 al1 I R X. unfold rg1, radd in R. destruct (Z.eqb_spec m m1) as [|NE]; [congruence|]. destruct (DJ _ _ _ R); lia. }
  (* reserves of other heaps *)
  assert (ROTH : forall k m1 s1 k1, res st k = (m1, s1, k1) -> k1 <> 0 -> (s1 < m \/ m + 64 <= s1) /\ (exists tg, g s1 = Some (RS k, k1, tg)) /\ forall m2 T2 al2, rg1 m2 = Some (T2, al2) -> m2 <= s1 < m2 + T2 -> m2 = m1).
  { intros k m1 s1 k1 Q NZ. destruct (RE _ _ _ _ Q) as (_ & Q2). destruct (Q2 NZ) as ((t & G1) & Q3). split; [apply (FAR _ _ G1)|]. split; [eauto|]. intros m2 T2 al2 R I. unfold rg1, radd in R. destruct (Z.eqb_spec m m2) as [<-|NE]; [|apply (Q3 _ _ _ R I)]. injection R as <- <-. destruct (FAR _ _ G1); lia. }
  assert (N0 : forall k, k <> h -> put_at Nat.eqb (res st) h (m, m + n, 64 - n) k = res st k) by (intros k NE; apply put_other, NE).
  destruct (Z.eqb_spec rk 0) as [->|NZ].
  - cbn [bind]. set (st3 := w_res (put (note (fill st m 64 (Some zero_hdr)) (EMap (base m al) (leng 64))) m hm) h (m, m + n, 64 - n)).
    assert (B3 : BI st3 (m :: fl) rg1 (upd g1 (m + n) (Some (RS h, 64 - n, (0%nat, 0))))).
    { constructor.
      - apply (CI_move _ _ _ _ _ _ _ _ TMP (RS h) _ _ V1 GT1); try discriminate; [left; reflexivity|split; [unfold RUNS in *; lia|exact HH]| | |].
        + cbn. apply Permutation_refl.
        + cbn [over list_of]. rewrite Nat.eqb_refl, ER. change (res st3 h) with (put_at Nat.eqb (res st) h (m, m + n, 64 - n) h). rewrite put_same. destruct (Z.eqb_spec (64 - n) 0); [unfold RUNS in *; lia|]. apply Permutation_refl.
        + intros r R1 R2. destruct r as [p|k| | | |]; try reflexivity; [|congruence]. cbn [over list_of]. change (res st3 k) with (put_at Nat.eqb (res st) h (m, m + n, 64 - n) k). rewrite N0 by congruence. destruct (Nat.eqb_spec h k) as [->|]; [congruence|reflexivity].
      - destruct CP. constructor; assumption.
      - intros k m1 s1 k1 Q. change (res st3 k) with (put_at Nat.eqb (res st) h (m, m + n, 64 - n) k) in Q. destruct (Nat.eq_dec k h) as [->|NE].
        + rewrite put_same in Q. apply triple in Q as (-> & -> & ->). split; [unfold RUNS in *; lia|]. intros _. split; [exists (0%nat, 0); apply upd_same|]. intros m2 T2 al2 R I. apply (RIN (m + n) _ _ _ ltac:(unfold RUNS in *; lia) R I).
        + rewrite N0 in Q by exact NE. split; [apply (RE _ _ _ _ Q)|]. intros NZ. destruct (ROTH _ _ _ _ Q NZ) as (F1 & (t & G1) & F3). split; [|exact F3]. exists t. rewrite upd_other by (unfold RUNS in *; lia). rewrite GO by exact F1. exact G1. }
    exists (Some m), st3, rg1, (upd g1 (m + n) (Some (RS h, 64 - n, (0%nat, 0)))). split; [reflexivity|]. split; [exact B3|]. split; [constructor; reflexivity|]. split; [|discriminate]. intros s Q. injection Q as <-. exists (0%nat, 0). rewrite upd_other by lia. exact GM.
  - destruct (res_in _ _ _ _ _ _ _ _ V ER NZ) as (tg & T & alr & hd & G & K1 & _ & R & A & B & M). assert (FR : rs < m \/ m + 64 <= rs) by apply (FAR _ _ G).
    assert (R1 : rg1 rm = Some (T, alr)) by (unfold rg1, radd; destruct (Z.eqb_spec m rm) as [<-|]; [destruct (DJ _ _ _ R); destruct (p_rg _ _ _ _ _ (c_pi _ _ _ _ _ _ VC) _ _ _ R); lia|exact R]).
    assert (M1 : me1 rs = Some hd) by (unfold me1; destruct (Z.eqb_spec m rs); [lia|]; destruct (Z.leb_spec m rs), (Z.ltb_spec rs (m + 64)); try lia; exact M).
    assert (G1 : g1 rs = Some (RS h, rk, tg)) by (rewrite GO by exact FR; exact G).
    rewrite (mark_sub_ok _ _ _ _ hd) by exact M1. cbn [bind].
    match goal with |- context [cinsert ?s h rs] => set (st3 := s) end. set (g2 := cut_g g1 h rs rk rk tg (h_heap hd, h_cls hd)).
    assert (V2 : CI (nh st) (fun x => if rs =? x then Some (cut_hdr rm rs rk hd) else me1 x) lg1 rg1 g2 (over (list_of st fl) (rs :: m :: fl) [m + n] [] h)).
    { apply (CI_cut _ _ _ _ _ _ _ h rs rk rk tg rm T alr hd V1 G1 R1 A B ltac:(lia) M1).
      - cbn [over list_of]. rewrite Nat.eqb_refl, ER. destruct (Z.eqb_spec rk 0); [lia|reflexivity].
      - cbn [over]. rewrite Nat.eqb_refl, Z.ltb_irrefl. reflexivity.
      - reflexivity.
      - intros r Q1 Q2. destruct r as [p|k| | | |]; try reflexivity; [|congruence]. cbn [over]. destruct (Nat.eqb_spec h k) as [->|]; [congruence|reflexivity]. }
    assert (G2 : forall x, x <> rs -> g2 x = g1 x) by (intros x X; unfold g2, cut_g; rewrite upd_other by exact X; rewrite Z.ltb_irrefl; reflexivity).
    assert (NT : m + n <> rs) by (unfold RUNS in *; lia).
    assert (B3 : BI st3 (rs :: m :: fl) rg1 (upd g2 (m + n) (Some (RS h, 64 - n, (0%nat, 0))))).
    { constructor.
      - assert (GT2 : g2 (m + n) = Some (TMP, 64 - n, (0%nat, 0))) by (rewrite G2 by exact NT; exact GT1). apply (CI_move _ _ _ _ _ _ _ _ TMP (RS h) _ _ V2 GT2); try discriminate; [left; reflexivity|split; [unfold RUNS in *; lia|exact HH]| | |].
        + cbn. apply Permutation_refl.
        + cbn [over list_of]. rewrite Nat.eqb_refl. change (res st3 h) with (put_at Nat.eqb (res st) h (m, m + n, 64 - n) h). rewrite put_same. destruct (Z.eqb_spec (64 - n) 0); [unfold RUNS in *; lia|]. apply Permutation_refl.
        + intros r Q1 Q2. destruct r as [p|k| | | |]; try reflexivity; [|congruence]. cbn [over list_of]. change (res st3 k) with (put_at Nat.eqb (res st) h (m, m + n, 64 - n) k). rewrite N0 by congruence. destruct (Nat.eqb_spec h k) as [->|]; [congruence|reflexivity].
      - destruct CP. constructor; assumption.
      - intros k m1 s1 k1 Q. change (res st3 k) with (put_at Nat.eqb (res st) h (m, m + n, 64 - n) k) in Q. destruct (Nat.eq_dec k h) as [->|NE].
        + rewrite put_same in Q. apply triple in Q as (-> & -> & ->). split; [unfold RUNS in *; lia|]. intros _. split; [exists (0%nat, 0); apply upd_same|]. intros m2 T2 al2 R' I. apply (RIN (m + n) _ _ _ ltac:(unfold RUNS in *; lia) R' I).
        + rewrite N0 in Q by exact NE. split; [apply (RE _ _ _ _ Q)|]. intros NZ'. destruct (ROTH _ _ _ _ Q NZ') as (F1 & (t & GX) & F3). split; [|exact F3]. exists t. rewrite upd_other by (unfold RUNS in *; lia). rewrite G2 by congruence. rewrite GO by exact F1. exact GX. }
    destruct (cinsert_ok st3 rg1 _ h rs (m :: fl) B3 HH) as (st4 & rg4 & g4 & E4 & B4 & F4 & _). rewrite E4. cbn [bind].
    exists (Some m), st4, rg4, g4. split; [reflexivity|]. split; [exact B4|]. split; [apply (kp_trans st st3 st4); [constructor; reflexivity|apply (fr_kp _ _ _ _ _ _ _ F4)]|]. split; [|discriminate].
    intros s Q. injection Q as <-. exists (0%nat, 0). apply (r_st _ _ _ _ _ _ _ F4 _ FL); [|reflexivity|intros [Q|[]]; unfold RUNS in *; lia]. rewrite upd_other by lia. rewrite G2 by (unfold RUNS in *; lia). exact GM.
Qed.

Lemma levels_ok h limit fl : forall fuel st rg g n, BI st fl rg g -> 1 <= n <= limit -> limit <= RUNS -> (h < nh st)%nat -> limit - n < Z.of_nat fuel ->
  exists got st' rg' g', levels fuel st h n limit = Ok (got, st') /\ BI st' (optl got ++ fl) rg' g' /\ kp st st' /\ shrinks rg rg' /\ (forall s, got = Some s -> exists k tg, g' s = Some (FL, k, tg) /\ n <= k <= limit).
Proof.
  assert (SR : forall r, shrinks r r) by (intros r m v Q; exact Q). induction fuel as [|fuel IH]; intros st rg g n V NL LR HH FU; [lia|]. cbn [levels].
  destruct (textract_ok st rg g h n fl V ltac:(lia)) as (got1 & st1 & g1 & E1 & B1 & F1 & C1 & A1). rewrite E1. destruct got1 as [s1|].
  { exists (Some s1), st1, rg, g1. split; [reflexivity|]. split; [exact B1|]. split; [apply (fr_kp _ _ _ _ _ _ _ F1)|]. split; [apply SR|]. intros s Q. injection Q as <-. destruct C1 as (_ & tg & C1). exists n, tg. split; [exact C1|lia]. }
  destruct C1 as (-> & EM). cbn [optl app] in B1. clear V. rename B1 into V. destruct (adopt_ok st rg g1 h (n =? 1) fl V HH) as (got2 & st2 & rg2 & g2 & E2 & B2 & F2 & C2 & D2 & M2 & _ & A2). rewrite E2. cbn [bind].
  assert (HH2 : (h < nh st2)%nat) by (rewrite (r_nh _ _ _ _ _ _ _ F2); exact HH). assert (S2 : shrinks rg rg2) by apply (r_shr _ _ _ _ _ _ _ F2). assert (K2 : kp st st2) by apply (fr_kp _ _ _ _ _ _ _ F2).
  destruct got2 as [s2|].
  { exists (Some s2), st2, rg2, g2. split; [reflexivity|]. split; [exact B2|]. split; [exact K2|]. split; [exact S2|]. intros s Q. injection Q as <-. destruct (D2 s2 eq_refl) as (tg & Q). destruct (Z.eqb_spec n 1) as [->|NE]; [exists 1, tg; split; [exact Q|lia]|]. specialize (C2 eq_refl). discriminate. }
  cbn [optl app] in B2.
  assert (MID : exists got3 st3 g3, (if n =? 1 then (None, st2) else textract st2 h n) = (got3, st3) /\ BI st3 (optl got3 ++ fl) rg2 g3 /\ kp st st3 /\ (forall s, got3 = Some s -> exists tg, g3 s = Some (FL, n, tg)) /\ (got3 = None -> at_ st3 (TC h n) = [])).
  { destruct (Z.eqb_spec n 1) as [->|NE].
    - exists None, st2, g2. split; [reflexivity|]. split; [exact B2|]. split; [exact K2|]. split; [discriminate|]. intros _. rewrite M2 by reflexivity. exact EM.
    - destruct (textract_ok st2 rg2 g2 h n fl B2 ltac:(lia)) as (got3 & st3 & g3 & E3 & B3 & F3 & C3 & A3). exists got3, st3, g3. split; [exact E3|]. split; [exact B3|]. split; [apply (kp_trans _ _ _ K2), (fr_kp _ _ _ _ _ _ _ F3)|]. split; [intros s ->; apply C3|intros ->; destruct C3 as (-> & C3); exact C3]. }
  destruct MID as (got3 & st3 & g3 & E3 & B3 & K3 & D3 & M3). rewrite E3. destruct got3 as [s3|].
  { exists (Some s3), st3, rg2, g3. split; [reflexivity|]. split; [exact B3|]. split; [exact K3|]. split; [exact S2|]. intros s Q. injection Q as <-. destruct (D3 s3 eq_refl) as (tg & Q). exists n, tg. split; [exact Q|lia]. }
  cbn [optl app] in B3. assert (HH3 : (h < nh st3)%nat) by (rewrite (q_nh _ _ K3); exact HH).
  destruct (gfetch_ok st3 rg2 g3 h n fl B3 ltac:(lia) HH3 (M3 eq_refl)) as (got4 & st4 & g4 & E4 & B4 & F4 & D4 & _). rewrite E4. pose proof (kp_trans _ _ _ K3 (fr_kp _ _ _ _ _ _ _ F4)) as K4. destruct got4 as [s4|].
  { exists (Some s4), st4, rg2, g4. split; [reflexivity|]. split; [exact B4|]. split; [exact K4|]. split; [exact S2|]. intros s Q. injection Q as <-. destruct (D4 s4 eq_refl) as (tg & Q). exists n, tg. split; [exact Q|lia]. }
  cbn [optl app] in B4. destruct (res st4 h) as [[rm rs] rk] eqn:ER. destruct (Z.leb_spec n rk) as [LE|GT].
  - destruct (from_reserve_ok st4 rg2 g4 h n fl rm rs rk B4 ER ltac:(lia)) as (st5 & g5 & E5 & B5 & K5 & (tg & G5) & _). rewrite E5. cbn [bind fst snd]. exists (Some rs), st5, rg2, g5. split; [reflexivity|]. split; [exact B5|]. split; [apply (kp_trans _ _ _ K4 K5)|]. split; [exact S2|]. intros s Q. injection Q as <-. exists n, tg. split; [exact G5|lia].
  - destruct (Z.leb_spec (n + 1) limit).
    + destruct (IH st4 rg2 g4 (n + 1) B4) as (got & st' & rg' & g' & E & B & K & SH & D); try lia; [rewrite (q_nh _ _ K4); exact HH|]. exists got, st', rg', g'. split; [exact E|]. split; [exact B|]. split; [apply (kp_trans _ _ _ K4 K)|]. split; [intros m v Q; apply S2, SH, Q|]. intros s Q. destruct (D s Q) as (k & tg & Q1 & Q2). exists k, tg. split; [exact Q1|lia].
    + exists None, st4, rg2, g4. split; [reflexivity|]. split; [exact B4|]. split; [exact K4|]. split; [exact S2|]. discriminate.
Qed.
Lemma nlimit_ok n : 1 <= n <= RUNS -> n <= nlimit n <= RUNS.
Proof. intros H. unfold nlimit. destruct (Z.ltb_spec 2 n); [|unfold RUNS in *; lia]. rewrite Z.shiftr_div_pow2 by lia. assert (0 <= n / 2 ^ 1) by (apply Z.div_pos; lia). lia. Qed.
