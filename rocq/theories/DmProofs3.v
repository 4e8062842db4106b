(* Texts and neighbours taken for something else; mem_printf *)
From Coq Require Import ZArith List Bool Lia.
From Verif Require Import Base DmModel DmProofs DmProofs2.
Import ListNotations.
Open Scope Z_scope.

(* the n bytes of a number *)
Fixpoint le (n : nat) (v : Z) : list Z := match n with O => [] | S k => v mod 256 :: le k (v / 256) end.

Lemma le_length n : forall v, length (le n v) = n.
Proof. induction n; intro v; cbn; [reflexivity|now rewrite IHn]. Qed.
Lemma fill_le n : forall m a v, fill m a (le n v) = put m a n v.
Proof. induction n; intros m a v; cbn; [reflexivity|apply IHn]. Qed.
Lemma fill_app l1 : forall m a l2, fill m a (l1 ++ l2) = fill (fill m a l1) (a + Z.of_nat (length l1)) l2.
Proof.
  induction l1 as [|b l1 IH]; intros m a l2; cbn [fill app length].
  - now rewrite Z.add_0_r.
  - rewrite IH. f_equal. lia.
Qed.
Lemma le_bytes n : forall v, Forall byte (le n v).
Proof. induction n; intro v; cbn; constructor; [unfold byte; apply Z.mod_pos_bound; lia|apply IHn]. Qed.

Lemma printf_text own s a c t : t <> [] ->
  exists s', mem_printf own s a c t = (Some a, Z.of_nat (length t), s') /\ gar s' = gar s ++ [a] /\
    (forall i, (i < length t)%nat -> mem s' (a + Z.of_nat i) = nth i t 0) /\ mem s' (a + Z.of_nat (length t)) = 0.
Proof.
  intro N. destruct t as [|b t]; [congruence|]. unfold mem_printf. eexists. split; [reflexivity|]. cbn [gar mem block].
  split; [reflexivity|]. split.
  - intros i Hi. rewrite fill_in by (rewrite app_length; lia). now rewrite app_nth1.
  - rewrite fill_in by (rewrite app_length; cbn [length]; lia). rewrite app_nth2, Nat.sub_diag by lia. reflexivity.
Qed.

(* a text that asks for the call of f with d *)
Definition forged (f d : Z) : list Z := le 4 37 ++ le 4 1 ++ le 8 0 ++ le 8 d ++ le 8 f.

Section P.
Variables (link : Z -> Z) (head : Z -> option Z) (M : Z) (place : nat -> Z).
Hypothesis HM : 0 < M /\ M mod 8 = 0.
Hypothesis HL : forall a, word (link a) /\ ~ In (link a mod 2 ^ 32) [31; 32; 33; 34].

Lemma forged_called own m0 f d : bytes m0 -> word f -> word d -> placed (place 0%nat, Text []) ->
  ~ In (val m0 (place 0%nat - M) 4) [31; 32; 33; 34] ->
  exists s', finish link head M (run own M place (init m0) [Text (forged f d)]) = Ok s' /\ out s' = [Call f d; Free (place 0%nat)].
Proof.
  intros B Wf Wd PL Q. unfold word in *. set (a := place 0%nat) in *.
  cbn [run fold_left step init cnt]. fold a. set (m1 := calloc m0 a (length (forged f d))).
  set (s := block _ _ _ _ _ _).
  assert (EM : mem s = put (put (put (put (put m1 a 4 37) (a + 4) 4 1) (a + 8) 8 0) (a + 16) 8 d) (a + 24) 8 f).
  { unfold s, forged. cbn [mem block]. rewrite !fill_app, !fill_le, !le_length.
    change (Z.of_nat 4) with 4. change (Z.of_nat 8) with 8.
    replace (a + 4 + 4) with (a + 8) by lia. replace (a + 8 + 8) with (a + 16) by lia. replace (a + 16 + 8) with (a + 24) by lia. reflexivity. }
  assert (T : tells (mem s) (a, Func f d)).
  { rewrite EM. cbn [tells]. split; [rewrite !val_put_out by lia; apply val_put; cbn; lia|].
    split; [rewrite !val_put_out by lia; apply val_put; cbn; lia|].
    split; [apply val_put; exact Wf|rewrite val_put_out by lia; apply val_put; exact Wd]. }
  assert (QS : quiet M (mem s) (a, Func f d)).
  { cbn [quiet snd fst]. assert (8 <= M). { destruct HM as (H1 & H2). pose proof (Z.div_mod M 8). lia. }
    rewrite (val_ext 4 (mem s) m0); [exact Q|]. intros x Hx. rewrite EM, !put_out by lia.
    unfold m1, calloc. apply fill_out. lia. }
  destruct (release_one link head M HM HL s (a, Func f d) [] [] PL T QS eq_refl ltac:(auto)) as (s' & E & O & _).
  cbn [ptr snd fst] in E. unfold finish. change (gar s) with [a]. cbn [rev app release_all]. rewrite E. cbn [bind].
  exists s'. split; [reflexivity|]. exact O.
Qed.

(* "%", in a block whose other bytes up to the 8th are zero: a call of what stands 32 bytes on *)
Lemma percent_called own m0 : bytes m0 -> placed (place 0%nat, Text []) -> ~ In (val m0 (place 0%nat - M) 4) [31; 32; 33; 34] ->
  (forall i, 0 <= i < 8 -> m0 (place 0%nat + i) = 0) ->
  exists s', finish link head M (run own M place (init m0) [Text [37]]) = Ok s' /\
    out s' = [Call (val m0 (place 0%nat + 32) 8) (val m0 (place 0%nat + 8) 8); Free (place 0%nat)].
Proof.
  intros B PL Q Z0. set (a := place 0%nat) in *.
  cbn [run fold_left step init cnt]. fold a. set (s := block _ _ _ _ _ _).
  assert (O : forall x, x < a \/ a + 2 <= x -> mem s x = m0 x).
  { intros x Hx. unfold s. cbn [mem block length Nat.add Nat.even calloc repeat fill]. unfold calloc. cbn [length Nat.add Nat.even repeat fill]. rewrite !upd_other by lia. reflexivity. }
  assert (A0 : mem s a = 37).
  { unfold s. cbn [mem block fill]. apply upd_same. }
  assert (A1 : mem s (a + 1) = 0).
  { unfold s. cbn [mem block fill]. rewrite upd_other by lia. unfold calloc. cbn [length Nat.add Nat.even repeat fill]. apply upd_same. }
  assert (AZ : forall i, 2 <= i < 8 -> mem s (a + i) = 0) by (intros; rewrite O by lia; apply Z0; lia).
  assert (T : tells (mem s) (a, Value (val m0 (a + 32) 8) (val m0 (a + 8) 8))).
  { cbn [tells]. split; [|split; [|split]].
    - cbn [val]. rewrite A0, A1. replace (a + 1 + 1) with (a + 2) by lia. replace (a + 2 + 1) with (a + 3) by lia. rewrite !AZ by lia. reflexivity.
    - cbn [val]. replace (a + 4 + 1) with (a + 5) by lia. replace (a + 5 + 1) with (a + 6) by lia. replace (a + 6 + 1) with (a + 7) by lia.
      rewrite !AZ by lia. reflexivity.
    - apply val_ext. intros. apply O. lia.
    - apply val_ext. intros. apply O. lia. }
  assert (QS : quiet M (mem s) (a, Value (val m0 (a + 32) 8) (val m0 (a + 8) 8))).
  { cbn [quiet snd fst]. assert (8 <= M). { destruct HM as (H1 & H2). pose proof (Z.div_mod M 8). lia. }
    rewrite (val_ext 4 (mem s) m0); [exact Q|]. intros x Hx. apply O. lia. }
  destruct (release_one link head M HM HL s (a, Value (val m0 (a + 32) 8) (val m0 (a + 8) 8)) [] [] PL T QS eq_refl ltac:(auto)) as (s' & E & OU & _).
  cbn [ptr snd fst] in E. unfold finish. change (gar s) with [a]. cbn [rev app release_all]. rewrite E. cbn [bind].
  exists s'. split; [reflexivity|]. exact OU.
Qed.

(* "#" and "$": a call of what stands 16 bytes on, and the block is not freed *)
Lemma hash_called own m0 c : bytes m0 -> c = 35 \/ c = 36 -> placed (place 0%nat, Text []) ->
  ~ In (val m0 (place 0%nat - M) 4) [31; 32; 33; 34] -> m0 (place 0%nat + 2) = 0 -> m0 (place 0%nat + 3) = 0 ->
  exists s', finish link head M (run own M place (init m0) [Text [c]]) = Ok s' /\
    out s' = [Call (val m0 (place 0%nat + 16) 8) (place 0%nat)] /\ live s' = [place 0%nat].
Proof.
  intros B HC PL Q Z2 Z3. set (a := place 0%nat) in *.
  cbn [run fold_left step init cnt]. fold a. set (s := block _ _ _ _ _ _).
  assert (O : forall x, x < a \/ a + 2 <= x -> mem s x = m0 x).
  { intros x Hx. unfold s. cbn [mem block length]. unfold calloc. cbn [length Nat.add Nat.even repeat fill]. rewrite !upd_other by lia. reflexivity. }
  assert (A0 : mem s a = c).
  { unfold s. cbn [mem block fill]. apply upd_same. }
  assert (A1 : mem s (a + 1) = 0).
  { unfold s. cbn [mem block fill]. rewrite upd_other by lia. unfold calloc. cbn [length Nat.add Nat.even repeat fill]. apply upd_same. }
  assert (T : tells (mem s) (a, Object c (val m0 (a + 16) 8))).
  { cbn [tells]. split.
    - cbn [val]. rewrite A0, A1. replace (a + 1 + 1) with (a + 2) by lia. replace (a + 2 + 1) with (a + 3) by lia.
      rewrite !O by lia. rewrite Z2, Z3. destruct HC as [-> | ->]; cbn; auto.
    - apply val_ext. intros. apply O. lia. }
  assert (QS : quiet M (mem s) (a, Object c (val m0 (a + 16) 8))).
  { cbn [quiet snd fst]. assert (8 <= M). { destruct HM as (H1 & H2). pose proof (Z.div_mod M 8). lia. }
    rewrite (val_ext 4 (mem s) m0); [exact Q|]. intros x Hx. apply O. lia. }
  destruct (release_one link head M HM HL s (a, Object c (val m0 (a + 16) 8)) [] [] PL T QS eq_refl ltac:(auto)) as (s' & E & OU & LV & _).
  cbn [ptr snd fst] in E. unfold finish. change (gar s) with [a]. cbn [rev app release_all]. rewrite E. cbn [bind].
  exists s'. split; [reflexivity|]. split; [exact OU|exact LV].
Qed.

Lemma run_keep own l : forall s x, bytes (mem s) -> Forall (proper' own) l ->
  (forall i o, nth_error l i = Some o -> x < place (cnt s + i) \/ place (cnt s + i) + need M o <= x) ->
  mem (run own M place s l) x = mem s x.
Proof.
  induction l as [|o l IH]; intros s x B PR H; [reflexivity|]. cbn [run fold_left].
  inversion PR as [|? ? P1 P2]; subst.
  destruct (step_ok M own place HM s o B P1) as (B' & _ & _ & _ & C & _ & K).
  change (fold_left (step own M place) l (step own M place s o)) with (run own M place (step own M place s o) l).
  rewrite IH; [| exact B' | exact P2 |].
  - apply K. specialize (H 0%nat o eq_refl). now rewrite Nat.add_0_r in H.
  - intros i o' E. rewrite C. specialize (H (S i) o' E). now replace (S (cnt s) + i)%nat with (cnt s + S i)%nat by lia.
Qed.

Lemma items_nth l : forall i o, nth_error l i = Some o -> nth_error (items place l) i = Some (place i, o).
Proof.
  induction l as [|x l IH] using rev_ind; intros i o E.
  - destruct i; discriminate.
  - rewrite items_snoc. assert (L : length (items place l) = length l).
    { unfold items. rewrite combine_length, map_length, seq_length. lia. }
    destruct (Nat.lt_ge_cases i (length l)) as [K|K].
    + rewrite nth_error_app1 in E |- * by lia. auto.
    + rewrite nth_error_app2 in E |- * by lia. rewrite L. destruct (i - length l)%nat as [|j] eqn:D; [|destruct j; discriminate].
      cbn in E |- *. injection E as ->. f_equal. f_equal. f_equal. lia.
Qed.

Lemma items_cons o l : items place (o :: l) = (place 0%nat, o) :: items (fun i => place (S i)) l.
Proof. unfold items. cbn [length seq map combine]. f_equal. rewrite <- seq_shift, map_map. reflexivity. Qed.

Lemma release_all_app l1 : forall l2 s, release_all link head M s (l1 ++ l2) =
  bind (release_all link head M s l1) (fun s' => release_all link head M s' l2).
Proof.
  induction l1 as [|a l1 IH]; intros l2 s; [reflexivity|]. cbn [app release_all].
  destruct (release link head M s a); cbn [bind]; auto.
Qed.

Lemma free_sys s a s' : free link head s a = Ok s' -> sys s' = sys s.
Proof.
  unfold free. destruct (has a (live s)); [intro E; injection E as <-; reflexivity|].
  destruct (has a (sys s)); [|discriminate]. destruct (head _) as [h|]; [|discriminate].
  destruct (_ || _); [|discriminate]. intro E. now injection E as <-.
Qed.
Lemma release_sys s a s' : release link head M s a = Ok s' -> sys s' = sys s.
Proof.
  unfold release. destruct (usable a); [|intro E; now injection E as <-].
  destruct (is_data M (mem s) a); [intro E; now rewrite (free_sys _ _ _ E)|].
  destruct (_ =? 37); [intro E; rewrite (free_sys _ _ _ E); destruct (_ =? 0); reflexivity|].
  destruct (_ || _); [intro E; now injection E as <-|apply free_sys].
Qed.
Lemma release_all_sys l : forall s s', release_all link head M s l = Ok s' -> sys s' = sys s.
Proof.
  induction l as [|a l IH]; intros s s' E; cbn [release_all] in E; [now injection E as <-|].
  destruct (release link head M s a) as [s1| | |] eqn:E1; try discriminate. cbn [bind] in E.
  now rewrite (IH _ _ E), (release_sys _ _ _ E1).
Qed.
Lemma run_sys m0 l : sys (run true M place (init m0) l) = [].
Proof.
  induction l as [|o l IH] using rev_ind; [reflexivity|]. rewrite run_snoc. destruct o; cbn [step block sys]; try exact IH.
  destruct t; exact IH.
Qed.

(* the block of " " stands before another at the distance of an array's head *)
Lemma space_freed m0 l t :
  let p := Text [32] :: l ++ [Text t] in
  bytes m0 -> Forall (proper' true) p -> Forall placed (items place p) -> apart M (items place p) ->
  (forall a, ~ In (link a mod 2 ^ 32) [21; 35; 36; 37]) ->
  m0 (place 0%nat + 2) = 0 -> m0 (place 0%nat + 3) = 0 -> place (S (length l)) = place 0%nat + M ->
  let s := run true M place (init m0) p in
  Forall (quiet M (mem s)) (items place (Text [32] :: l)) ->
  finish link head M s = UB.
Proof.
  intros p B PR PL A LT Z2 Z3 D s Q.
  destruct (run_ok M true place HM m0 p B PR A) as (_ & T & L & G & _ & O). fold s in T, L, G, O.
  set (a := place 0%nat) in *.
  assert (EI : items place p = (a, Text [32]) :: items (fun i => place (S i)) l ++ [(a + M, Text t)]).
  { unfold p. rewrite items_cons, items_snoc, D. reflexivity. }
  set (mid := items (fun i => place (S i)) l) in *.
  assert (EQ : items place (Text [32] :: l) = (a, Text [32]) :: mid) by apply items_cons.
  rewrite EQ in Q. rewrite EI in PL, A, T, L, G. inversion Q as [|? ? Q0 QM]; subst. clear Q.
  inversion PL as [|? ? P0 PL1]; subst. inversion T as [|? ? T0 T1]; subst.
  apply Forall_app in PL1 as (PM & PN), T1 as (TM & TN). apply Forall_inv in PN.
  assert (V : val (mem s) a 4 = 32).
  { assert (K : forall i, 0 <= i < 16 -> mem s (a + i) = mem (step true M place (init m0) (Text [32])) (a + i)).
    { intros i Hi. unfold s, p. cbn [run fold_left]. inversion PR as [|? ? PR0 PR1]; subst.
      change (fold_left (step true M place) (l ++ [Text t]) (step true M place (init m0) (Text [32])))
        with (run true M place (step true M place (init m0) (Text [32])) (l ++ [Text t])).
      destruct (step_ok M true place HM (init m0) (Text [32]) B PR0) as (B1 & _).
      apply run_keep; [exact B1|exact PR1|]. intros j o E. cbn [step init cnt block Nat.add].
      assert (N : nth_error (items place p) (S j) = Some (place (S j), o)) by (apply items_nth; exact E).
      rewrite EI in N. pose proof (A 0%nat (S j) (a, Text [32]) _ ltac:(lia) eq_refl N) as S0.
      pose proof (size_16 M o (proj1 HM)). unfold sep in S0. cbn [fst snd] in S0.
      pose proof (size_16 M (Text [32]) (proj1 HM)). lia. }
    assert (K' : forall i, 2 <= i < 16 -> mem s (a + i) = m0 (a + i)).
    { intros i Hi. rewrite K by lia. cbn [step init cnt mem block]. fold a. unfold calloc. cbn [length Nat.add Nat.even repeat fill].
      rewrite !upd_other by lia. reflexivity. }
    cbn [val]. replace (a + 1 + 1) with (a + 2) by lia. replace (a + 2 + 1) with (a + 3) by lia. rewrite (K' 2), (K' 3), Z2, Z3 by lia.
    rewrite (K 1) by lia. rewrite <- (Z.add_0_r a) at 1. rewrite (K 0) by lia.
    cbn [step init cnt mem block]. fold a. rewrite Z.add_0_r. unfold calloc. cbn [length Nat.add Nat.even repeat fill].
    rewrite upd_same, upd_other, upd_same by lia. reflexivity. }
  pose proof (apart_nodup M HM _ A) as ND. cbn [map] in ND. rewrite map_app in ND. cbn [map fst] in ND.
  assert (AM : apart M mid /\ (forall y, In y mid -> sep M y (a, Text [32]))).
  { split.
    - intros i j x y N Ei Ej. apply (A (S i) (S j)); [lia| |]; cbn [nth_error]; rewrite nth_error_app1; auto; apply nth_error_Some; congruence.
    - intros y Iy. apply In_nth_error in Iy as (i & E). apply (A (S i) 0%nat); [lia| |reflexivity].
      cbn [nth_error]. rewrite nth_error_app1; auto. apply nth_error_Some; congruence. }
  destruct AM as (AM & AS).
  unfold finish. rewrite G. cbn [map]. rewrite map_app. cbn [map rev]. rewrite rev_app_distr. cbn [rev app].
  (* the last block: the first is freed *)
  assert (TA : tells (mem s) (a, Array 32 [])) by (cbn [tells]; rewrite V; cbn; auto).
  cbn [map fst] in L. rewrite map_app in L.
  destruct (release_one link head M HM HL s (a, Array 32 []) [] (map fst mid ++ [a + M]) P0 TA Logic.I L ltac:(auto))
    as (s1 & E1 & _ & L1 & MO & MV).
  cbn [ptr snd fst] in E1. cbn [release_all]. change (ptr M (a + M, Text t)) with (a + M). rewrite E1. cbn [bind].
  cbn [object snd app] in L1. cbn [fst] in MO, MV.
  assert (V1 : ~ In (val (mem s1) a 4) [21; 35; 36; 37]).
  { destruct MV as [-> | ->]; [rewrite V; cbn; lia|apply LT]. }
  assert (QK : forall y, placed y -> quiet M (mem s) y -> quiet M (mem s1) y).
  { intros y PY. eapply (quiet_keep link head M HM HL); [exact (proj1 P0)|exact PY|exact MO|exact MV]. }
  (* those between *)
  rewrite release_all_app.
  destruct (release_list link head M HM HL mid s1 [a + M]) as (s2 & E2 & _ & L2 & Q2 & M2); auto.
  - rewrite Forall_forall in TM |- *. intros y Iy. eapply tells_ext; [|exact (TM y Iy)].
    intros z Hz. apply MO. pose proof (span_size M (snd y) (proj1 HM)). pose proof (size_16 M (Text [32]) (proj1 HM)).
    destruct (AS y Iy) as [K|K]; cbn [fst snd] in K; lia.
  - rewrite Forall_forall in QM, PM |- *. auto.
  - rewrite E2. cbn [bind release_all].
    (* the first, a second time *)
    assert (V2 : ~ In (val (mem s2) a 4) [21; 35; 36; 37]).
    { rewrite (val_ext 4 (mem s2) (mem s1)); [exact V1|]. intros z Hz. apply M2. intros y Iy.
      pose proof (size_16 M (snd y) (proj1 HM)). pose proof (size_16 M (Text [32]) (proj1 HM)).
      destruct (AS y Iy) as [K|K]; cbn [fst snd] in K; lia. }
    assert (QA : quiet M (mem s2) (a, Text [32])) by auto.
    cbn [quiet snd fst] in QA.
    assert (U : usable a = true). { destruct P0 as (_ & HI). cbn [fst] in HI. unfold usable. now apply Z.ltb_lt. }
    change (ptr M (a, Text [32])) with a.
    unfold release. rewrite U; rewrite (is_data_no link head M HL) by exact QA.
    cbn [In] in V2. set (v := val (mem s2) a 4) in *. clearbody v.
    destruct (Z.eqb_spec v 37); [lia|]. destruct (Z.eqb_spec v 21); [lia|]. destruct (Z.eqb_spec v 35); [lia|].
    destruct (Z.eqb_spec v 36); [lia|]. cbn [orb]. unfold free.
    assert (NL : ~ In a (live s2)).
    { rewrite L2. intro K. apply in_app_or in K as [K|[K|[]]]; [|destruct HM; lia].
      apply in_map_iff in K as (y & EY & Iy). apply filter_In in Iy as (Iy & _).
      inversion ND as [|? ? N1 N2]; subst. apply N1. apply in_or_app. left. apply in_map_iff. eauto. }
    assert (NH : has a (live s2) = false).
    { unfold has. destruct (existsb (Z.eqb a) (live s2)) eqn:EX; [|reflexivity]. apply existsb_exists in EX as (y & Iy & EY).
      apply Z.eqb_eq in EY. subst y. contradiction. }
    assert (NS : sys s2 = []).
    { rewrite (release_all_sys _ _ _ E2), (release_sys _ _ _ E1). unfold s. apply run_sys. }
    rewrite NH, NS. reflexivity.
Qed.

(* ---- mem_printf ---- *)
Lemma printf_empty own m0 c :
  exists s', mem_printf own (init m0) (place 0%nat) c [] = (None, c, s') /\
    exists s'', finish link head M s' = Ok s'' /\ out s'' = [] /\ live s'' ++ sys s'' = [place 0%nat].
Proof.
  eexists. split; [reflexivity|]. eexists. split; [reflexivity|]. cbn. destruct own; auto.
Qed.

Lemma printf_foreign m0 t : bytes m0 -> t <> [] -> Forall byte t -> calm t -> placed (place 0%nat, Text []) ->
  ~ In (val m0 (place 0%nat - M) 4) [31; 32; 33; 34] ->
  let r := finish link head M (run false M place (init m0) [Printf t]) in
  r = UB \/ (exists s', r = Ok s' /\ out s' = [] /\ sys s' = [place 0%nat]).
Proof.
  intros B N Bt C (_ & HI) Q. cbn [fst] in HI. set (a := place 0%nat) in *. cbn zeta.
  destruct t as [|b t]; [congruence|]. cbn [run fold_left step init cnt]. fold a. unfold mem_printf. cbn [snd].
  set (s := block _ _ _ _ _ _). unfold finish. change (gar s) with [a]. cbn [rev app release_all].
  assert (U : usable a = true) by (unfold usable; now apply Z.ltb_lt).
  assert (BM : bytes (mem s)).
  { unfold s. cbn [mem block]. apply bytes_fill; [exact B|]. apply Forall_app. split; [exact Bt|]. constructor; [unfold byte; lia|constructor]. }
  assert (V : ~ In (val (mem s) a 4) [21; 35; 36; 37]).
  { apply (calm_val _ _ (b :: t)); [exact BM|exact C| |discriminate].
    intros i Hi. unfold s. cbn [mem block]. rewrite fill_in by (rewrite app_length; lia). now rewrite app_nth1. }
  assert (QA : ~ In (val (mem s) (a - M) 4) [31; 32; 33; 34]).
  { assert (8 <= M). { destruct HM as (H1 & H2). pose proof (Z.div_mod M 8). lia. }
    rewrite (val_ext 4 (mem s) m0); [exact Q|]. intros x Hx. unfold s. cbn [mem block]. apply fill_out. lia. }
  unfold release. rewrite U. rewrite (is_data_no link head M HL) by exact QA.
  cbn [In] in V. set (v := val (mem s) a 4) in *. clearbody v.
  destruct (Z.eqb_spec v 37); [lia|]. destruct (Z.eqb_spec v 21); [lia|]. destruct (Z.eqb_spec v 35); [lia|].
  destruct (Z.eqb_spec v 36); [lia|]. cbn [orb]. unfold free. change (live s) with (@nil Z). change (sys s) with [a].
  cbn [has existsb]. rewrite Z.eqb_refl. cbn [orb].
  destruct (head _) as [h|]; [|now left]. destruct (_ || _); [|now left]. right. eexists. split; [reflexivity|]. split; reflexivity.
Qed.
End P.
