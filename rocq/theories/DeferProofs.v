(* Specification and proofs for DeferModel. *)
From Verif Require Import Base DeferModel.

Lemma appends_ok ks : forall s l, arr s = Some l -> exists s', appends s ks = Ok s' /\
  arr s' = Some (l ++ map (fun k => {| func := k; ist := Fresh |}) ks) /\ ran s' = ran s /\
  (moved s' = moved s || (negb (length ks =? 0) && (room s <? length l + length ks))).
Proof.
  induction ks as [|k ks IH]; intros s l A.
  - exists s. cbn. rewrite app_nil_r, orb_false_r. auto.
  - cbn [appends]. unfold append. rewrite A. cbn [bind].
    set (s1 := {| arr := _; room := _; moved := _; ran := _ |}).
    destruct (IH s1 (l ++ [{| func := k; ist := Fresh |}]) eq_refl) as (s' & E & B & C & D). exists s'. split; [exact E|]. split; [|split; [exact C|]].
    + rewrite B, <- app_assoc. reflexivity.
    + rewrite D. cbn [s1 moved room]. rewrite app_length. cbn [length negb Nat.eqb andb].
      destruct (moved s); [reflexivity|]. cbn [orb].
      destruct (room s <=? length l) eqn:F; cbn [orb].
      * symmetry. apply Nat.ltb_lt. apply Nat.leb_le in F. lia.
      * apply Nat.leb_gt in F. destruct ks as [|k2 ks]; cbn [length Nat.eqb negb andb].
        -- symmetry. apply Nat.ltb_ge. lia.
        -- replace (length l + 1 + S (length ks)) with (length l + S (S (length ks))) by lia. reflexivity.
Qed.
Lemma appends_room ks : forall s l s', arr s = Some l -> length l + length ks <= room s -> appends s ks = Ok s' -> room s' = room s.
Proof.
  induction ks as [|k ks IH]; intros s l s' A L H; cbn [appends] in H; [now injection H as <-|]. unfold append in H. rewrite A in H. cbn [bind] in H. cbn [length] in L.
  assert (F : (room s <=? length l) = false) by (apply Nat.leb_gt; lia). rewrite F in H.
  apply (IH _ (l ++ [{| func := k; ist := Fresh |}])) in H; [exact H|reflexivity|]. rewrite app_length. cbn. lia.
Qed.
Lemma setst_nth l i v j : nth_error (setst l i v) j = match nth_error l j with Some it => Some (if j =? i then {| func := func it; ist := v |} else it) | None => None end.
Proof.
  unfold setst. destruct (nth_error l i) as [it|] eqn:E.
  - destruct (Nat.eq_dec j i) as [->|D].
    + rewrite E, Nat.eqb_refl. apply set_nth_same. apply nth_error_Some. congruence.
    + rewrite set_nth_other by auto. apply Nat.eqb_neq in D. rewrite D. destruct (nth_error l j); reflexivity.
  - destruct (nth_error l j) eqn:F; [|reflexivity]. destruct (j =? i) eqn:G; [|reflexivity]. apply Nat.eqb_eq in G. congruence.
Qed.
Lemma setst_length l i v : length (setst l i v) = length l.
Proof. unfold setst. destruct (nth_error l i); [apply set_nth_length|reflexivity]. Qed.
(* the first i records are the pending functions fsl *)
Definition fresh_prefix (l : list item) (fsl : list nat) : Prop := forall j, j < length fsl -> nth_error l j = Some {| func := nth j fsl 0; ist := Fresh |}.
Definition quiet (stale : bool) (fs : nat -> fn) (k : nat) : Prop := throws (fs k) = false /\ (stale = true -> defers (fs k) = []).
Lemma unwind_all stale fs fsl : forall s l, arr s = Some l -> (stale = true -> moved s = false) -> fresh_prefix l fsl -> Forall (quiet stale fs) fsl ->
  exists s', unwind stale fs (length fsl) s = Ok (true, s') /\ ran s' = ran s ++ rev fsl /\ arr s' = None.
Proof.
  induction fsl as [|k fsl IH] using rev_ind; intros s l A M P Q.
  - cbn [length unwind]. assert (E : stale && moved s = false) by (destruct stale; [rewrite M; auto|reflexivity]). rewrite E. eexists. split; [reflexivity|]. cbn. rewrite app_nil_r. auto.
  - rewrite app_length, Nat.add_comm. cbn [length Nat.add unwind].
    assert (E : stale && moved s = false) by (destruct stale; [rewrite M; auto|reflexivity]). rewrite E, A.
    assert (K : nth_error l (length fsl) = Some {| func := k; ist := Fresh |}).
    { rewrite P by (rewrite app_length; cbn; lia). rewrite app_nth2, Nat.sub_diag by lia. reflexivity. }
    rewrite K. cbn [ist func]. apply Forall_app in Q. destruct Q as [Q1 Q2]. inversion Q2 as [|? ? [QT QD] _]; subst. rewrite QT.
    set (s2 := {| arr := _; room := _; moved := _; ran := _ |}).
    destruct (appends_ok (defers (fs k)) s2 (setst l (length fsl) Invalid) eq_refl) as (s3 & B & C & D & G). rewrite B. cbn [bind]. rewrite C.
    match goal with |- context [setarr s3 ?x] => set (l4 := x) end.
    destruct (IH (setarr s3 l4) l4 eq_refl) as (s' & X & Y & Z).
    + intros S1. cbn [setarr moved]. rewrite G. cbn [s2 moved setarr]. rewrite (M S1), (QD S1). reflexivity.
    + intros j Hj. unfold l4. rewrite setst_nth, nth_error_app1 by (rewrite setst_length; apply Nat.lt_trans with (length fsl); [exact Hj|]; apply nth_error_Some; congruence).
      rewrite setst_nth, P by (rewrite app_length; lia). rewrite app_nth1 by exact Hj. assert (J : (j =? length fsl) = false) by (apply Nat.eqb_neq; lia). rewrite J. reflexivity.
    + exact Q1.
    + rewrite X. exists s'. split; [reflexivity|]. split; [|exact Z]. rewrite Y. cbn [setarr ran]. rewrite D. cbn [s2 ran setarr]. rewrite rev_app_distr, <- app_assoc. reflexivity.
Qed.
(* ---- the API: defer each of ks, then unwind, then unwind again ---- *)
Lemma defer_then stale fs n ks : Forall (quiet stale fs) ks ->
  exists s s', appends (scope0 n) ks = Ok s /\ unwinding stale fs s = Ok (true, s') /\ ran s' = rev ks /\ unwinding stale fs s' = Ok (true, s').
Proof.
  intros Q. destruct (appends_ok ks (scope0 n) [] eq_refl) as (s & E & A & R & _). exists s. cbn [app] in A. unfold unwinding. rewrite A, map_length.
  destruct (unwind_all stale fs ks {| arr := Some (map (fun k => {| func := k; ist := Fresh |}) ks); room := room s; moved := false; ran := ran s |} _ eq_refl) as (s' & U & X & Z); auto.
  - intros j Hj. rewrite nth_error_map. rewrite (nth_error_nth' ks 0 Hj). reflexivity.
  - exists s'. rewrite U. split; [exact E|]. split; [reflexivity|]. rewrite X. cbn [ran]. rewrite R. cbn. split; [reflexivity|]. rewrite Z. reflexivity.
Qed.
(* a function that throws: what was deferred after it has run and is freed; unwinding again reads the freed records *)
Definition silent (fs : nat -> fn) (k : nat) : Prop := fs k = {| defers := []; throws := false |}.
Lemma unwind_some fs a : forall b s l, arr s = Some l -> (forall j, j < length (a ++ b) -> nth_error l j = Some {| func := nth j (a ++ b) 0; ist := Fresh |}) -> Forall (silent fs) b ->
  exists s' l', unwind false fs (length (a ++ b)) s = unwind false fs (length a) s' /\ arr s' = Some l' /\ ran s' = ran s ++ rev b /\ length l' = length l /\
   (forall j, nth_error l' j = if (length a <=? j) && (j <? length (a ++ b)) then Some {| func := nth j (a ++ b) 0; ist := Freed |} else nth_error l j).
Proof.
  induction b as [|k b IH] using rev_ind; intros s l A P Q.
  - exists s, l. rewrite !app_nil_r in *. split; [reflexivity|]. split; [exact A|]. split; [cbn; rewrite ?app_nil_r; reflexivity|]. split; [reflexivity|]. intros j.
    destruct (length a <=? j) eqn:E1; [|reflexivity]. destruct (j <? length a) eqn:E2; [|reflexivity]. apply Nat.leb_le in E1. apply Nat.ltb_lt in E2. lia.
  - apply Forall_app in Q. destruct Q as [Q1 Q2]. inversion Q2 as [|? ? QK _]; subst. unfold silent in QK. rewrite app_assoc in *.
    assert (LL : length ((a ++ b) ++ [k]) = S (length (a ++ b))) by (rewrite (app_length (a ++ b)); cbn; lia). rewrite LL in *. assert (LE : length a <= length (a ++ b)) by (rewrite app_length; lia).
    assert (NK : nth_error l (length (a ++ b)) = Some {| func := k; ist := Fresh |}) by (rewrite P by lia; rewrite app_nth2, Nat.sub_diag by lia; reflexivity).
    cbn [unwind andb]. rewrite A, NK. cbn [ist func]. rewrite QK. cbn [defers throws appends bind arr setarr].
    match goal with |- context [unwind false fs _ ?x] => set (s4 := x) end.
    destruct (IH s4 _ eq_refl) as (s' & l' & U & B & C & D & E); [|exact Q1|].
    + intros j Hj. rewrite !setst_nth, P by lia. assert (J : (j =? length (a ++ b)) = false) by (apply Nat.eqb_neq; lia). rewrite !J, app_nth1 by exact Hj. reflexivity.
    + exists s', l'. split; [exact U|]. split; [exact B|]. split; [rewrite C; cbn [s4 ran setarr]; rewrite rev_app_distr, <- app_assoc; reflexivity|].
      split; [rewrite D, !setst_length; reflexivity|]. intros j. rewrite E, !setst_nth.
      destruct (length a <=? j) eqn:E1; cbn [andb].
      * destruct (j <? length (a ++ b)) eqn:E2.
        -- apply Nat.ltb_lt in E2. assert (E3 : (j <? S (length (a ++ b))) = true) by (apply Nat.ltb_lt; lia). rewrite E3, (app_nth1 (a ++ b) [k]) by exact E2. reflexivity.
        -- apply Nat.ltb_ge in E2. destruct (Nat.eq_dec j (length (a ++ b))) as [->|NE].
           ++ rewrite NK, Nat.eqb_refl. assert (E3 : (length (a ++ b) <? S (length (a ++ b))) = true) by (apply Nat.ltb_lt; lia). rewrite E3. rewrite app_nth2, Nat.sub_diag by lia. reflexivity.
           ++ assert (E3 : (j <? S (length (a ++ b))) = false) by (apply Nat.ltb_ge; lia). rewrite E3. apply Nat.eqb_neq in NE. rewrite !NE. now destruct (nth_error l j).
      * apply Nat.leb_gt in E1. assert (NE : (j =? length (a ++ b)) = false) by (apply Nat.eqb_neq; lia). rewrite !NE. now destruct (nth_error l j).
Qed.
Lemma throw_then_again fs n a k b x : fs k = {| defers := []; throws := true |} -> Forall (silent fs) (b ++ [x]) ->
  exists s s', appends (scope0 n) (a ++ k :: b ++ [x]) = Ok s /\ unwinding false fs s = Ok (false, s') /\ ran s' = rev (b ++ [x]) ++ [k] /\ unwinding false fs s' = UB.
Proof.
  intros K Q. replace (a ++ k :: b ++ [x]) with ((a ++ [k]) ++ (b ++ [x])) by (rewrite <- app_assoc; reflexivity).
  destruct (appends_ok ((a ++ [k]) ++ (b ++ [x])) (scope0 n) [] eq_refl) as (s & E & A & R & _). exists s. cbn [app] in A. unfold unwinding at 1. rewrite A, map_length.
  set (s0 := {| arr := _; room := room s; moved := false; ran := ran s |}).
  destruct (unwind_some fs (a ++ [k]) (b ++ [x]) s0 _ eq_refl) as (s1 & l1 & U & B & C & D & F); [|exact Q|].
  { intros j Hj. rewrite nth_error_map, (nth_error_nth' _ 0 Hj). reflexivity. }
  rewrite U. replace (length (a ++ [k])) with (S (length a)) by (rewrite app_length; cbn; lia).
  assert (NK : nth_error l1 (length a) = Some {| func := k; ist := Fresh |}).
  { rewrite F. assert (G : (length (a ++ [k]) <=? length a) = false) by (apply Nat.leb_gt; rewrite app_length; cbn; lia). rewrite G. cbn [andb].
    rewrite nth_error_map, <- app_assoc, nth_error_app2, Nat.sub_diag by lia. reflexivity. }
  cbn [unwind andb]. rewrite B, NK. cbn [ist func]. rewrite K. cbn [defers throws appends bind].
  eexists. split; [exact E|]. split; [reflexivity|]. cbn [ran setarr arr]. split; [rewrite C; cbn [s0 ran]; rewrite R; reflexivity|].
  unfold unwinding. cbn [arr]. rewrite setst_length, D, map_length.
  assert (LL : length ((a ++ [k]) ++ b ++ [x]) = S (length ((a ++ [k]) ++ b))) by (rewrite !app_length; cbn; lia). rewrite LL. cbn [unwind andb arr].
  rewrite setst_nth, F, LL.
  assert (G1 : (length (a ++ [k]) <=? length ((a ++ [k]) ++ b)) = true) by (apply Nat.leb_le; rewrite (app_length (a ++ [k])); lia).
  assert (G2 : (length ((a ++ [k]) ++ b) <? S (length ((a ++ [k]) ++ b))) = true) by (apply Nat.ltb_lt; lia).
  rewrite G1, G2. cbn [andb]. assert (G3 : (length ((a ++ [k]) ++ b) =? length a) = false) by (apply Nat.eqb_neq; rewrite !app_length; cbn; lia). rewrite G3. reflexivity.
Qed.
(* a function deferred by a deferred function is never run *)
Lemma late_lost fs n ks k d : Forall (quiet false fs) ks -> In k ks -> In d (defers (fs k)) -> ~ In d ks ->
  exists s s', appends (scope0 n) ks = Ok s /\ unwinding false fs s = Ok (true, s') /\ ~ In d (ran s') /\ unwinding false fs s' = Ok (true, s').
Proof.
  intros Q _ _ N. destruct (defer_then false fs n ks Q) as (s & s' & A & B & C & D). exists s, s'. split; [exact A|]. split; [exact B|]. split; [|exact D]. rewrite C. intros I. apply N. now apply in_rev.
Qed.
(* and in a task it can also move the array under the unwinding *)
Lemma late_moves fs n ks k : throws (fs k) = false -> defers (fs k) <> [] ->
  length (ks ++ [k]) = n -> exists s, appends (scope0 n) (ks ++ [k]) = Ok s /\ unwinding true fs s = UB.
Proof.
  intros T DF LN. destruct (appends_ok (ks ++ [k]) (scope0 n) [] eq_refl) as (s & E & A & R & _). exists s. split; [exact E|].
  assert (RM : room s = length (ks ++ [k])) by (rewrite (appends_room (ks ++ [k]) (scope0 n) [] s); [cbn; lia|reflexivity|cbn; lia|exact E]). cbn [app] in A. unfold unwinding. rewrite A.
  rewrite map_length, app_length, Nat.add_comm. cbn [length Nat.add unwind moved andb arr].
  assert (NK : nth_error (map (fun k0 => {| func := k0; ist := Fresh |}) (ks ++ [k])) (length ks) = Some {| func := k; ist := Fresh |}) by (rewrite nth_error_map, nth_error_app2, Nat.sub_diag by lia; reflexivity).
  rewrite NK. cbn [ist func]. rewrite T. 
  match goal with |- context [appends ?x _] => set (s2 := x) end.
  destruct (appends_ok (defers (fs k)) s2 _ eq_refl) as (s3 & B & C & D & G). rewrite B. cbn [bind]. rewrite C.
  assert (MV : moved s3 = true).
  { rewrite G. cbn [s2 moved setarr room orb]. rewrite setst_length, map_length, RM. destruct (defers (fs k)) as [|d ds]; [now destruct DF|]. cbn [length Nat.eqb negb andb]. apply Nat.ltb_lt. lia. }
  destruct (length ks); cbn [unwind]; cbn [setarr moved]; rewrite MV; reflexivity.
Qed.

(* ---- guard blocks ---- *)
Lemma skipn_rev_all {A} (l : list A) (k : list A) : skipn (length l) (l ++ k) = k.
Proof. rewrite skipn_app, skipn_all, Nat.sub_diag. reflexivity. Qed.
Lemma existsb_rev rec (l : list nat) : existsb rec (rev l) = existsb rec l.
Proof.
  destruct (existsb rec l) eqn:E.
  - apply existsb_exists in E. destruct E as (x & I & R). apply existsb_exists. exists x. split; [now apply -> in_rev|exact R].
  - destruct (existsb rec (rev l)) eqn:F; [|reflexivity]. apply existsb_exists in F. destruct F as (x & I & R). apply in_rev in I.
    assert (existsb rec l = true) by (apply existsb_exists; eauto). congruence.
Qed.
Lemma reset_ok fs rec n ks d st : Forall (quiet false fs) ks -> appends (scope0 n) ks = Ok d ->
  exists d', guard_reset fs rec {| gfreed := false; gd := d; gstate := st |} = Ok {| gfreed := true; gd := d'; gstate := if st =? 0 then 0 else if existsb rec ks then 4 else st |} /\ ran d' = rev ks /\ arr d' = None /\
    unwinding false fs d = Ok (true, d') /\ ran d = [].
Proof.
  intros Q A. destruct (appends_ok ks (scope0 n) [] eq_refl) as (s & E & AR & R & _). rewrite A in E. injection E as <-. cbn [app] in AR.
  destruct (unwind_all false fs ks {| arr := Some (map (fun k => {| func := k; ist := Fresh |}) ks); room := room d; moved := false; ran := ran d |} _ eq_refl) as (s' & U & X & Z); auto.
  { intros j Hj. rewrite nth_error_map, (nth_error_nth' ks 0 Hj). reflexivity. }
  assert (UW : unwinding false fs d = Ok (true, s')) by (unfold unwinding; rewrite AR, map_length; exact U).
  exists s'. unfold guard_reset. cbn [gfreed gd gstate]. rewrite UW. cbn [bind fst snd]. cbn [ran] in X. rewrite R in X. cbn [scope0 ran app] in X, R.
  split; [|auto]. unfold recovered. rewrite R. cbn [length skipn]. rewrite X, existsb_rev. reflexivity.
Qed.
Lemma guard_normal fenced fs rec n ks d : Forall (quiet false fs) ks -> appends (scope0 n) ks = Ok d ->
  exists s, guard_block fenced fs rec (guard0 d) false = Ok (Through, s) /\ ran (gd s) = rev ks /\ gfreed s = true.
Proof. intros Q A. destruct (reset_ok fs rec n ks d 0 Q A) as (d' & E & R & _). unfold guard_block, guard0. rewrite E. cbn [bind]. eexists. split; [reflexivity|auto]. Qed.
Lemma guard_recovers fs rec n ks d : Forall (quiet false fs) ks -> appends (scope0 n) ks = Ok d -> existsb rec ks = true ->
  exists s, guard_block false fs rec (guard0 d) true = Ok (Through, s) /\ ran (gd s) = rev ks /\ gfreed s = true.
Proof.
  intros Q A R. destruct (reset_ok fs rec n ks d 1 Q A) as (d' & E & X & _). unfold guard_block, guard0. cbn [bind gfreed gd gstate]. change (Nat.lor 0 1) with 1. cbn [Nat.eqb].
  rewrite E, R. cbn [bind gstate Nat.eqb]. eexists. split; [reflexivity|auto].
Qed.
Lemma guard_escapes fenced fs rec n ks d : Forall (quiet false fs) ks -> appends (scope0 n) ks = Ok d -> existsb rec ks = false ->
  guard_block fenced fs rec (guard0 d) true = UB.
Proof.
  intros Q A R. destruct (reset_ok fs rec n ks d 1 Q A) as (d' & E & X & AN & UW & RD). unfold guard_block, guard0. destruct fenced; cbn [bind gfreed gd gstate].
  - assert (RC : recovered rec d d' 0 = 0) by (unfold recovered; rewrite RD, X; cbn [length skipn]; now rewrite existsb_rev, R).
    rewrite UW. cbn [bind fst snd gstate gd gfreed]. rewrite RC. change (Nat.lor 0 1) with 1. cbn [Nat.eqb].
    unfold guard_reset at 1. cbn [gfreed gd gstate]. unfold unwinding. rewrite AN. cbn [bind fst snd gstate Nat.eqb]. unfold recovered. rewrite skipn_all. cbn [existsb Nat.eqb]. reflexivity.
  - change (Nat.lor 0 1) with 1. cbn [Nat.eqb]. rewrite E, R. reflexivity.
Qed.
(* with fenced memory, recovering does not stop the exception and the guard is never taken down *)
Lemma guard_fenced fs rec n ks d : Forall (quiet false fs) ks -> appends (scope0 n) ks = Ok d -> existsb rec ks = true ->
  exists s, guard_block true fs rec (guard0 d) true = Ok (Out, s) /\ ran (gd s) = rev ks /\ gfreed s = false.
Proof.
  intros Q A R. destruct (reset_ok fs rec n ks d 1 Q A) as (d' & E & X & AN & UW & RD). unfold guard_block, guard0. cbn [bind gfreed gd gstate]. rewrite UW. cbn [bind fst snd gstate gd gfreed].
  assert (RC : recovered rec d d' 0 = 4) by (unfold recovered; rewrite RD, X; cbn [length skipn]; now rewrite existsb_rev, R). rewrite RC. change (Nat.lor 4 1) with 5. cbn [Nat.eqb bind gstate]. eexists. split; [reflexivity|auto].
Qed.
