(* The last part of a Windows path. *)
From Verif Require Import Base WnModel.

(* ---- specification ---- *)
Definition sep (c : Z) : bool := (c =? 47)%Z || (c =? 92)%Z.
Definition no_sep (l : list Z) : Prop := Forall (fun c => sep c = false) l.
Definition only_sep (l : list Z) : Prop := Forall (fun c => sep c = true) l.
Definition after_sep (l : list Z) : Prop := l = [] \/ exists l' c, l = l' ++ [c] /\ sep c = true.
(* the last name of s, with what precedes it and the separators that follow it *)
Definition base_parts (s pre name tail : list Z) : Prop :=
  s = pre ++ name ++ tail /\ after_sep pre /\ no_sep name /\ only_sep tail /\ (name = [] -> pre = []).
(* no name has a colon as its second byte *)
Definition plain (s : list Z) : Prop :=
  forall pre x r, s = pre ++ x :: 58%Z :: r -> sep x = false -> after_sep pre -> False.
(* every byte is a character: the C locale, and single-byte code pages *)
Definition bytes : list Z -> option nat := fun _ => Some 1.

(* ---- lemmas ---- *)
(* the walk over [rest] after [p] of it: in a name that began at comp, or between names *)
Definition walked (s p : list Z) (c0 comp0 cend0 comp cend : nat) (st : bool) : Prop :=
  if st then exists pre name, p = pre ++ name /\ after_sep pre /\ no_sep name /\ name <> [] /\ comp = c0 + length pre
  else (only_sep p /\ comp = comp0 /\ cend = cend0) \/
       exists pre name tail, p = pre ++ name ++ tail /\ after_sep pre /\ no_sep name /\ name <> [] /\ only_sep tail /\ tail <> [] /\
         comp = c0 + length pre /\ cend = c0 + length pre + length name.

Lemma after_app p l : after_sep p -> only_sep l -> after_sep (p ++ l).
Proof.
  intros A O. destruct l as [|x l0] eqn:E; [now rewrite app_nil_r|]. rewrite <- E in *.
  destruct (exists_last (l := l)) as (l' & c & ->); [rewrite E; discriminate|].
  right. exists (p ++ l'), c. rewrite app_assoc. split; auto. eapply Forall_elt in O. exact O.
Qed.
Lemma after_only l : only_sep l -> after_sep l.
Proof. intros O. apply (after_app [] l); auto. now left. Qed.

Lemma walk_loop s (PL : plain s) : forall rest p fuel c c0 comp0 cend0 comp cend st,
  length rest <= fuel -> s = p ++ rest -> c = c0 + length p -> walked s p c0 comp0 cend0 comp cend st ->
  exists comp' cend', base_loop fuel bytes rest c comp cend st = Ok (comp', cend') /\
    ((only_sep s /\ comp' = comp0 /\ cend' = cend0) \/
     exists pre name tail, base_parts s pre name tail /\ name <> [] /\ comp' = c0 + length pre /\ cend' = c0 + length pre + length name).
Proof.
  induction rest as [|x rest IH]; intros p fuel c c0 comp0 cend0 comp cend st LF S C I.
  - rewrite app_nil_r in S. subst s.
    assert (E : base_loop fuel bytes [] c comp cend st = Ok (comp, if st then c else cend)) by (destruct fuel; reflexivity).
    rewrite E. eexists _, _. split; [reflexivity|].
    destruct st; cbn [walked] in I.
    + right. destruct I as (pre & name & -> & A & N & NN & ->). exists pre, name, [].
      unfold base_parts. rewrite app_nil_r. repeat split; auto; [constructor|congruence|]. rewrite app_length in C. lia.
    + destruct I as [I|(pre & name & tail & -> & A & N & NN & T & TN & -> & ->)]; [now left|].
      right. exists pre, name, tail. unfold base_parts. repeat split; auto. congruence.
  - destruct fuel as [|fuel]; [cbn in LF; lia|]. cbn [length] in LF.
    cbn [base_loop bytes skipn]. unfold bytes at 1.
    assert (S2 : s = (p ++ [x]) ++ rest) by (rewrite <- app_assoc; exact S).
    assert (C2 : c + 1 = c0 + length (p ++ [x])) by (rewrite app_length; cbn; lia).
    change ((x =? SL)%Z || (x =? BSL)%Z) with (sep x).
    destruct (sep x) eqn:SX.
    + eapply (IH (p ++ [x])); eauto; [lia|].
      destruct st; cbn [walked] in *.
      * right. destruct I as (pre & name & -> & A & N & NN & ->). exists pre, name, [x].
        rewrite <- app_assoc. repeat split; auto; try discriminate; [repeat constructor; auto|]. rewrite app_length in C. lia.
      * destruct I as [(O & E1 & E2)|(pre & name & tail & -> & A & N & NN & T & TN & E1 & E2)].
        -- left. repeat split; auto. apply Forall_app. split; auto.
        -- right. exists pre, name, (tail ++ [x]). rewrite <- !app_assoc. repeat split; auto.
           ++ apply Forall_app. split; auto.
           ++ intros Q. apply app_eq_nil in Q. destruct Q. discriminate.
    + assert (IN : walked s (p ++ [x]) c0 comp0 cend0 (if st then comp else c) cend true).
      { destruct st; cbn [walked] in *.
        - destruct I as (pre & name & -> & A & N & NN & ->). exists pre, (name ++ [x]). rewrite <- app_assoc.
          repeat split; auto. + apply Forall_app. split; auto. + intros Q. apply app_eq_nil in Q. destruct Q. discriminate.
        - exists p, [x]. repeat split; auto; try discriminate.
          + destruct I as [(O & _)|(pre & name & tail & -> & A & N & NN & T & TN & _)]; [now apply after_only|].
            destruct (exists_last TN) as (t' & y & ->). right. exists (pre ++ name ++ t'), y. rewrite <- !app_assoc. split; auto.
            eapply Forall_elt in T. exact T.
          + repeat constructor; auto. }
      destruct ((x =? COLON)%Z && (c =? comp + 1)) eqn:CO.
      * destruct st.
        -- exfalso. cbn [walked] in I. destruct I as (pre & name & -> & A & N & NN & ->).
           rewrite app_length in C.
           assert (LN : length name = 1) by lia.
           destruct name as [|y [|? ?]]; cbn in LN; try lia.
           apply (PL pre y rest); auto.
           ++ rewrite S. rewrite <- app_assoc. cbn. f_equal. f_equal. f_equal. unfold COLON in CO. lia.
           ++ inversion N; auto.
        -- eapply (IH (p ++ [x])); eauto. lia.
      * eapply (IH (p ++ [x])); eauto. lia.
Qed.

Lemma cut {A} (pre name tail : list A) : firstn (length pre + length name - length pre) (skipn (length pre) (pre ++ name ++ tail)) = name.
Proof.
  rewrite skipn_app, skipn_all, Nat.sub_diag. cbn [app skipn].
  replace (length pre + length name - length pre) with (length name) by lia.
  rewrite firstn_app, firstn_all, Nat.sub_diag. cbn. now rewrite app_nil_r.
Qed.

Lemma base_plain s : plain s -> exists pre name tail, base_parts s pre name tail /\ basename bytes s = Ok name.
Proof.
  intros PL. destruct (walk_loop s PL s [] (length s) 0 0 0 0 0 0 false) as (a & b & E & R); auto.
  - left. repeat split; constructor.
  - unfold basename. rewrite E. cbn [bind fst snd].
    destruct R as [(O & -> & ->)|(pre & name & tail & P & NN & -> & ->)].
    + exists [], [], s. cbn. repeat split; auto; try constructor; auto.
    + exists pre, name, tail. split; auto. destruct P as (-> & _). cbn [Nat.add]. now rewrite cut.
Qed.

(* the parts are the only ones *)
Lemma base_unique s pre name tail pre2 name2 tail2 : base_parts s pre name tail -> base_parts s pre2 name2 tail2 -> name = name2.
Proof.
  intros (E1 & A1 & N1 & T1 & Z1) (E2 & A2 & N2 & T2 & Z2).
  assert (TT : forall (a b c d : list Z), no_sep b -> no_sep d -> (b = [] -> a = []) -> (d = [] -> c = []) -> forall t u, only_sep t -> only_sep u ->
    a ++ b ++ t = c ++ d ++ u -> a ++ b = c ++ d).
  { intros a b c d Nb Nd Zb Zd t. induction t as [|x t IH] using rev_ind; intros u Tt Tu E.
    - destruct u as [|y u _] using rev_ind; [now rewrite !app_nil_r in E|].
      rewrite app_nil_r in E. destruct b as [|b0 br] eqn:EB.
      + rewrite (Zb eq_refl) in E. cbn in E. symmetry in E. apply app_eq_nil in E. destruct E as (_ & E). apply app_eq_nil in E.
        destruct E as (_ & E). apply app_eq_nil in E. now destruct E.
      + destruct (exists_last (l := b0 :: br) ltac:(discriminate)) as (b' & z & EZ). rewrite EZ in *.
        rewrite !app_assoc in E. apply app_inj_tail in E. destruct E as (_ & ->).
        eapply Forall_elt in Nb. eapply Forall_elt in Tu. congruence.
    - destruct u as [|y u _] using rev_ind.
      + rewrite app_nil_r in E. destruct d as [|b0 br] eqn:EB.
        * rewrite (Zd eq_refl) in E. cbn in E. apply app_eq_nil in E. destruct E as (_ & E). apply app_eq_nil in E.
          destruct E as (_ & E). apply app_eq_nil in E. now destruct E.
        * destruct (exists_last (l := b0 :: br) ltac:(discriminate)) as (b' & z & EZ). rewrite EZ in *.
          rewrite !app_assoc in E. apply app_inj_tail in E. destruct E as (_ & <-).
          eapply Forall_elt in Nd. eapply Forall_elt in Tt. congruence.
      + rewrite !app_assoc in E. apply app_inj_tail in E. destruct E as (E & _). rewrite <- !app_assoc in E.
        apply Forall_app in Tt. apply Forall_app in Tu. eapply (IH u); [apply Tt|apply Tu|exact E]. }
  assert (E : pre ++ name = pre2 ++ name2) by (apply (TT pre name pre2 name2 N1 N2 Z1 Z2 tail tail2 T1 T2); congruence).
  clear TT E1 E2 T1 T2.
  assert (NN : forall (b d a c : list Z), no_sep b -> no_sep d -> after_sep a -> after_sep c -> a ++ b = c ++ d -> b = d).
  { intros b. induction b as [|x b IH] using rev_ind; intros d a c Nb Nd Aa Ac Q.
    - destruct d as [|y d _] using rev_ind; auto. rewrite app_nil_r in Q.
      exfalso. destruct Aa as [->|(a' & z & -> & Z)].
      + symmetry in Q. apply app_eq_nil in Q. destruct Q as (_ & Q). apply app_eq_nil in Q. destruct Q; discriminate.
      + rewrite !app_assoc in Q. apply app_inj_tail in Q. destruct Q as (_ & ->). eapply Forall_elt in Nd. congruence.
    - destruct d as [|y d _] using rev_ind.
      + rewrite app_nil_r in Q. exfalso. destruct Ac as [->|(a' & z & -> & Z)].
        * apply app_eq_nil in Q. destruct Q as (_ & Q). apply app_eq_nil in Q. destruct Q; discriminate.
        * rewrite !app_assoc in Q. apply app_inj_tail in Q. destruct Q as (_ & <-). eapply Forall_elt in Nb. congruence.
      + rewrite !app_assoc in Q. apply app_inj_tail in Q. destruct Q as (Q & ->).
        apply Forall_app in Nb. apply Forall_app in Nd. f_equal. eapply (IH d a c); auto; [apply Nb|apply Nd]. }
  exact (NN name name2 pre pre2 N1 N2 A1 A2 E).
Qed.

Lemma base_is s pre name tail : plain s -> base_parts s pre name tail -> basename bytes s = Ok name.
Proof. intros PL P. destruct (base_plain s PL) as (p2 & n2 & t2 & P2 & E). rewrite E. f_equal. eapply base_unique; eauto. Qed.

(* a drive, or a one-letter name before a colon: what follows the colon counts *)
Lemma base_colon (x : Z) r pre name tail : sep x = false -> plain r -> base_parts r pre name tail ->
  basename bytes (x :: 58%Z :: r) = Ok (match name with [] => [x] | _ => name end).
Proof.
  intros SX PL P. unfold basename. cbn [length base_loop skipn]. unfold bytes at 1.
  change ((x =? SL)%Z || (x =? BSL)%Z) with (sep x). rewrite SX.
  replace ((x =? COLON)%Z && (0 =? 0 + 1)) with false by (rewrite andb_false_r; reflexivity).
  cbn [base_loop skipn]. unfold bytes at 1. cbn [Nat.add]. 
  change ((58 =? SL)%Z || (58 =? BSL)%Z) with false. change ((58 =? COLON)%Z && (1 =? 1)) with true. cbv iota.
  destruct (walk_loop r PL r [] (length r) 2 2 0 1 0 1 false) as (a & b & E & R); auto.
  - left. repeat split; constructor.
  - cbn [Nat.add] in E. rewrite E. cbn [bind fst snd].
    destruct R as [(O & -> & ->)|(pre2 & name2 & tail2 & P2 & NN & -> & ->)].
    + assert (name = []) as ->; [|reflexivity].
      eapply base_unique; [exact P|]. instantiate (1 := r). instantiate (1 := []). repeat split; auto. now left. constructor.
    + rewrite (base_unique _ _ _ _ _ _ _ P P2). destruct P2 as (-> & _).
      destruct name2 as [|n0 nr] eqn:EN; [congruence|]. rewrite <- EN.
      cbn [Nat.add skipn]. f_equal.
      replace (S (S (length pre2 + length name2)) - S (S (length pre2))) with (length pre2 + length name2 - length pre2) by lia.
      apply cut.
Qed.
(* a name with a stream, in a directory: the name is cut *)
Lemma base_stream (x : Z) name : sep x = false -> plain name -> no_sep name -> name <> [] ->
  basename bytes (47%Z :: x :: 58%Z :: name) = Ok name /\ base_parts (47%Z :: x :: 58%Z :: name) [47%Z] (x :: 58%Z :: name) [].
Proof.
  intros SX PL NS NN. split.
  2: { unfold base_parts. rewrite app_nil_r. split; [reflexivity|]. split; [right; exists [], 47%Z; auto|].
       split; [repeat constructor; auto|]. split; [constructor|discriminate]. }
  assert (P : base_parts name [] name []) by (unfold base_parts; rewrite app_nil_r; repeat split; auto; [now left|constructor]).
  assert (R : base_loop (S (length name)) bytes (58%Z :: name) 2 1 0 true = Ok (3, 3 + length name)).
  { change (base_loop (length name) bytes name 3 1 2 false = Ok (3, 3 + length name)).
    destruct (walk_loop name PL name [] (length name) 3 3 1 2 1 2 false) as (a & b & E & R); auto.
    - left. repeat split; constructor.
    - rewrite E. destruct R as [(O & -> & ->)|(pre2 & name2 & tail2 & P2 & N2 & -> & ->)].
      + exfalso. destruct name as [|n0 nr]; [congruence|]. inversion O. inversion NS. congruence.
      + assert (name = name2) by (eapply base_unique; eauto). subst name2.
        destruct P2 as (Q & _). apply (f_equal (@length Z)) in Q. rewrite !app_length in Q.
        repeat f_equal; lia. }
  assert (W : base_loop (S (S (length name))) bytes (x :: 58%Z :: name) 1 0 0 false = Ok (3, 3 + length name)).
  { cbn [base_loop]. unfold bytes at 1. change ((x =? SL)%Z || (x =? BSL)%Z) with (sep x). rewrite SX.
    cbn [skipn Nat.add]. destruct ((x =? COLON)%Z && (1 =? 1)); exact R. }
  unfold basename. change (base_loop (length (47%Z :: x :: 58%Z :: name)) bytes (47%Z :: x :: 58%Z :: name) 0 0 0 false)
    with (base_loop (S (S (length name))) bytes (x :: 58%Z :: name) 1 0 0 false).
  rewrite W. cbn [bind fst snd skipn]. f_equal. replace (3 + length name - 3) with (length name) by lia. apply firstn_all.
Qed.

(* any code page: the walk ends and stays inside the string *)
Lemma base_ends mb : (forall l n, mb l = Some n -> n <= length l) -> forall fuel rest c comp cend st, length rest <= fuel ->
  exists r, base_loop fuel mb rest c comp cend st = Ok r.
Proof.
  intros M. induction fuel as [|k IH]; intros rest c comp cend st L.
  - destruct rest; [|cbn in L; lia]. eexists; reflexivity.
  - destruct rest as [|x rest]; [eexists; reflexivity|]. cbn [base_loop].
    assert (SK : forall n, 1 <= n -> length (skipn n (x :: rest)) <= k) by (intros n N; rewrite skipn_length; cbn [length] in *; lia).
    destruct (mb (x :: rest)) as [[|[|n]]|]; try (eexists; reflexivity).
    + destruct (_ || _); [apply IH, SK; lia|]. destruct (_ && _); [destruct st|]; apply IH, SK; lia.
    + apply IH, SK. lia.
    + apply IH, SK. lia.
Qed.
Lemma base_returns mb s : (forall l n, mb l = Some n -> n <= length l) -> exists r, basename mb s = Ok r.
Proof. intros M. unfold basename. destruct (base_ends mb M (length s) s 0 0 0 false) as (r & ->); auto. eexists; reflexivity. Qed.
