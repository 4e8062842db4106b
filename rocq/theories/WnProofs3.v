(* The last part of a Windows path in a code page with characters of several bytes. *)
From Verif Require Import Base WnModel WnProofs2.

(* ---- specification: a path as the list of its characters ---- *)
Definition after_mark {A} (sp : A -> bool) (l : list A) : Prop := l = [] \/ exists l' c, l = l' ++ [c] /\ sp c = true.
Definition parts {A} (sp : A -> bool) (s pre name tail : list A) : Prop :=
  s = pre ++ name ++ tail /\ after_mark sp pre /\ Forall (fun c => sp c = false) name /\ Forall (fun c => sp c = true) tail /\ (name = [] -> pre = []).
(* a separator is a character of one byte; the second byte of a longer one may be 92 *)
Definition mark (c : list Z) : bool := match c with [x] => (x =? 47)%Z || (x =? 92)%Z | _ => false end.
Definition decodes (mb : list Z -> option nat) (cs : list (list Z)) : Prop :=
  forall a c b, cs = a ++ c :: b -> 0 < length c /\ mb (c ++ concat b) = Some (length c).
(* no name has a character of one byte and then a colon at its beginning *)
Definition clear (cs : list (list Z)) : Prop :=
  forall pre x r, cs = pre ++ [x] :: [58%Z] :: r -> mark [x] = false -> after_mark mark pre -> False.

Lemma parts_unique {A} (sp : A -> bool) s pre name tail pre2 name2 tail2 : parts sp s pre name tail -> parts sp s pre2 name2 tail2 -> name = name2.
Proof.
  intros (E1 & A1 & N1 & T1 & Z1) (E2 & A2 & N2 & T2 & Z2).
  assert (TT : forall (a b c d : list A), (Forall (fun c => sp c = false)) b -> (Forall (fun c => sp c = false)) d -> (b = [] -> a = []) -> (d = [] -> c = []) -> forall t u, (Forall (fun c => sp c = true)) t -> (Forall (fun c => sp c = true)) u ->
    a ++ b ++ t = c ++ d ++ u -> a ++ b = c ++ d).
  { intros a b c d Nb Nd Zb Zd t. induction t as [|x t IH] using rev_ind; intros u Tt Tu E.
    - destruct u as [|y u _] using rev_ind; [now rewrite !app_nil_r in E|].
      rewrite app_nil_r in E. destruct b as [|b0 br] eqn:EB.
      + rewrite (Zb eq_refl) in E. cbn in E. symmetry in E. apply app_eq_nil in E. destruct E as (_ & E). apply app_eq_nil in E.
        destruct E as (_ & E). apply app_eq_nil in E. now destruct E.
      + destruct (exists_last (l := b0 :: br) ltac:(discriminate)) as (b' & z & EZ). rewrite EZ in *.
        rewrite !app_assoc in E. apply app_inj_tail in E. destruct E as (_ & ->).
        eapply Forall_elt in Nb. eapply Forall_elt in Tu. congruence.
    - destruct u as [|y u _] using rev_ind.
      + rewrite app_nil_r in E. destruct d as [|b0 br] eqn:EB.
        * rewrite (Zd eq_refl) in E. cbn in E. apply app_eq_nil in E. destruct E as (_ & E). apply app_eq_nil in E.
          destruct E as (_ & E). apply app_eq_nil in E. now destruct E.
        * destruct (exists_last (l := b0 :: br) ltac:(discriminate)) as (b' & z & EZ). rewrite EZ in *.
          rewrite !app_assoc in E. apply app_inj_tail in E. destruct E as (_ & <-).
          eapply Forall_elt in Nd. eapply Forall_elt in Tt. congruence.
      + rewrite !app_assoc in E. apply app_inj_tail in E. destruct E as (E & _). rewrite <- !app_assoc in E.
        apply Forall_app in Tt. apply Forall_app in Tu. eapply (IH u); [apply Tt|apply Tu|exact E]. }
  assert (E : pre ++ name = pre2 ++ name2) by (apply (TT pre name pre2 name2 N1 N2 Z1 Z2 tail tail2 T1 T2); congruence).
  clear TT E1 E2 T1 T2.
  assert (NN : forall (b d a c : list A), (Forall (fun c => sp c = false)) b -> (Forall (fun c => sp c = false)) d -> after_mark sp a -> after_mark sp c -> a ++ b = c ++ d -> b = d).
  { intros b. induction b as [|x b IH] using rev_ind; intros d a c Nb Nd Aa Ac Q.
    - destruct d as [|y d _] using rev_ind; auto. rewrite app_nil_r in Q.
      exfalso. destruct Aa as [->|(a' & z & -> & Z)].
      + symmetry in Q. apply app_eq_nil in Q. destruct Q as (_ & Q). apply app_eq_nil in Q. destruct Q; discriminate.
      + rewrite !app_assoc in Q. apply app_inj_tail in Q. destruct Q as (_ & ->). eapply Forall_elt in Nd. congruence.
    - destruct d as [|y d _] using rev_ind.
      + rewrite app_nil_r in Q. exfalso. destruct Ac as [->|(a' & z & -> & Z)].
        * apply app_eq_nil in Q. destruct Q as (_ & Q). apply app_eq_nil in Q. destruct Q; discriminate.
        * rewrite !app_assoc in Q. apply app_inj_tail in Q. destruct Q as (_ & <-). eapply Forall_elt in Nb. congruence.
      + rewrite !app_assoc in Q. apply app_inj_tail in Q. destruct Q as (Q & ->).
        apply Forall_app in Nb. apply Forall_app in Nd. f_equal. eapply (IH d a c); auto; [apply Nb|apply Nd]. }
  exact (NN name name2 pre pre2 N1 N2 A1 A2 E).
Qed.


Lemma mark_after p l : after_mark mark p -> Forall (fun c => mark c = true) l -> after_mark mark (p ++ l).
Proof.
  intros A O. destruct l as [|x l0] eqn:E; [now rewrite app_nil_r|]. rewrite <- E in *.
  destruct (exists_last (l := l)) as (l' & c & ->); [rewrite E; discriminate|].
  right. exists (p ++ l'), c. rewrite app_assoc. split; auto. eapply Forall_elt in O. exact O.
Qed.
Definition went (p : list (list Z)) (comp cend : nat) (st : bool) : Prop :=
  if st then exists pre name, p = pre ++ name /\ after_mark mark pre /\ Forall (fun c => mark c = false) name /\ name <> [] /\ comp = length (concat pre)
  else (Forall (fun c => mark c = true) p /\ comp = 0 /\ cend = 0) \/
       exists pre name tail, p = pre ++ name ++ tail /\ after_mark mark pre /\ Forall (fun c => mark c = false) name /\ name <> [] /\
         Forall (fun c => mark c = true) tail /\ tail <> [] /\ comp = length (concat pre) /\ cend = length (concat pre) + length (concat name).
Lemma len_app (a b : list (list Z)) : length (concat (a ++ b)) = length (concat a) + length (concat b).
Proof. now rewrite concat_app, app_length. Qed.
Lemma len_one (c : list Z) : length (concat [c]) = length c.
Proof. cbn. now rewrite app_nil_r. Qed.

Lemma chars_loop mb s (DE : decodes mb s) (PL : clear s) : forall rest p fuel c comp cend st,
  length (concat rest) <= fuel -> s = p ++ rest -> c = length (concat p) -> went p comp cend st ->
  exists comp' cend', base_loop fuel mb (concat rest) c comp cend st = Ok (comp', cend') /\
    ((Forall (fun c => mark c = true) s /\ comp' = 0 /\ cend' = 0) \/
     exists pre name tail, parts mark s pre name tail /\ name <> [] /\ comp' = length (concat pre) /\ cend' = length (concat pre) + length (concat name)).
Proof.
  induction rest as [|ch rest IH]; intros p fuel c comp cend st LF S C I.
  - rewrite app_nil_r in S. subst s.
    assert (E : base_loop fuel mb (concat []) c comp cend st = Ok (comp, if st then c else cend)) by (destruct fuel; reflexivity).
    rewrite E. eexists _, _. split; [reflexivity|].
    destruct st; cbn [went] in I.
    + right. destruct I as (pre & name & -> & A & N & NN & ->). exists pre, name, [].
      unfold parts. rewrite app_nil_r. repeat split; auto; [congruence|]. rewrite len_app in C. lia.
    + destruct I as [I|(pre & name & tail & -> & A & N & NN & T & TN & -> & ->)]; [now left|].
      right. exists pre, name, tail. unfold parts. repeat split; auto. congruence.
  - destruct (DE p ch rest S) as (CL & MB). destruct ch as [|x more]; [cbn in CL; lia|].
    cbn [concat] in *. rewrite app_length in LF. destruct fuel as [|fuel]; [cbn in LF; lia|].
    assert (S2 : s = (p ++ [x :: more]) ++ rest) by (rewrite <- app_assoc; exact S).
    assert (C2 : c + length (x :: more) = length (concat (p ++ [x :: more]))) by (rewrite len_app, len_one; lia).
    assert (SK : forall r : list Z, skipn (length (x :: more)) ((x :: more) ++ r) = r) by (intros r; rewrite skipn_app, skipn_all, Nat.sub_diag; reflexivity).
    assert (IN : mark (x :: more) = false -> went (p ++ [x :: more]) (if st then comp else c) cend true).
    { intros SX. destruct st; cbn [went] in *.
      - destruct I as (pre & name & -> & A & N & NN & ->). exists pre, (name ++ [x :: more]). rewrite <- app_assoc.
        repeat split; auto. + apply Forall_app. split; auto. + intros Q. apply app_eq_nil in Q. destruct Q. discriminate.
      - exists p, [x :: more]. repeat split; auto; try discriminate.
        destruct I as [(O & _)|(pre & name & tail & -> & A & N & NN & T & TN & _)]; [apply (mark_after []); auto; now left|].
        destruct (exists_last TN) as (t' & y & ->). right. exists (pre ++ name ++ t'), y. rewrite <- !app_assoc. split; auto.
        eapply Forall_elt in T. exact T. }
    change ((x :: more) ++ concat rest) with (x :: (more ++ concat rest)) in *. cbn [base_loop]. rewrite MB.
    destruct more as [|y more].
    + cbn [length]. cbn [length] in C2. change (skipn 1 (x :: [] ++ concat rest)) with (concat rest).
      change ((x =? SL)%Z || (x =? BSL)%Z) with (mark [x]).
      destruct (mark [x]) eqn:SX.
      * eapply (IH (p ++ [[x]])); eauto; [cbn in LF; lia|].
        destruct st; cbn [went] in *.
        -- right. destruct I as (pre & name & -> & A & N & NN & ->). exists pre, name, [[x]].
           rewrite <- app_assoc. repeat split; auto; try discriminate. rewrite len_app in C. lia.
        -- destruct I as [(O & E1 & E2)|(pre & name & tail & -> & A & N & NN & T & TN & E1 & E2)].
           ++ left. repeat split; auto. apply Forall_app. split; auto.
           ++ right. exists pre, name, (tail ++ [[x]]). rewrite <- !app_assoc. repeat split; auto.
              ** apply Forall_app. split; auto.
              ** intros Q. apply app_eq_nil in Q. destruct Q. discriminate.
      * specialize (IN eq_refl). destruct ((x =? COLON)%Z && (c =? comp + 1)) eqn:CO.
        -- destruct st.
           ++ exfalso. cbn [went] in I. destruct I as (pre & name & -> & A & N & NN & ->).
              rewrite len_app in C.
              assert (LN : length (concat name) = 1) by lia.
              assert (NM : exists y, name = [[y]]).
              { assert (DD : forall d, In d name -> 0 < length d).
                { intros d D. apply in_split in D. destruct D as (n1 & n2 & ->). destruct (DE (pre ++ n1) d (n2 ++ [x] :: rest)) as (W & _); [rewrite S, <- !app_assoc; reflexivity|exact W]. }
                destruct name as [|d0 [|d1 nr]]; [congruence| |].
                - cbn in LN. rewrite app_nil_r in LN. destruct d0 as [|y [|? ?]]; cbn in LN; try lia. eauto.
                - assert (W0 := DD d0 (or_introl eq_refl)). assert (W1 := DD d1 (or_intror (or_introl eq_refl))). cbn in LN. rewrite !app_length in LN. lia. }
              destruct NM as (y & ->).
              apply (PL pre y rest); auto.
              ** rewrite S. rewrite <- app_assoc. cbn. repeat f_equal. unfold COLON in CO. lia.
              ** inversion N; auto.
           ++ eapply (IH (p ++ [[x]])); eauto. cbn in LF; lia.
        -- eapply (IH (p ++ [[x]])); eauto. cbn in LF; lia.
    + cbn [length]. change (Datatypes.S (Datatypes.S (length more))) with (length (x :: y :: more)).
      change (x :: (y :: more) ++ concat rest) with ((x :: y :: more) ++ concat rest). rewrite SK.
      eapply (IH (p ++ [x :: y :: more])); eauto. cbn [length] in LF. lia.
Qed.
Lemma base_chars mb s : decodes mb s -> clear s -> exists pre name tail, parts mark s pre name tail /\ basename mb (concat s) = Ok (concat name).
Proof.
  intros DE PL. destruct (chars_loop mb s DE PL s [] (length (concat s)) 0 0 0 false) as (a & b & E & R); auto.
  - left. repeat split; constructor.
  - unfold basename. rewrite E. cbn [bind fst snd].
    destruct R as [(O & -> & ->)|(pre & name & tail & P & NN & -> & ->)].
    + exists [], [], s. cbn. repeat split; auto; try constructor; auto.
    + exists pre, name, tail. split; auto. destruct P as (-> & _). rewrite !concat_app. now rewrite cut.
Qed.
Lemma base_chars_is mb s pre name tail : decodes mb s -> clear s -> parts mark s pre name tail -> basename mb (concat s) = Ok (concat name).
Proof. intros DE PL P. destruct (base_chars mb s DE PL) as (p2 & n2 & t2 & P2 & E). rewrite E. do 2 f_equal. eapply (parts_unique mark); eauto. Qed.

(* ---- drives by the letters themselves ---- *)
Definition letter (c : Z) : Prop := (65 <= c <= 90 \/ 97 <= c <= 122)%Z.
Definition has_drive (s : list Z) : Prop := exists c r, s = c :: 58%Z :: r /\ letter c.
Lemma alpha_letter c : alpha c = true <-> letter c.
Proof. unfold alpha, letter. lia. Qed.
Lemma no_drive s : ~ has_drive s -> drive s = false.
Proof. intros H. destruct s as [|c [|d r]]; try reflexivity. cbn [drive]. unfold COLON. destruct (Z.eqb_spec d 58) as [->|]; [|apply andb_false_r]. rewrite andb_true_r.
  destruct (alpha c) eqn:A; [|easy]. exfalso. apply H. exists c, r. split; [easy|]. now apply alpha_letter. Qed.
