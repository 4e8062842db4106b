(* Each function of the library keeps the count; a careful caller. *)
From Coq Require Import ZArith List Bool Arith Lia.
From Verif Require Import Base PkModel PkProofs.
Import ListNotations.
Local Open Scope nat_scope.

Section S.
Variable ok mem : nat -> bool.
Notation new := (new ok mem).

Definition good (s s' : st) : Prop := frame (heap s) (heap s') /\ pend s' = pend s.
Lemma good_refl s : good s s.
Proof. split; auto. apply frame_refl. Qed.
Lemma good_trans a b c : good a b -> good b c -> good a c.
Proof. intros [F P] [G Q]. split; [eapply frame_trans; eauto|congruence]. Qed.
Lemma good_put s h : frame (heap s) h -> good s (put s h).
Proof. intros F. split; auto. Qed.
Lemma good_ask s : good s (snd (ask ok s)).
Proof. split; auto. apply frame_refl. Qed.

Lemma new_ok k s own : inv (heap s) own ->
  (exists s', new k s = (None, s') /\ inv (heap s') own /\ good s s') \/
  (exists s', new k s = (Some (length (heap s)), s') /\ inv (heap s') (add (length (heap s)) own) /\ good s s' /\
     nth_error (heap s') (length (heap s)) = Some (mkO k 1 false None blank)).
Proof.
  intros I. unfold PkModel.new. destruct (match k with Key => mem (tick s) | _ => ok (tick s) end).
  - right. eexists. split; [reflexivity|]. split; [apply inv_app; auto|]. split.
    + split; auto. apply frame_app.
    + simpl. rewrite nth_error_app2, Nat.sub_diag by auto. reflexivity.
  - left. eexists. split; [reflexivity|]. split; auto. split; auto. apply frame_refl.
Qed.

Lemma get_ok s own i : inv (heap s) own -> 0 < own i ->
  exists o, get s i = Ok o /\ nth_error (heap s) i = Some o /\ 0 < refs o.
Proof.
  intros I P. destruct (own_at _ _ _ I P) as (o & E & R). exists o. unfold get. rewrite (rd_at _ _ _ E). cbn [bind].
  destruct (refs o); [lia|]. auto.
Qed.

Lemma free_ok s own i : inv (heap s) own -> 0 < own i ->
  exists s', free s (Some i) = Ok s' /\ inv (heap s') (sub i own) /\ good s s'.
Proof.
  intros I P. destruct (release_ok _ _ _ I P) as (h & E & I' & F). exists (put s h). unfold free. rewrite E.
  split; [reflexivity|]. split; auto. apply good_put; auto.
Qed.

Lemma free_added s own i : inv (heap s) (add i own) ->
  exists s', free s (Some i) = Ok s' /\ inv (heap s') own /\ good s s'.
Proof.
  intros I. destruct (free_ok s _ i I (add_same i own)) as (s' & E & I' & G). exists s'. split; auto. split; auto.
  eapply inv_ext; [|exact I']. intros; apply sub_add.
Qed.

Lemma complete_ok s own i : inv (heap s) own -> 0 < own i ->
  exists s', complete s i = Ok s' /\ inv (heap s') own /\ good s s' /\
    (forall o, nth_error (heap s) i = Some o -> kd o = Key -> exists o', nth_error (heap s') i = Some o' /\ kd o' = Key /\ made o' = true).
Proof.
  intros I P. destruct (get_ok _ _ _ I P) as (o & E & N & R). unfold complete. rewrite E. cbn [bind].
  rewrite (wr_set _ _ _ _ N). cbn [bind]. eexists. split; [reflexivity|]. split; [|split].
  - eapply inv_same; eauto.
  - apply good_put. eapply frame_set; eauto.
  - intros o2 N2 K. rewrite N in N2. injection N2 as <-. eexists. simpl. rewrite set_nth_same.
    + split; [reflexivity|]. auto.
    + apply nth_error_Some. congruence.
Qed.

Lemma set_doc_ok s own i d : inv (heap s) own -> 0 < own i ->
  exists s', set_doc s i d = Ok s' /\ inv (heap s') own /\ good s s'.
Proof.
  intros I P. destruct (get_ok _ _ _ I P) as (o & E & N & R). unfold set_doc. rewrite E. cbn [bind].
  rewrite (wr_set _ _ _ _ N). cbn [bind]. eexists. split; [reflexivity|]. split; [|split; auto].
  - eapply inv_same; eauto.
  - simpl. eapply frame_set; eauto.
Qed.

(* a key the caller has, or NULL *)
Definition has (own : nat -> nat) (p : option nat) : Prop := match p with Some i => 0 < own i | None => True end.
Definition is_key (h : list obj) (p : option nat) : Prop :=
  match p with Some i => exists o, nth_error h i = Some o /\ kd o = Key | None => True end.
Lemma has_add own p i : has own p -> has (add i own) p.
Proof. destruct p as [j|]; simpl; auto. pose proof (add_le i own j). lia. Qed.
Lemma is_key_frame h h' p : frame h h' -> is_key h p -> is_key h' p.
Proof.
  destruct p as [i|]; simpl; auto. intros F (o & E & K). destruct (F _ _ E) as (o' & E' & K' & _). exists o'. split; auto. congruence.
Qed.

Lemma generate_ok s own p bits : inv (heap s) own -> 0 < own p ->
  exists b s', generate false ok mem s (Some p) bits = Ok (b, s') /\ inv (heap s') own /\ good s s'.
Proof.
  intros I P. unfold generate. destruct (new_ok Ctx s own I) as [(s1 & -> & I1 & G1)|(s1 & -> & I1 & G1 & _)].
  - exists false, s1. auto.
  - set (c := length (heap s)) in *. unfold ask. cbn [tick heap pend].
    set (s3 := mkS (heap s1) (S (S (tick s1))) (pend s1)).
    assert (X : exists b s4, (if ok (tick s1) && ok (S (tick s1)) && (512 <=? bits)%Z then keygen false ok s3 (Some p) else Ok (false, s3))
                = Ok (b, s4) /\ inv (heap s4) (add c own) /\ good s3 s4).
    { destruct (_ && _ && _); [|exists false, s3; split; [reflexivity|]; split; [exact I1|apply good_refl]].
      unfold keygen, ask. cbn [tick heap pend s3]. destruct (ok _).
      - destruct (complete_ok (mkS (heap s1) (S (S (S (tick s1)))) (pend s1)) (add c own) p I1) as (s4 & E & I4 & G4 & _).
        { pose proof (add_le c own p). lia. }
        rewrite E. cbn [bind]. exists true, s4. split; auto.
      - eexists false, _. split; [reflexivity|]. split; [exact I1|]. split; auto. apply frame_refl. }
    destruct X as (b & s4 & -> & I4 & G4). cbn [bind fst snd].
    destruct (free_added _ _ _ I4) as (s5 & -> & I5 & G5). cbn [bind]. exists b, s5. split; auto. split; auto.
    eapply good_trans; [exact G1|]. eapply good_trans; [|exact G5]. exact G4.
Qed.

Lemma rsa_ok s own bits : inv (heap s) own ->
  exists r s', rsa_pkey false ok mem s bits = Ok (r, s') /\ good s s' /\
    match r with Some i => inv (heap s') (add i own) | None => inv (heap s') own end /\ is_key (heap s') r.
Proof.
  intros I. unfold rsa_pkey. destruct (new_ok Key s own I) as [(s1 & -> & I1 & G1)|(s1 & -> & I1 & G1 & N1)].
  - exists None, s1. simpl. auto.
  - set (p := length (heap s)) in *.
    destruct (generate_ok s1 _ p bits I1 (add_same _ _)) as (b & s2 & -> & I2 & G2). cbn [bind fst snd]. destruct b.
    + exists (Some p), s2. split; auto. split; [eapply good_trans; eauto|]. split; auto.
      simpl. destruct (proj1 G2 _ _ N1) as (o & E & K & _). exists o. auto.
    + destruct (free_added _ _ _ I2) as (s3 & -> & I3 & G3). cbn [bind]. exists None, s3. split; auto.
      split; [eapply good_trans; [exact G1|eapply good_trans; eauto]|]. split; simpl; auto.
Qed.

Lemma add_ext_ok s own c x : inv (heap s) own -> 0 < own c ->
  exists s', add_ext ok mem s c x = Ok s' /\ inv (heap s') own /\ good s s'.
Proof.
  intros I P. unfold add_ext. destruct (new_ok Ext s own I) as [(s1 & -> & I1 & G1)|(s1 & -> & I1 & G1 & N1)].
  - exists s1. auto.
  - set (e := length (heap s)) in *.
    assert (P1 : 0 < add e own c) by (pose proof (add_le e own c); lia).
    destruct (get_ok _ _ _ I1 P1) as (o & -> & No & _). cbn [bind].
    match goal with |- context [set_doc s1 c ?d] => destruct (set_doc_ok s1 _ c d I1 P1) as (s2 & E & I2 & G2) end.
    rewrite E. cbn [bind].
    destruct (free_added _ _ _ I2) as (s3 & -> & I3 & G3). exists s3. split; auto. split; auto.
    eapply good_trans; [exact G1|eapply good_trans; eauto].
Qed.

Lemma add_exts_ok l : forall s own c, inv (heap s) own -> 0 < own c ->
  exists s', add_exts ok mem s c l = Ok s' /\ inv (heap s') own /\ good s s'.
Proof.
  induction l as [|x l IH]; intros s own c I P; simpl.
  - exists s. split; auto. split; auto. apply good_refl.
  - destruct (add_ext_ok _ _ _ x I P) as (s1 & -> & I1 & G1). cbn [bind].
    destruct (IH _ _ _ I1 P) as (s2 & E & I2 & G2). exists s2. split; auto. split; auto. eapply good_trans; eauto.
Qed.

Lemma set_pubkey_ok s own c p o : inv (heap s) own -> has own p -> is_key (heap s) p ->
  nth_error (heap s) c = Some o -> kd o = Cert -> pub o = None -> 0 < refs o ->
  exists s', set_pubkey s c p = Ok s' /\ inv (heap s') own /\ good s s'.
Proof.
  intros I H K E Ko Po R. destruct p as [i|]; simpl.
  2:{ exists s. split; auto. split; auto. apply good_refl. }
  simpl in H, K. destruct (get_ok _ _ _ I H) as (k & -> & Nk & Rk). cbn [bind]. destruct K as (k' & Nk' & Kk).
  rewrite Nk in Nk'. injection Nk' as <-. destruct (made k) eqn:M.
  2:{ exists s. split; auto. split; auto. apply good_refl. }
  rewrite (wr_set _ _ _ _ Nk). cbn [bind].
  assert (E1 : nth_error (set_nth i (with_refs k (S (refs k))) (heap s)) c = Some o).
  { rewrite nth_set by congruence. replace (i =? c) with false; auto. symmetry. apply Nat.eqb_neq. intros ->. congruence. }
  rewrite (rd_at _ _ _ E1). cbn [bind]. rewrite (wr_set _ _ _ _ E1). cbn [bind]. eexists. split; [reflexivity|]. split.
  - apply link_ok; auto.
  - apply good_put. eapply frame_trans; eapply frame_set; eauto.
Qed.

Lemma sign_ok s own c p : inv (heap s) own -> 0 < own c -> has own p ->
  exists b s', sign ok s c p = Ok (b, s') /\ inv (heap s') own /\ good s s'.
Proof.
  intros I P H. destruct p as [i|]; unfold sign.
  2:{ exists false, s. split; auto. split; auto. apply good_refl. }
  destruct (get_ok _ _ _ I H) as (k & -> & _). cbn [bind ask].
  set (s1 := mkS (heap s) (S (tick s)) (pend s)). assert (I1 : inv (heap s1) own) by exact I.
  assert (G1 : good s s1) by (split; auto; apply frame_refl).
  destruct (made k && ok (tick s)).
  - destruct (get_ok s1 _ _ I1 P) as (o & -> & _). cbn [bind].
    match goal with |- context [set_doc s1 c ?d] => destruct (set_doc_ok s1 _ c d I1 P) as (s2 & E & I2 & G2) end.
    rewrite E. cbn [bind].
    exists true, s2. split; auto.
  - exists false, s1. auto.
Qed.

Lemma certify_ok s own p d l : inv (heap s) own -> has own p -> is_key (heap s) p ->
  exists r s', certify ok mem s p d l = Ok (r, s') /\ good s s' /\
    match r with Some i => inv (heap s') (add i own) | None => inv (heap s') own end.
Proof.
  intros I H K. unfold certify. destruct (new_ok Cert s own I) as [(s1 & -> & I1 & G1)|(s1 & -> & I1 & G1 & N1)].
  - exists None, s1. auto.
  - set (c := length (heap s)) in *. pose proof (add_same c own) as P. pose proof (has_add _ _ c H) as H1.
    pose proof (is_key_frame _ _ _ (proj1 G1) K) as K1.
    destruct (set_pubkey_ok _ _ _ _ _ I1 H1 K1 N1) as (s2 & -> & I2 & G2); auto. cbn [bind].
    destruct (set_doc_ok _ _ _ d I2 P) as (s3 & -> & I3 & G3). cbn [bind].
    destruct (add_exts_ok l _ _ _ I3 P) as (s4 & -> & I4 & G4). cbn [bind].
    destruct (sign_ok _ _ _ _ I4 P H1) as (b & s5 & -> & I5 & G5). cbn [bind fst snd].
    assert (G : good s s5) by (eapply good_trans; [exact G1|]; eapply good_trans; [exact G2|]; eapply good_trans; [exact G3|];
                               eapply good_trans; eauto).
    destruct b.
    + exists (Some c), s5. auto.
    + destruct (free_added _ _ _ I5) as (s6 & -> & I6 & G6). cbn [bind]. exists None, s6. split; auto. split; auto.
      eapply good_trans; eauto.
Qed.

Lemma write_ok s own : inv (heap s) own -> exists b s', write ok mem s = Ok (b, s') /\ inv (heap s') own /\ good s s'.
Proof.
  intros I. unfold write. destruct (new_ok Bio s own I) as [(s1 & -> & I1 & G1)|(s1 & -> & I1 & G1 & N1)].
  - exists false, s1. auto.
  - cbn [ask]. destruct (free_added (mkS (heap s1) (S (tick s1)) (pend s1)) _ _ I1) as (s2 & E & I2 & G2). rewrite E. cbn [bind].
    eexists _, s2. split; [reflexivity|]. split; auto. eapply good_trans; [exact G1|]. exact G2.
Qed.

Lemma create_ok s own p c : inv (heap s) own -> has own p -> has own c ->
  exists b s', create_self_ex false ok mem s p c = Ok (b, s') /\ inv (heap s') own /\ good s s'.
Proof.
  intros I Hp Hc. unfold create_self_ex.
  assert (A : forall q, has own q -> match q with Some i => do _ <- get s i; Ok tt | None => Ok tt end = Ok tt).
  { intros [i|] Q; auto. destruct (get_ok _ _ _ I Q) as (o & -> & _). reflexivity. }
  rewrite (A p Hp), (A c Hc). cbn [bind]. destruct (write_ok _ _ I) as (b & s1 & -> & I1 & G1). cbn [bind fst snd andb].
  destruct (write_ok _ _ I1) as (b2 & s2 & -> & I2 & G2). cbn [bind fst snd].
  destruct p; eexists _, s2; (split; [reflexivity|]); (split; [auto|]); eapply good_trans; eauto.
Qed.

Lemma export_ok s own host alt now : inv (heap s) own -> (forall t, mem t = true) ->
  exists b s', x509_self_export false ok mem s host alt now = Ok (b, s') /\ inv (heap s') own /\ good s s'.
Proof.
  intros I M. unfold x509_self_export. destruct (new_ok Key s own I) as [(s1 & E & _)|(s1 & -> & I1 & G1 & N1)].
  { exfalso. unfold PkModel.new in E. rewrite M in E. discriminate. }
  set (p := length (heap s)) in *.
  destruct (generate_ok s1 _ p 4096%Z I1 (add_same _ _)) as (b & s2 & -> & I2 & G2). cbn [bind fst snd].
  assert (X : exists y s3,
    (if b then do c <- x509_self_req ok mem s2 (Some p) None None (Some host) (Some alt) now;
               match fst c with
               | Some i => do w <- create_self_ex false ok mem (snd c) (Some p) (Some i);
                           do s2 <- free (snd w) (Some i); Ok (fst w, s2)
               | None => Ok (false, snd c)
               end
     else Ok (b, s2)) = Ok (y, s3) /\ inv (heap s3) (add p own) /\ good s2 s3).
  { destruct b; [|exists false, s2; split; auto; split; auto; apply good_refl].
    unfold x509_self_req.
    edestruct (certify_ok s2 (add p own) (Some p)) as (r & s3 & E & G3 & I3); [exact I2|apply add_same| |].
    { simpl. destruct (proj1 G2 _ _ N1) as (o & Eo & Ko & _). exists o. auto. }
    rewrite E. cbn [bind fst snd]. destruct r as [i|].
    - destruct (create_ok s3 _ (Some p) (Some i) I3) as (w & s4 & -> & I4 & G4).
      + simpl. pose proof (add_le i (add p own) p). pose proof (add_same p own). lia.
      + simpl. apply add_same.
      + cbn [bind fst snd]. destruct (free_added _ _ _ I4) as (s5 & -> & I5 & G5). cbn [bind]. exists w, s5. split; auto. split; auto.
        eapply good_trans; [exact G3|]. eapply good_trans; eauto.
    - exists false, s3. auto. }
  destruct X as (y & s3 & -> & I3 & G3). cbn [bind fst snd].
  destruct (free_added _ _ _ I3) as (s4 & -> & I4 & G4). cbn [bind]. exists y, s4. split; auto. split; auto.
  eapply good_trans; [exact G1|]. eapply good_trans; [exact G2|]. eapply good_trans; eauto.
Qed.

Lemma file_ok s own o : inv (heap s) own -> refs o = 1 -> pub o = None ->
  exists r s', from_file ok mem s o = Ok (r, s') /\ frame (heap s) (heap s') /\
    match r with
    | Some i => inv (heap s') (add i own) /\ pend s' = i :: pend s /\ exists x, nth_error (heap s') i = Some x /\ kd x = kd o
    | None => inv (heap s') own /\ pend s' = pend s
    end.
Proof.
  intros I R P. unfold from_file. destruct (new_ok Bio s own I) as [(s1 & -> & I1 & G1)|(s1 & -> & I1 & G1 & N1)].
  - exists None, s1. destruct G1. auto.
  - cbn [ask heap tick pend]. set (f := length (heap s)) in *. destruct (ok (tick s1)); unfold put; cbn [heap tick pend].
    + set (i := length (heap s1)). pose proof (inv_app _ _ o I1 R P) as I2. fold i in I2.
      assert (I2' : inv (heap s1 ++ [o]) (add f (add i own))).
      { eapply inv_ext; [|exact I2]. intros j. unfold add. lia. }
      destruct (free_added (mkS (heap s1 ++ [o]) (S (tick s1)) (pend s1)) _ _ I2') as (s3 & -> & I3 & G3). cbn [bind].
      eexists (Some i), _. split; [reflexivity|]. cbn [heap pend]. destruct G1 as [F1 P1], G3 as [F3 P3]. cbn [heap pend] in F3, P3.
      split; [eapply frame_trans; [exact F1|eapply frame_trans; [apply frame_app|exact F3]]|].
      split; auto. split; [congruence|]. destruct (F3 i o) as (x & Ex & Kx & _).
      * unfold i. rewrite nth_error_app2, Nat.sub_diag by auto. reflexivity.
      * exists x. auto.
    + destruct (free_added (mkS (heap s1) (S (tick s1)) (pend s1)) _ _ I1) as (s3 & -> & I3 & G3). cbn [bind].
      exists None, s3. split; auto. destruct G1 as [F1 P1], G3 as [F3 P3]. cbn [heap pend] in F3, P3.
      split; [eapply frame_trans; eauto|]. split; auto. congruence.
Qed.
End S.
