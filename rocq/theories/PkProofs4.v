(* What is in a certificate; what the key functions answer. *)
From Coq Require Import ZArith List Bool Arith Lia.
From Verif Require Import Base PkModel PkProofs PkProofs2 PkProofs3.
Import ListNotations.
Local Open Scope nat_scope.

Section S.
Variable ok mem : nat -> bool.

(* the extensions OpenSSL gave, when it is asked for them one after the other from call t on *)
Fixpoint kept (t : nat) (l : list ext) : list ext :=
  match l with [] => [] | x :: r => (if ok t then [x] else []) ++ kept (S t) r end.

Definition with_exts (d : cert) (l : list ext) : cert :=
  mkC (ver d) (serial d) (from d) (till d) (subject d) (issuer d) (exts d ++ l) (signed d).
Definition with_sig (d : cert) : cert :=
  mkC (ver d) (serial d) (from d) (till d) (subject d) (issuer d) (exts d) true.
Definition with_doc (o : obj) (d : cert) : obj := mkO (kd o) (refs o) (made o) (pub o) d.

Lemma set_doc_eq s c o d : nth_error (heap s) c = Some o -> 0 < refs o ->
  set_doc s c d = Ok (put s (set_nth c (with_doc o d) (heap s))).
Proof.
  intros E R. unfold set_doc, get. rewrite (rd_at _ _ _ E). cbn [bind]. destruct (refs o) eqn:Q; [lia|]. cbn [bind].
  rewrite (wr_set _ _ _ _ E). cbn [bind]. unfold with_doc. rewrite Q. reflexivity.
Qed.

Lemma get_eq s c o : nth_error (heap s) c = Some o -> 0 < refs o -> get s c = Ok o.
Proof. intros E R. unfold get. rewrite (rd_at _ _ _ E). cbn [bind]. destruct (refs o); [lia|]. reflexivity. Qed.

Lemma lt_some {A} (l : list A) i x : nth_error l i = Some x -> i < length l.
Proof. intros E. apply nth_error_Some. congruence. Qed.

Lemma add_ext_doc s c o x : nth_error (heap s) c = Some o -> 0 < refs o ->
  exists s', add_ext ok mem s c x = Ok s' /\ tick s' = S (tick s) /\
    nth_error (heap s') c = Some (with_doc o (with_exts (doc o) (kept (tick s) [x]))) /\
    (forall j, j <> c -> j < length (heap s) -> nth_error (heap s') j = nth_error (heap s) j) /\ length (heap s) <= length (heap s').
Proof.
  intros E R. unfold add_ext, new. cbn [kept]. destruct (ok (tick s)); unfold put; cbn [heap tick pend app]. 
  2:{ eexists. split; [reflexivity|]. cbn [heap tick]. repeat split; auto. rewrite E. f_equal. unfold with_doc, with_exts.
      rewrite app_nil_r. destruct o as [? ? ? ? []]; reflexivity. }
  set (e := length (heap s)). set (x0 := mkO Ext 1 false None blank).
  set (s1 := mkS (heap s ++ [x0]) (S (tick s)) (pend s)).
  assert (E1 : nth_error (heap s1) c = Some o) by (apply nth_app_old; auto).
  rewrite (get_eq s1 c o) by auto. cbn [bind].
  match goal with |- context [set_doc s1 c ?d] => rewrite (set_doc_eq s1 c o d E1 R); set (o1 := with_doc o d) end. cbn [bind].
  assert (ce : c <> e) by (apply lt_some in E; unfold e; lia).
  assert (Ee : nth_error (set_nth c o1 (heap s1)) e = Some x0).
  { rewrite nth_set by congruence. replace (c =? e) with false by (symmetry; apply Nat.eqb_neq; auto). unfold e. cbn [heap s1].
    rewrite nth_error_app2, Nat.sub_diag by auto. reflexivity. }
  unfold free, release, down. cbn [heap put]. rewrite (rd_at _ _ _ Ee). cbn [bind refs x0]. rewrite (wr_set _ _ _ _ Ee). cbn [bind pub].
  eexists. split; [reflexivity|]. cbn [heap tick put]. split; [reflexivity|].
  assert (N : forall j, nth_error (set_nth e (with_refs x0 0) (set_nth c o1 (heap s1))) j =
     if e =? j then Some (with_refs x0 0) else if c =? j then Some o1 else nth_error (heap s1) j).
  { intros j. rewrite nth_set by congruence. destruct (e =? j); auto. apply nth_set. congruence. }
  split; [|split].
  - rewrite N. replace (e =? c) with false by (symmetry; apply Nat.eqb_neq; auto). rewrite Nat.eqb_refl. reflexivity.
  - intros j A B. rewrite N. replace (e =? j) with false by (symmetry; apply Nat.eqb_neq; unfold e; lia).
    replace (c =? j) with false by (symmetry; apply Nat.eqb_neq; auto). cbn [heap s1]. rewrite nth_error_app1; auto.
  - rewrite !set_nth_length. cbn [heap s1]. rewrite app_length. lia.
Qed.

Lemma add_exts_doc l : forall s c o, nth_error (heap s) c = Some o -> 0 < refs o ->
  exists s', add_exts ok mem s c l = Ok s' /\ tick s' = tick s + length l /\
    nth_error (heap s') c = Some (with_doc o (with_exts (doc o) (kept (tick s) l))) /\
    (forall j, j <> c -> j < length (heap s) -> nth_error (heap s') j = nth_error (heap s) j) /\ length (heap s) <= length (heap s').
Proof.
  induction l as [|x l IH]; intros s c o E R.
  - exists s. simpl. repeat split; auto. rewrite E. f_equal. unfold with_doc, with_exts. rewrite app_nil_r. destruct o as [? ? ? ? []]; reflexivity.
  - cbn [add_exts]. destruct (add_ext_doc s c o x E R) as (s1 & -> & T1 & E1 & F1 & L1). cbn [bind].
    destruct (IH s1 c _ E1 R) as (s2 & -> & T2 & E2 & F2 & L2). exists s2. split; auto. split; [cbn [length]; lia|]. split; [|split; [|lia]].
    + rewrite E2. f_equal. unfold with_doc, with_exts. cbn [kept doc exts kd refs made pub ver serial from till subject issuer signed].
      rewrite T1, app_nil_r, app_assoc. reflexivity.
    + intros j A B. rewrite F2 by lia. apply F1; auto.
Qed.

Lemma certify_doc s i k d l : nth_error (heap s) i = Some k -> kd k = Key -> 0 < refs k -> made k = true ->
  ok (tick s) = true -> ok (S (tick s) + length l) = true ->
  exists s', certify ok mem s (Some i) d l = Ok (Some (length (heap s)), s') /\
    nth_error (heap s') (length (heap s)) = Some (mkO Cert 1 false (Some i) (with_sig (with_exts d (kept (S (tick s)) l)))) /\
    nth_error (heap s') i = Some (with_refs k (S (refs k))).
Proof.
  intros E K R M O1 O2. unfold certify, new. rewrite O1. unfold put. cbn [heap tick pend].
  set (c := length (heap s)). set (o0 := mkO Cert 1 false None blank). set (s1 := mkS (heap s ++ [o0]) (S (tick s)) (pend s)).
  assert (ic : i <> c) by (apply lt_some in E; unfold c; lia).
  assert (E1 : nth_error (heap s1) i = Some k) by (apply nth_app_old; auto).
  assert (C1 : nth_error (heap s1) c = Some o0).
  { cbn [heap s1]. unfold c. rewrite nth_error_app2, Nat.sub_diag by auto. reflexivity. }
  unfold set_pubkey. rewrite (get_eq s1 i k E1 R). cbn [bind]. rewrite M. rewrite (wr_set _ _ _ _ E1). cbn [bind].
  set (k1 := with_refs k (S (refs k))).
  assert (C2 : nth_error (set_nth i k1 (heap s1)) c = Some o0).
  { rewrite nth_set by congruence. replace (i =? c) with false by (symmetry; apply Nat.eqb_neq; auto). auto. }
  rewrite (rd_at _ _ _ C2). cbn [bind]. rewrite (wr_set _ _ _ _ C2). cbn [bind kd refs made doc o0].
  set (o1 := mkO Cert 1 false (Some i) blank). set (h2 := set_nth c o1 (set_nth i k1 (heap s1))). set (s2 := put s1 h2).
  assert (N2 : forall j, nth_error h2 j = if c =? j then Some o1 else if i =? j then Some k1 else nth_error (heap s1) j).
  { intros j. unfold h2. rewrite nth_set by congruence. destruct (c =? j); auto. apply nth_set. congruence. }
  assert (C3 : nth_error (heap s2) c = Some o1) by (cbn [heap s2 put]; rewrite N2, Nat.eqb_refl; auto).
  rewrite (set_doc_eq s2 c o1 d C3) by (simpl; lia). cbn [bind].
  set (s3 := put s2 _). assert (C4 : nth_error (heap s3) c = Some (with_doc o1 d)).
  { cbn [heap s3 put]. rewrite nth_set, Nat.eqb_refl by congruence. reflexivity. }
  assert (K4 : nth_error (heap s3) i = Some k1).
  { cbn [heap s3 put]. rewrite nth_set by congruence. replace (c =? i) with false by (symmetry; apply Nat.eqb_neq; auto).
    cbn [heap s2 put]. rewrite N2, Nat.eqb_refl. replace (c =? i) with false by (symmetry; apply Nat.eqb_neq; auto). reflexivity. }
  destruct (add_exts_doc l s3 c _ C4) as (s4 & -> & T4 & C5 & F5 & L5); [simpl; lia|]. cbn [bind].
  assert (K5 : nth_error (heap s4) i = Some k1) by (rewrite F5; auto; eapply lt_some; eauto).
  unfold sign. rewrite (get_eq s4 i k1 K5) by (simpl; lia). cbn [bind ask].
  assert (T3 : tick s3 = S (tick s)) by reflexivity. rewrite T4, T3, O2. cbn [made k1 with_refs]. rewrite M. cbn [andb].
  set (s5 := mkS (heap s4) _ (pend s4)). assert (C6 : nth_error (heap s5) c = nth_error (heap s4) c) by reflexivity. rewrite C5 in C6.
  rewrite (get_eq s5 c _ C6) by (simpl; lia). cbn [bind].
  match goal with |- context [set_doc s5 c ?x] => rewrite (set_doc_eq s5 c _ x C6) by (simpl; lia) end. cbn [bind fst snd].
  eexists. split; [reflexivity|]. cbn [heap put]. rewrite !nth_set by (cbn [heap s5]; congruence). rewrite Nat.eqb_refl. split; [reflexivity|].
  replace (c =? i) with false by (symmetry; apply Nat.eqb_neq; auto). exact K5.
Qed.

(* x509_self and x509_self_req: without the numbers of a key nothing is signed *)
Lemma certify_null s own d l : inv (heap s) own -> exists s', certify ok mem s None d l = Ok (None, s') /\ inv (heap s') own.
Proof.
  intros I. destruct (certify_ok ok mem s own None d l I Logic.I Logic.I) as (r & s' & E & G & I').
  assert (r = None) as ->; [|eauto].
  revert E. unfold certify. destruct (new ok mem Cert s) as [[i|] s5]; [|congruence]. cbn [set_pubkey bind].
  destruct (set_doc s5 i _); try discriminate. cbn [bind]. destruct (add_exts _ _ _ _ _) as [s1| | |]; try discriminate.
  cbn [bind sign fst snd]. intros X. destruct (free s1 (Some i)); try discriminate. cbn [bind] in X. congruence.
Qed.

(* a key that is given has its numbers *)
Lemma rsa_made s own bits r s' : inv (heap s) own -> rsa_pkey false ok mem s bits = Ok (r, s') ->
  match r with
  | Some i => (512 <= bits)%Z /\ i = length (heap s) /\ exists o, nth_error (heap s') i = Some o /\ kd o = Key /\ 0 < refs o /\ made o = true
  | None => True
  end.
Proof.
  intros I E. destruct r as [i|]; auto. destruct (rsa_ok ok mem s own bits I) as (r1 & s1 & E1 & G & I1 & K1).
  rewrite E in E1. injection E1 as <- <-. cbn iota in I1. pose proof E as E0. revert E. unfold rsa_pkey.
  destruct (new_ok ok mem Key s own I) as [(s1 & -> & _ & _)|(s1 & -> & I2 & G2 & N2)]; [discriminate|].
  set (p := length (heap s)) in *. unfold generate.
  destruct (new_ok ok mem Ctx s1 _ I2) as [(s3 & -> & _ & _)|(s3 & -> & I3 & G3 & N3)].
  { cbn [bind fst]. destruct (free _ _); discriminate. }
  set (c := length (heap s1)) in *. unfold ask. cbn [heap tick pend].
  destruct (ok (tick s3) && ok (S (tick s3)) && (512 <=? bits)%Z) eqn:B.
  2:{ cbn [bind fst snd]. destruct (free _ (Some c)); try discriminate. cbn [bind fst snd]. destruct (free _ (Some p)); discriminate. }
  unfold keygen, ask. cbn [heap tick pend]. destruct (ok (S (S (tick s3)))).
  2:{ cbn [bind fst snd]. destruct (free _ (Some c)); try discriminate. cbn [bind fst snd]. destruct (free _ (Some p)); discriminate. }
  set (s4 := mkS (heap s3) _ (pend s3)).
  destruct (complete_ok ok mem s4 _ p I3) as (s5 & -> & I5 & G5 & M5).
  { pose proof (add_le c (add p own) p). pose proof (add_same p own). lia. }
  destruct (proj1 G3 _ _ N2) as (o3 & E3 & K3 & _). destruct (M5 _ E3 K3) as (o5 & E5 & K5 & Md5).
  cbn [bind fst snd]. destruct (free_added _ _ _ I5) as (s6 & -> & I6 & G6). cbn [bind fst snd]. intros X. injection X as <- <-.
  apply andb_true_iff in B. destruct B as (_ & B). split; [lia|]. split; auto.
  destruct (proj1 G6 _ _ E5) as (o6 & E6 & K6 & M6). exists o6. split; auto. split; [congruence|]. split; auto.
  destruct (own_at _ _ _ I1 (add_same p own)) as (o & No & Ro). congruence.
Qed.

Lemma rsa_small s own old bits : inv (heap s) own -> (bits < 512)%Z -> exists s', rsa_pkey old ok mem s bits = Ok (None, s') /\ inv (heap s') own.
Proof.
  intros I B. assert (E : rsa_pkey old ok mem s bits = rsa_pkey false ok mem s bits).
  { unfold rsa_pkey, generate. replace (512 <=? bits)%Z with false by (symmetry; apply Z.leb_gt; lia).
    destruct (new ok mem Key s) as [p s1]. destruct p; auto. destruct (new ok mem Ctx s1) as [c s2]. destruct c; auto.
    unfold ask. rewrite !andb_false_r. reflexivity. }
  rewrite E. destruct (rsa_ok ok mem s own bits I) as (r & s' & R1 & G & I' & K). destruct r as [i|]; [|eauto].
  pose proof (rsa_made _ _ _ _ _ I R1) as (X & _). lia.
Qed.

(* before OpenSSL 3.0 a key that could not be made is released twice *)
Lemma rsa_twice s own bits : inv (heap s) own -> mem (tick s) = true -> (512 <= bits)%Z ->
  ok (1 + tick s) = true -> ok (2 + tick s) = true -> ok (3 + tick s) = true -> ok (4 + tick s) = false ->
  rsa_pkey true ok mem s bits = UB.
Proof.
  intros I M B O1 O2 O3 O4. unfold rsa_pkey, generate, new, keygen, ask, free, release, down, put. rewrite M. cbn [heap tick pend]. simpl Nat.add in *. rewrite O1.
  cbn [heap tick pend]. rewrite O2, O3. replace (512 <=? bits)%Z with true by (symmetry; apply Z.leb_le; lia). cbn [andb].
  cbn [heap tick pend]. rewrite O4. cbn [fst snd].
  set (p := length (heap s)). set (k := mkO Key 1 false None blank). set (x := mkO Ctx 1 false None blank).
  rewrite app_length. cbn [length]. fold p. rewrite Nat.add_1_r.
  set (h := (heap s ++ [k]) ++ [x]).
  assert (Ep : nth_error h p = Some k).
  { unfold h. apply nth_app_old. unfold p. rewrite nth_error_app2, Nat.sub_diag by auto. reflexivity. }
  assert (Ec : nth_error h (S p) = Some x).
  { unfold h. rewrite nth_error_app2; rewrite app_length; cbn [length]; fold p; [|lia]. replace (S p - (p + 1)) with 0 by lia. reflexivity. }
  cbn [heap]. rewrite (rd_at _ _ _ Ep). cbn [bind refs k]. rewrite (wr_set _ _ _ _ Ep). cbn [bind pub fst snd heap].
  set (h1 := set_nth p (with_refs k 0) h).
  assert (Ec1 : nth_error h1 (S p) = Some x).
  { unfold h1. rewrite nth_set by congruence. replace (p =? S p) with false by (symmetry; apply Nat.eqb_neq; lia). auto. }
  assert (Ep1 : nth_error h1 p = Some (with_refs k 0)) by (unfold h1; rewrite nth_set, Nat.eqb_refl by congruence; auto).
  change (pub k) with (@None nat). cbn [bind fst snd heap].
  rewrite (rd_at _ _ _ Ec1). cbn [bind refs x]. rewrite (wr_set _ _ _ _ Ec1). change (pub x) with (@None nat). cbn [bind fst snd heap].
  assert (Ep2 : nth_error (set_nth (S p) (with_refs x 0) h1) p = Some (with_refs k 0)).
  { rewrite nth_set by congruence. replace (S p =? p) with false by (symmetry; apply Nat.eqb_neq; lia). auto. }
  rewrite (rd_at _ _ _ Ep2). reflexivity.
Qed.

(* and writing no key reads through NULL *)
Lemma write_null s own c : inv (heap s) own -> has own c -> ok (tick s) = true -> create_self_ex true ok mem s None c = UB.
Proof.
  intros I H O1. unfold create_self_ex. cbn [bind].
  assert (X : match c with Some i => do _ <- get s i; Ok tt | None => Ok tt end = Ok tt).
  { destruct c as [i|]; auto. destruct (get_ok ok mem s own i I H) as (o & -> & _). reflexivity. }
  rewrite X. cbn [bind]. destruct (write_ok ok mem s own I) as (b & s1 & -> & _). cbn [bind]. unfold new. rewrite O1. reflexivity.
Qed.
End S.
