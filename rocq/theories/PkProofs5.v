(* Subjects. *)
From Coq Require Import ZArith List Bool Arith Lia.
From Verif Require Import Base PkModel PkProofs PkProofs2 PkProofs3 PkProofs4.
Import ListNotations.
Local Open Scope nat_scope.

(* a country: two letters; an organization or domain: 1 to 64 bytes *)
Definition country_ok (o : option text) : Prop :=
  match o with None => True | Some t => exists a b, t = [a; b] /\ ((65 <= a <= 90)%Z /\ (65 <= b <= 90)%Z) end.
Definition name_ok (o : option text) : Prop := match o with None => True | Some t => 1 <= length t <= 64 end.
Definition or_else (o : option text) (d : text) : text := match o with None => d | Some t => t end.
Definition three (c g d : option text) : list (attr * text) :=
  [(AC, or_else c [85; 83]%Z); (AO, or_else g [115; 101; 108; 102; 83; 105; 103; 110; 101; 100]%Z);
   (ACN, or_else d [108; 111; 99; 97; 108; 104; 111; 115; 116]%Z)].

Lemma fits_country o : country_ok o -> fits AC (dflt o us) = true.
Proof.
  destruct o as [t|]; [|reflexivity]. intros (a & b & -> & A & B). cbn [dflt fits length]. simpl. unfold printable.
  replace (65 <=? a)%Z with true by lia. replace (a <=? 90)%Z with true by lia. replace (65 <=? b)%Z with true by lia.
  replace (b <=? 90)%Z with true by lia. reflexivity.
Qed.
Lemma fits_name a o d : a <> AC -> name_ok o -> 1 <= length d <= 64 -> fits a (dflt o d) = true.
Proof.
  intros N H D. assert (X : 1 <= length (dflt o d) <= 64) by (destruct o; auto).
  unfold fits. destruct a; [congruence| |]; apply andb_true_iff; split; apply Nat.leb_le; lia.
Qed.
Lemma name_three c g d : country_ok c -> name_ok g -> name_ok d -> name c g d = three c g d.
Proof.
  intros A B C. unfold name, add_entry. rewrite (fits_country c A), (fits_name AO g self), (fits_name ACN d localhost);
    try discriminate; auto; simpl; try lia.
Qed.
(* an entry that does not fit is left out *)
Lemma name_unfit c g t : country_ok c -> name_ok g -> 64 < length t -> name c g (Some t) = firstn 2 (three c g None).
Proof.
  intros A B C. unfold name, add_entry. rewrite (fits_country c A), (fits_name AO g self); try discriminate; auto; try (simpl; lia).
  cbn [fits dflt]. replace (length t <=? 64) with false by (symmetry; apply Nat.leb_gt; lia). rewrite andb_false_r. reflexivity.
Qed.

Section S.
Variable ok mem : nat -> bool.

(* key i of the caller *)
Definition a_key (s : st) (i : nat) : Prop := exists k, nth_error (heap s) i = Some k /\ kd k = Key /\ 0 < refs k /\ made k = true.

Definition gives (x : outcome (option nat * st)) (i : nat) (d : cert) : Prop :=
  exists c s', x = Ok (Some c, s') /\ nth_error (heap s') c = Some (mkO Cert 1 false (Some i) d).

Lemma self_doc s i c g d : a_key s i -> country_ok c -> name_ok g -> name_ok d -> ok (tick s) = true -> ok (S (tick s)) = true ->
  gives (x509_self ok mem s (Some i) c g d) i (mkC 0 1 0 31536000 (three c g d) (three c g d) [] true).
Proof.
  intros (k & E & K & R & M) A B C O1 O2. unfold x509_self. rewrite (name_three c g d A B C).
  match goal with |- context [certify ok mem s (Some i) ?x ?l] => destruct (certify_doc ok mem s i k x l E K R M O1) as (s' & Es & N & _) end.
  { simpl. rewrite Nat.add_0_r. exact O2. }
  exists (length (heap s)), s'. split; auto.
Qed.

(* b: for each of the seven extensions whether OpenSSL makes it *)
Fixpoint chosen (l : list ext) (b : list bool) : list ext :=
  match l, b with x :: l, y :: b => if y then x :: chosen l b else chosen l b | _, _ => [] end.
Definition seven (t : text) : list ext := [Basic; Usage; San t; Constraints; ExtUsage; Ski; Netscape].

Lemma req_doc s i c g d t n b : a_key s i -> country_ok c -> name_ok g -> name_ok d -> ok (tick s) = true -> ok (8 + tick s) = true ->
  map ok (seq (1 + tick s) 7) = b ->
  gives (x509_self_req ok mem s (Some i) c g d (Some t) n) i
    (mkC 2 n 0 31536000 (three c g d) (three c g d) (chosen (seven t) b) true).
Proof.
  intros (k & E & K & R & M) A B C O1 O2 <-. unfold x509_self_req. rewrite (name_three c g d A B C).
  match goal with |- context [certify ok mem s (Some i) ?x ?l] => destruct (certify_doc ok mem s i k x l E K R M O1) as (s' & Es & N & _) end.
  { rewrite <- O2. f_equal. simpl. lia. }
  exists (length (heap s)), s'. split; auto. rewrite N. do 2 f_equal. unfold with_sig, with_exts. cbn [ver serial from till subject issuer exts signed app].
  f_equal. cbn [kept seq map chosen seven Nat.add].
  repeat match goal with |- context [if ok ?x then _ else _] => destruct (ok x); cbn [app]; try f_equal end; reflexivity.
Qed.

Lemma req_long s i c g x t n : a_key s i -> country_ok c -> name_ok g -> 64 < length x -> (forall j, ok j = true) ->
  gives (x509_self_req ok mem s (Some i) c g (Some x) (Some t) n) i
    (mkC 2 n 0 31536000 (firstn 2 (three c g None)) (firstn 2 (three c g None)) (seven t) true).
Proof.
  intros (k & E & K & R & M) A B L O. unfold x509_self_req. rewrite (name_unfit c g x A B L).
  match goal with |- context [certify ok mem s (Some i) ?x ?l] => destruct (certify_doc ok mem s i k x l E K R M (O _) (O _)) as (s' & Es & N & _) end.
  exists (length (heap s)), s'. split; auto. rewrite N. do 2 f_equal. unfold with_sig, with_exts. cbn [ver serial from till subject issuer exts signed app].
  f_equal. cbn [kept]. rewrite !O. reflexivity.
Qed.
End S.

(* the library's state after any careful calls *)
Definition reached (ok mem : nat -> bool) (s : st) (env : list (option nat)) (sts : list vs) : Prop :=
  exists l, careful [] l = Some sts /\ ((forall t, mem t = true) \/ Forall no_export l) /\ run false ok mem start [] l = Ok (s, env).

Lemma reached_inv ok mem s env sts : reached ok mem s env sts -> R s env sts.
Proof.
  intros (l & C & M & E). destruct (run_ok ok mem l start [] [] sts) as (s' & env' & E' & H); auto.
  { constructor; [constructor|]. constructor; simpl; auto; intros [|i]; discriminate. }
  congruence.
Qed.

Lemma r_rsa ok mem s env sts bits : reached ok mem s env sts ->
  exists r s', rsa_pkey false ok mem s bits = Ok (r, s') /\
    match r with Some i => (512 <= bits)%Z /\ a_key s' i /\ ~ live (heap s) i | None => True end.
Proof.
  intros H. pose proof (ri _ _ _ (reached_inv _ _ _ _ _ H)) as I. destruct (rsa_ok ok mem s _ bits I) as (r & s' & E & _). exists r, s'. split; auto.
  pose proof (rsa_made ok mem _ _ _ _ _ I E) as X. destruct r as [i|]; auto. destruct X as (B & -> & o & X). split; auto. split.
  - exists o. tauto.
  - intros (q & N & _). apply lt_some in N. lia.
Qed.
Lemma r_small ok mem s env sts old bits : reached ok mem s env sts -> (bits < 512)%Z -> exists s', rsa_pkey old ok mem s bits = Ok (None, s').
Proof.
  intros H B. pose proof (ri _ _ _ (reached_inv _ _ _ _ _ H)) as I. destruct (rsa_small ok mem s _ old bits I B) as (s' & E & _). eauto.
Qed.
Lemma r_twice ok mem s env sts bits : reached ok mem s env sts -> mem (tick s) = true -> (512 <= bits)%Z ->
  ok (1 + tick s) = true -> ok (2 + tick s) = true -> ok (3 + tick s) = true -> ok (4 + tick s) = false ->
  rsa_pkey true ok mem s bits = UB.
Proof. intros H. pose proof (ri _ _ _ (reached_inv _ _ _ _ _ H)) as I. intros. eapply rsa_twice; eauto. Qed.
Lemma r_leak ok mem s env sts host alt now : reached ok mem s env sts -> mem (tick s) = false ->
  ok (1 + tick s) = true -> ok (2 + tick s) = true -> ok (3 + tick s) = true -> ok (4 + tick s) = true ->
  exists s' i, x509_self_export false ok mem s host alt now = Ok (false, s') /\ live (heap s') i /\ ~ live (heap s) i /\ pend s' = pend s.
Proof.
  intros H. pose proof (ri _ _ _ (reached_inv _ _ _ _ _ H)) as I. intros.
  destruct (export_leaks ok mem s _ host alt now I) as (s' & E & L & P); auto. exists s', (S (length (heap s))). split; auto. split; auto.
  split; auto. intros (q & N & _). apply lt_some in N. lia.
Qed.
Lemma r_write_null ok mem s env sts w : reached ok mem s env sts -> usable sts w false = true -> ok (tick s) = true ->
  create_self_ex true ok mem s None (nth w env None) = UB.
Proof.
  intros H U O. pose proof (reached_inv _ _ _ _ _ H) as HR. destruct (use_ok _ _ _ _ _ HR U) as (A & _).
  eapply write_null; eauto. exact (ri _ _ _ HR).
Qed.
Lemma r_null ok mem s env sts c g d : reached ok mem s env sts ->
  (exists s', x509_self ok mem s None c g d = Ok (None, s')) /\
  forall t n, exists s', x509_self_req ok mem s None c g d (Some t) n = Ok (None, s').
Proof.
  intros H. pose proof (ri _ _ _ (reached_inv _ _ _ _ _ H)) as I. split; [|intros t n]; unfold x509_self, x509_self_req;
    match goal with |- context [certify ok mem s None ?x ?l] => destruct (certify_null ok mem s _ x l I) as (s' & E & _) end; eauto.
Qed.

(* whatever is done with an object that is gone touches what was released *)
Lemma gone_get s i : i < length (heap s) -> ~ live (heap s) i -> get s i = UB /\ rd (heap s) i <> UB.
Proof.
  intros L N. destruct (nth_error (heap s) i) as [o|] eqn:E; [|apply nth_error_None in E; lia].
  unfold get. rewrite (rd_at _ _ _ E). cbn [bind]. split; [|discriminate].
  destruct (refs o) eqn:Q; auto. exfalso. apply N. exists o. split; auto. lia.
Qed.
Lemma r_gone ok mem s i : i < length (heap s) -> ~ live (heap s) i ->
  free s (Some i) = UB /\
  (forall old c, create_self_ex old ok mem s (Some i) c = UB) /\
  (forall old p, (forall j, p = Some j -> live (heap s) j) -> create_self_ex old ok mem s p (Some i) = UB) /\
  forall c g d, ok (tick s) = true -> x509_self ok mem s (Some i) c g d = UB /\
    forall t n, x509_self_req ok mem s (Some i) c g d (Some t) n = UB.
Proof.
  intros L N. destruct (gone_get s i L N) as (G & _).
  assert (X : forall d l, ok (tick s) = true -> certify ok mem s (Some i) d l = UB).
  { intros d l O. unfold certify, new. rewrite O. cbn [put heap tick pend]. unfold set_pubkey.
    destruct (gone_get (mkS (heap s ++ [mkO Cert 1 false None blank]) (S (tick s)) (pend s)) i) as (G1 & _).
    - cbn [heap]. rewrite app_length. lia.
    - cbn [heap]. intros (o & E & R). apply N. exists o. split; auto. rewrite nth_error_app1 in E; auto.
    - unfold put. cbn [heap tick pend]. rewrite G1. reflexivity. }
  split; [|split; [|split]].
  - unfold free, release, down. destruct (nth_error (heap s) i) as [o|] eqn:E; [|apply nth_error_None in E; lia].
    rewrite (rd_at _ _ _ E). cbn [bind]. destruct (refs o) eqn:Q; [reflexivity|]. exfalso. apply N. exists o. split; auto. lia.
  - intros old c. unfold create_self_ex. rewrite G. reflexivity.
  - intros old p P. unfold create_self_ex.
    assert (match p with Some j => do _ <- get s j; Ok tt | None => Ok tt end = Ok tt) as ->.
    { destruct p as [j|]; auto. destruct (P j eq_refl) as (o & E & R). unfold get. rewrite (rd_at _ _ _ E). cbn [bind]. destruct (refs o); [lia|]. reflexivity. }
    cbn [bind]. rewrite G. reflexivity.
  - intros c g d O. split; [apply X; auto|]. intros t n. apply X; auto.
Qed.
