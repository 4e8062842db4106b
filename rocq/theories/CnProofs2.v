(* The names of the certificate and key files: once the directory is chosen they stay. *)
From Verif Require Import Base CnModel CnProofs.
From Coq Require Import Lia.
Open Scope Z_scope.
Open Scope list_scope.

(* calls that neither choose a directory nor end the program *)
Definition quiet (o : op) : Prop :=
  match o with CertPath _ | UseCert _ | UseClient | Again => False | _ => True end.

Section P.
Variable PM MH : nat.
Variable e : env.
Hypothesis HP : (3 < PM)%nat.
Hypothesis HM : (10 <= MH)%nat.
Hypothesis HG : hosts MH e.

(* what one call leaves alone *)
Lemma setup_dir s : dir (names_setup PM MH e s) = dir s.
Proof.
  unfold names_setup. destruct (host_files MH e s) as (_ & _ & _ & _ & H). destruct (hostname MH e s) as [n s1].
  cbn [snd] in H. destruct (cert s1); auto.
Qed.
Lemma cert_dir s : dir (snd (cert_file PM MH e s)) = dir s.
Proof. unfold cert_file. cbn [snd]. destruct (cert s); auto using setup_dir. Qed.
Lemma csr_dir s : dir (snd (csr_file PM MH e s)) = dir s.
Proof. unfold csr_file. cbn [snd]. destruct (csr s); auto using setup_dir. Qed.
Lemma pkey_dir s : dir (snd (pkey_file PM MH e s)) = dir s.
Proof. unfold pkey_file. cbn [snd]. destruct (pkey s); auto using setup_dir. Qed.
Lemma write_dir p c s : dir (snd (write e p c s)) = dir s.
Proof. unfold write. destruct (wr_ e (tick s)); auto. Qed.
Lemma export_dir s : dir (snd (export PM MH e s)) = dir s.
Proof.
  unfold export. set (s0 := mkSt _ _ _ _ _ _ _ _ _ _ _). destruct (gen e (tick s)); [|reflexivity].
  destruct (host_files MH e s0) as (_ & _ & _ & _ & H). destruct (hostname MH e s0) as [n s1]. cbn [snd] in H.
  pose proof (pkey_dir s1) as H1. destruct (pkey_file PM MH e s1) as [pk s2]. cbn [snd] in H1.
  pose proof (write_dir pk (Key (nkey s)) s2) as H2. destruct (write e pk (Key (nkey s)) s2) as [a s3]. cbn [snd] in H2.
  pose proof (cert_dir s3) as H3. destruct (cert_file PM MH e s3) as [ct s4]. cbn [snd] in H3.
  pose proof (write_dir ct (Cert (nkey s)) s4) as H4. destruct (write e ct (Cert (nkey s)) s4) as [b s5]. cbn [snd] in H4.
  cbn [snd]. rewrite H4, H3, H2, H1, H. reflexivity.
Qed.

Lemma quiet_dir dflt o s : quiet o -> dir (step PM MH e dflt o s) = dir s.
Proof.
  destruct o; cbn [quiet step]; intros Q; try contradiction.
  - apply (host_files MH e s).
  - apply cert_dir.
  - apply csr_dir.
  - apply pkey_dir.
  - unfold use_ca. destruct (ca s); auto.
  - unfold ca_file, use_ca. cbn [snd]. destruct (ca s) eqn:E; auto.
  - apply export_dir.
Qed.

Lemma quiet_run dflt os : forall s, Forall quiet os -> dir (run PM MH e dflt os s) = dir s.
Proof.
  induction os as [|o r IH]; intros s F; [reflexivity|]. inversion F; subst. cbn [run]. rewrite IH by auto.
  apply quiet_dir; auto.
Qed.

(* the directory is chosen: the names stay *)
Definition same (D h d : text) (s : st) : Prop := named D h s /\ dir s = d.

Lemma host_same D h d s : same D h d s -> same D h d (snd (hostname MH e s)).
Proof. intros [(A & B & C) F]. destruct (host_files MH e s) as (_ & P1 & P2 & P3 & P4). split; [split; [|split]|]; congruence. Qed.

Lemma default_same D h d p s : d <> [] -> same D h d s -> same D h d (snd (default_file PM MH e p s)).
Proof.
  intros Nd Sm. pose proof (host_same D h d s Sm) as J. unfold default_file.
  destruct (hostname MH e s) as [n s1]. cbn [snd] in J.
  destruct (dir s1) eqn:E; [destruct J as [_ J]; rewrite J in E; contradiction|].
  destruct p; cbn [snd]; exact J.
Qed.

Lemma export_same D h d s : same D h d s -> same D h d (snd (export PM MH e s)).
Proof.
  intros Sm. unfold export. set (s0 := mkSt _ _ _ _ _ _ _ _ _ _ _).
  assert (J0 : same D h d s0) by exact Sm. destruct (gen e (tick s)); [|exact J0].
  pose proof (host_same D h d s0 J0) as J1. destruct (hostname MH e s0) as [n s1]. cbn [snd] in J1.
  destruct (named_asks PM MH e D h s1 (proj1 J1)) as (_ & _ & Q). rewrite Q. clear Q.
  assert (W : forall p c s, same D h d s -> same D h d (snd (write e p c s))).
  { intros p c z K. unfold write. destruct (wr_ e (tick z)); exact K. }
  pose proof (W (pkey s1) (Key (nkey s)) s1 J1) as J2. destruct (write e (pkey s1) (Key (nkey s)) s1) as [a s3]. cbn [snd] in J2.
  destruct (named_asks PM MH e D h s3 (proj1 J2)) as (Q & _). rewrite Q. clear Q.
  pose proof (W (cert s3) (Cert (nkey s)) s3 J2) as J3. destruct (write e (cert s3) (Cert (nkey s)) s3) as [b s4]. exact J3.
Qed.

Lemma touch_same D h d p s : same D h d s -> same D h d (touch_file e p s).
Proof. intros J. unfold touch_file. destruct (wr_ e (tick s)); [|destruct (look p (files s))..]; exact J. Qed.

Lemma step_same dflt o D h d s : d <> [] -> o <> Again -> same D h d s -> same D h d (step PM MH e dflt o s).
Proof.
  intros Nd No J. destruct (named_asks PM MH e D h s (proj1 J)) as (Q1 & Q2 & Q3).
  destruct o; cbn [step]; try congruence.
  - apply host_same; auto.
  - rewrite Q1; exact J.
  - rewrite Q2; exact J.
  - rewrite Q3; exact J.
  - unfold cert_path. cbn [snd]. destruct (dir s) eqn:E; auto. destruct J as [_ J]; congruence.
  - unfold use_cert. destruct p as [p|]; [apply default_same; auto|].
    pose proof (default_same D h d None s Nd J) as K. destruct (default_file PM MH e None s) as [t s1]. cbn [snd] in K.
    destruct (exists_ t s1); auto. pose proof (export_same D h d s1 K) as L. destruct (export PM MH e s1) as [ok s2].
    cbn [snd] in L. destruct ok; auto using touch_same.
  - unfold use_client. pose proof (host_same D h d s J) as K. destruct (hostname MH e s) as [n s1]. cbn [snd] in K.
    set (s2 := mkSt _ _ _ _ _ _ _ true _ _ _). assert (K2 : same D h d s2) by exact K.
    destruct (exists_ (touch s2) s2); auto.
    pose proof (default_same D h d (Some here) s2 Nd K2) as K3. destruct (default_file PM MH e (Some here) s2) as [t s3].
    cbn [snd] in K3. pose proof (export_same D h d s3 K3) as L. destruct (export PM MH e s3) as [ok s4].
    cbn [snd] in L. destruct ok; auto using touch_same.
  - unfold use_ca. destruct (ca s); exact J.
  - unfold ca_file, use_ca. cbn [snd]. destruct (ca s) eqn:E; exact J.
  - apply export_same; auto.
Qed.

Lemma run_same dflt os : forall D h d s, d <> [] -> ~ In Again os -> same D h d s -> same D h d (run PM MH e dflt os s).
Proof.
  induction os as [|o r IH]; intros D h d s Nd No J; [exact J|]. cbn [run]. apply IH; auto.
  - intros K. apply No. right; auto.
  - apply step_same; auto. intros ->. apply No. left; auto.
Qed.

(* the first choice of a directory *)
Lemma default_first (P : text -> Prop) p s : inv PM e P s -> dir s = [] -> or_up p <> [] ->
  same (put PM (or_up p)) (fst (hostname MH e s)) (put PM (or_up p)) (snd (default_file PM MH e p s)).
Proof.
  intros Iv Hd Nz. unfold default_file. destruct (host_inv PM MH e HP HM P s Iv) as [J L].
  destruct (host_files MH e s) as (_ & _ & _ & _ & Hd1).
  destruct (hostname MH e s) as [n s1]. cbn [fst snd] in *. rewrite Hd in Hd1. rewrite Hd1.
  destruct (zero (or_up p)) eqn:Z; [destruct (or_up p); [contradiction|discriminate]|].
  pose proof (name_len PM MH e HP HM HG _ L) as L'. pose proof (put_len PM (or_up p) ltac:(lia)) as Q.
  destruct p; cbn [snd]; (split; [|reflexivity]); unfold named;
    cbn [cert csr pkey dir set_dir set_touch]; (split; [|split]); apply put_id; rewrite !app_length; unfold crt, csr_, key_; cbn [length]; lia.
Qed.

Lemma put_ne p : p <> [] -> put PM p <> [].
Proof. intros N. unfold put. replace (PM - 1)%nat with (S (PM - 2)) by lia. destruct p; [contradiction|discriminate]. Qed.

Lemma first_choice (P : text -> Prop) p s : P [] -> inv PM e P s -> dir s = [] -> or_up p <> [] ->
  exists h, isname e h /\ same (put PM (or_up p)) h (put PM (or_up p)) (use_cert PM MH e p s).
Proof.
  intros P0 Iv Hd Nz. exists (fst (hostname MH e s)). split; [apply (host_inv PM MH e HP HM P s Iv)|].
  pose proof (default_first P p s Iv Hd Nz) as J. unfold use_cert. destruct p as [p|]; [exact J|].
  destruct (default_file PM MH e None s) as [t s1]. cbn [snd] in J.
  destruct (exists_ t s1); auto. match goal with |- same ?a ?b ?c _ => pose proof (export_same a b c s1 J) as L end.
  destruct (export PM MH e s1) as [ok s2]. cbn [snd] in L. destruct ok; auto using touch_same.
Qed.

(* a directory chosen before there are names: they never get one *)
Lemma default_late (P : text -> Prop) p s : inv PM e P s -> dir s <> [] ->
  inv PM e P (snd (default_file PM MH e p s)) /\ dir (snd (default_file PM MH e p s)) = dir s.
Proof.
  intros Iv Nd. unfold default_file. destruct (host_inv PM MH e HP HM P s Iv) as [J _].
  destruct (host_files MH e s) as (_ & _ & _ & _ & Hd1).
  destruct (hostname MH e s) as [n s1]. cbn [snd] in *. rewrite <- Hd1 in Nd |- *.
  destruct (dir s1) eqn:E; [contradiction|]. destruct J as [A B C]. rewrite E in B.
  destruct p; cbn [snd]; (split; [split; cbn; rewrite ?E; auto|]); cbn; auto.
Qed.

Lemma late_step (P : text -> Prop) dflt o s : P [] -> o <> Again -> inv PM e P s -> dir s <> [] ->
  inv PM e P (step PM MH e dflt o s) /\ dir (step PM MH e dflt o s) = dir s.
Proof.
  intros P0 No Iv Nd.
  assert (Q : quiet o -> inv PM e P (step PM MH e dflt o s) /\ dir (step PM MH e dflt o s) = dir s).
  { intros Q. split; [|apply quiet_dir; auto]. destruct o; cbn [quiet step] in *; try contradiction.
    - apply host_inv; auto.
    - apply cert_inv; auto.
    - apply csr_inv; auto.
    - apply pkey_inv; auto.
    - unfold use_ca. destruct (ca s); auto. destruct Iv; split; auto.
    - unfold ca_file, use_ca. cbn [snd]. destruct (ca s) eqn:E; auto. destruct Iv; split; auto.
    - apply export_inv; auto. }
  destruct o; try (apply Q; exact I); try congruence; clear Q; cbn [step].
  - unfold cert_path. cbn [snd]. destruct (dir s) eqn:E; [contradiction|]. auto.
  - unfold use_cert. destruct p as [p|]; [apply default_late; auto|].
    destruct (default_late P None s Iv Nd) as [J D1]. destruct (default_file PM MH e None s) as [t s1]. cbn [snd] in *.
    destruct (exists_ t s1); auto. pose proof (export_inv PM MH e HP HM HG P s1 P0 J) as K. pose proof (export_dir s1) as D2.
    destruct (export PM MH e s1) as [ok s2]. cbn [snd] in *. destruct ok; [|split; congruence].
    split; [apply touch_inv; auto|]. rewrite <- D1, <- D2. unfold touch_file. destruct (wr_ e (tick s2)); [|destruct (look (touch s2) (files s2))..]; auto.
  - unfold use_client. destruct (host_inv PM MH e HP HM P s Iv) as [J _]. destruct (host_files MH e s) as (_ & _ & _ & _ & D0).
    destruct (hostname MH e s) as [n s0]. cbn [snd] in *.
    set (s1 := mkSt _ _ _ _ _ _ _ true _ _ _). assert (J1 : inv PM e P s1) by (destruct J; split; auto).
    assert (D1 : dir s1 = dir s) by exact D0.
    destruct (exists_ (touch s1) s1); auto.
    destruct (default_late P (Some here) s1 J1 ltac:(congruence)) as [J3 D3]. destruct (default_file PM MH e (Some here) s1) as [t s3].
    cbn [snd] in *. pose proof (export_inv PM MH e HP HM HG P s3 P0 J3) as K. pose proof (export_dir s3) as D4.
    destruct (export PM MH e s3) as [ok s4]. cbn [snd] in *. destruct ok; [|split; congruence].
    split; [apply touch_inv; auto|]. rewrite <- D1, <- D3, <- D4. unfold touch_file. destruct (wr_ e (tick s4)); [|destruct (look (touch s4) (files s4))..]; auto.
Qed.

Lemma late_run (P : text -> Prop) dflt os : forall s, P [] -> ~ In Again os -> inv PM e P s -> dir s <> [] ->
  inv PM e P (run PM MH e dflt os s).
Proof.
  induction os as [|o r IH]; intros s P0 No Iv Nd; [exact Iv|]. cbn [run].
  destruct (late_step P dflt o s P0 ltac:(intros ->; apply No; left; auto) Iv Nd) as [J D].
  apply IH; auto. intros K; apply No; right; auto. congruence.
Qed.

Lemma same_asks D h d s : same D h d s -> forall a, asking PM MH e a s = (D ++ h ++ ending a, s).
Proof.
  intros [N _]. destruct (named_asks PM MH e D h s N) as (Q1 & Q2 & Q3). destruct N as (N1 & N2 & N3).
  intros []; cbn [asking ending]; rewrite ?Q1, ?Q2, ?Q3, ?N1, ?N2, ?N3; auto.
Qed.
End P.

Lemma run_app PM MH e dflt a b s : run PM MH e dflt (a ++ b) s = run PM MH e dflt b (run PM MH e dflt a s).
Proof. revert s. induction a; intros s; [reflexivity|]. cbn [app run]. apply IHa. Qed.

Definition chosen (PM : nat) (p : option text) : text :=
  match p with None => [46; 46; 47] | Some t => firstn (PM - 1) t end.

Lemma c169_stay PM MH e dflt pre p fs t k : (3 < PM)%nat -> (10 <= MH)%nat -> hosts MH e -> Forall quiet pre -> p <> Some [] ->
  exists h, isname e h /\ forall post, ~ In Again post ->
    let s := run PM MH e dflt (pre ++ UseCert p :: post) (fresh fs t k) in
    forall a, asking PM MH e a s = (chosen PM p ++ h ++ ending a, s).
Proof.
  intros HP HM HG Q Np. set (s1 := run PM MH e dflt pre (fresh fs t k)).
  assert (Iv : inv PM e (place PM pre) s1) by (apply start_inv; auto).
  assert (Nz : or_up p <> []) by (destruct p as [[|]|]; cbn; [contradiction|discriminate|discriminate]).
  assert (Hd : dir s1 = []) by (unfold s1; rewrite quiet_run; auto).
  destruct (first_choice PM MH e HP HM HG (place PM pre) p s1 ltac:(left; reflexivity) Iv Hd Nz) as (h & Nh & J).
  assert (E : put PM (or_up p) = chosen PM p).
  { destruct p; [reflexivity|]. cbn [or_up chosen]. apply put_id. cbn; lia. }
  assert (Nd : put PM (or_up p) <> []) by (eapply put_ne; eauto).
  exists h. split; [exact Nh|]. intros post Na s a. unfold s. rewrite run_app. cbn [run]. fold s1. cbn [step].
  rewrite <- E. eapply same_asks; eauto. apply run_same; eauto.
Qed.


Lemma c169_path_first PM MH e dflt pre d post fs t k : (3 < PM)%nat -> (10 <= MH)%nat -> hosts MH e -> Forall quiet pre ->
  d <> Some [] -> ~ In Again post ->
  let s := run PM MH e dflt (pre ++ CertPath d :: post) (fresh fs t k) in
  exists h, isname e h /\ forall a, fst (asking PM MH e a s) = h ++ ending a.
Proof.
  intros HP HM HG Q Nd Na s.
  assert (K : inv PM e (fun D => D = []) s).
  { unfold s. rewrite run_app. cbn [run]. set (s1 := run PM MH e dflt pre (fresh fs t k)).
    assert (I1 : inv PM e (fun D => D = []) s1 /\ dir s1 = []).
    { assert (G : forall os z, Forall quiet os -> inv PM e (fun D => D = []) z -> inv PM e (fun D => D = []) (run PM MH e dflt os z)).
      { induction os as [|o r IH]; intros z F J; [exact J|]. inversion F; subst. cbn [run]. apply IH; auto.
        destruct o; cbn [quiet step] in *; try contradiction.
        - apply host_inv; auto.
        - apply cert_inv; auto.
        - apply csr_inv; auto.
        - apply pkey_inv; auto.
        - unfold use_ca. destruct (ca z); auto. destruct J; split; auto.
        - unfold ca_file, use_ca. cbn [snd]. destruct (ca z) eqn:E; auto. destruct J; split; auto.
        - apply export_inv; auto. }
      split; [|unfold s1; rewrite quiet_run; auto]. apply G; auto. split; cbn; [auto|lia|left; repeat split]. }
    destruct I1 as [I1 D1]. cbn [step]. unfold cert_path. rewrite D1. cbn [snd].
    assert (Nz : or_up d <> []) by (destruct d as [[|]|]; cbn; [contradiction|discriminate|discriminate]).
    apply late_run; auto.
    - destruct I1 as [A B C]. split; cbn; auto. apply put_len; lia.
    - cbn. eapply put_ne; eauto. }
  destruct (asked PM MH e HP HM HG _ s eq_refl K) as (D & h & s1 & -> & _ & Nh & F & _).
  exists h. split; [exact Nh|]. intros a. rewrite F. reflexivity.
Qed.

(* a name handed out changes *)
Lemma c169_changed PM MH e dflt p fs t k h : (3 < PM)%nat -> (10 <= MH)%nat -> hosts MH e -> p <> [] ->
  gh e t = Some h -> h <> [] -> forall a,
  let s0 := fresh fs t k in
  fst (asking PM MH e a s0) = h ++ ending a /\
  fst (asking PM MH e a (run PM MH e dflt [UseCert (Some p)] (snd (asking PM MH e a s0)))) = firstn (PM - 1) p ++ h ++ ending a.
Proof.
  intros HP HM HG Np Hg Nh a s0.
  assert (Lh : (length h < MH)%nat) by (eapply HG; eauto).
  assert (E1 : forall b, asking PM MH e b s0 = (h ++ ending b, snd (asking PM MH e b s0)) /\
     host (snd (asking PM MH e b s0)) = h /\ dir (snd (asking PM MH e b s0)) = []).
  { intros b. destruct b; cbn [asking]; unfold cert_file, csr_file, pkey_file, s0; cbn [fresh cert csr pkey];
    unfold names_setup, hostname; cbn [host tick fresh]; rewrite Hg; cbn [cert fst snd dir host csr pkey fresh];
    (split; [|split; reflexivity]); (rewrite put_id; [reflexivity|rewrite app_length; cbn; lia]). }
  destruct (E1 a) as (E2 & Eh & Ed). rewrite E2. cbn [fst]. split; [reflexivity|]. cbn [snd run step use_cert].
  assert (Iv : inv PM e (place PM []) (snd (asking PM MH e a s0))).
  { assert (I0 : inv PM e (place PM []) s0) by (split; cbn; [auto|lia|left; repeat split]).
    destruct a; cbn [asking]; [apply cert_inv|apply csr_inv|apply pkey_inv]; auto; left; reflexivity. }
  pose proof (default_first PM MH e HP HM HG _ (Some p) _ Iv Ed Np) as J.
  erewrite same_asks; [|exact J]. cbn [fst]. unfold hostname. rewrite Eh. destruct h; [contradiction|]. reflexivity.
Qed.
